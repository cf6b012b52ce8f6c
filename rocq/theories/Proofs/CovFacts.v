(** Proofs for C98. *)
From Coq Require Import String Ascii Reals Lra Permutation NArith.
From Verif Require Import Base.Base Base.BaseFacts Base.Num Base.Bcast Model.Stokes Model.Demodulate
  Model.DemodFit Model.DemodLoad Model.DemodCov Spec.LoadSpec Spec.CovSpec Spec.Terminates Proofs.UtilFacts Proofs.LoadFacts.
Local Open Scope string_scope.
Local Open Scope list_scope.
Local Open Scope Z_scope.
Ltac Zify.zify_post_hook ::= idtac.

Section Cov.
  Context {A : Type} `{Num A}.

  Definition cov_readable (files : folder A) (h w : Z) : Prop :=
    forall n f i j, In (n, f) files -> two_digits n = Some (i, j) ->
       i < 3 /\ j < 3 /\ exists a, f = Image a /\ rows a = h /\ cols a = w.

  Lemma cov_loop_ok h w files : forall (m : tensor A) k,
    t_rows m = h -> t_cols m = w -> cov_readable files h w ->
    exists m', cov_loop m k files = Ok (m', k + Z.of_nat (length (keys files))) /\ t_rows m' = h /\ t_cols m' = w /\
      (NoDup (keys files) -> forall n a i j, In (n, Image a) files -> two_digits n = Some (i, j) ->
         t_cell m' i j = bcell a) /\
      (forall i j, ~ In (i, j) (keys files) -> t_cell m' i j = t_cell m i j).
  Proof.
    induction files as [|[n f] files IH]; intros m k Hr Hc Hg.
    - exists m. cbn. rewrite Z.add_0_r. repeat split; try assumption; intros; contradiction.
    - cbn [cov_loop].
      assert (Hg' : cov_readable files h w) by (intros n' f' i j Hin; apply (Hg n' f' i j); right; exact Hin).
      unfold keys in *. cbn [flat_map fst]. fold (keys files) in *.
      destruct (two_digits n) as [[i j]|] eqn:Et.
      + destruct (Hg n f i j (or_introl eq_refl) Et) as (Bi & Bj & a & -> & Ra & Ca). cbn [read_fits bind].
        unfold put_cov. rewrite Ra, Ca, Hr, Hc, !Z.eqb_refl.
        replace ((i <? 3) && (j <? 3)) with true by lia. cbn [negb orb andb bind]. 
        set (m1 := mktensor _ _ _).
        destruct (IH m1 (k + 1) eq_refl eq_refl Hg') as (m' & E & R' & C' & V' & U').
        exists m'. cbn [app length]. split; [rewrite E; do 2 f_equal; lia|]. split; [exact R'|]. split; [exact C'|]. split.
        * intros Hnd n' a' i' j' Hin Et'. apply NoDup_cons_iff in Hnd. destruct Hnd as [Hni Hnd]. destruct Hin as [Hin|Hin].
          -- injection Hin as -> ->. rewrite Et in Et'. injection Et' as <- <-. rewrite U' by exact Hni.
             cbn [m1 t_cell]. rewrite !Z.eqb_refl. reflexivity.
          -- apply (V' Hnd n'); assumption.
        * intros i' j' Hni. rewrite U' by (intros Hin; apply Hni; right; exact Hin). cbn [m1 t_cell].
          destruct ((i' =? i) && (j' =? j)) eqn:Eij; [|reflexivity]. exfalso. apply Hni. left. f_equal; lia.
      + destruct (IH m k Hr Hc Hg') as (m' & E & R' & C' & V' & U').
        exists m'. cbn [app]. split; [exact E|]. split; [exact R'|]. split; [exact C'|]. split; [|exact U'].
        intros Hnd n' a' i' j' [Hin|Hin] Et'; [injection Hin as -> ->; congruence|]. apply (V' Hnd n'); assumption.
  Qed.

  Lemma Cij_ok first a rest h w : let files := (first, Image a) :: rest in
    rows a = h -> cols a = w -> cov_readable files h w -> length (keys files) = 9%nat ->
    exists m', Cij files = Ok (Some m') /\ t_rows m' = h /\ t_cols m' = w /\
      (NoDup (keys files) -> forall n a i j, In (n, Image a) files -> two_digits n = Some (i, j) -> t_cell m' i j = bcell a) /\
      (forall i j, ~ In (i, j) (keys files) -> forall y x, t_cell m' i j y x = n0).
  Proof.
    intros files Ra Ca Hg Hk. unfold Cij, files. cbn [read_fits bind].
    destruct (cov_loop_ok h w files (mktensor (rows a) (cols a) (fun _ _ _ _ => n0)) 0 Ra Ca Hg) as (m' & E & R' & C' & V & U).
    unfold files in E. rewrite E. cbn [bind]. fold files. rewrite Hk. change (negb (0 + Z.of_nat 9 =? 9)) with false. cbv iota.
    exists m'. repeat (split; [assumption||reflexivity|]). intros i j Hni y x. rewrite U by exact Hni. reflexivity.
  Qed.

  Definition nine_pairs : list (Z * Z) := map (fun k => (k / 3, k mod 3)) (zrange 9).
  Lemma nine_NoDup : NoDup nine_pairs.
  Proof. vm_compute. repeat (constructor; [cbn; intuition discriminate|]). constructor. Qed.
  Lemma in_nine i j : 0 <= i < 3 -> 0 <= j < 3 -> In (i, j) nine_pairs.
  Proof.
    intros Hi Hj. unfold nine_pairs. apply in_map_iff. exists (3 * i + j). split; [|apply in_zrange; lia].
    f_equal; symmetry; [apply Z.div_unique with j|apply Z.mod_unique with i]; lia.
  Qed.

  Lemma cov_two_digits i j : 0 <= i < 3 -> 0 <= j < 3 -> two_digits (cov_name i j) = Some (i, j).
  Proof.
    intros Hi Hj. assert (Ei : i = 0 \/ i = 1 \/ i = 2) by lia. assert (Ej : j = 0 \/ j = 1 \/ j = 2) by lia.
    destruct Ei as [->|[->| ->]]; destruct Ej as [->|[->| ->]]; reflexivity.
  Qed.

  Lemma cov_in (c : tensor A) chisq i j : 0 <= i < 3 -> 0 <= j < 3 ->
    In (cov_name i j, Image (tslice c i j)) (cov_written c chisq).
  Proof.
    intros Hi Hj. unfold cov_written. apply in_or_app. left. apply in_map_iff. exists (3 * i + j).
    split; [|apply in_zrange; lia].
    assert (E1 : (3 * i + j) / 3 = i) by (symmetry; apply Z.div_unique with j; lia).
    assert (E2 : (3 * i + j) mod 3 = j) by (symmetry; apply Z.mod_unique with i; lia).
    rewrite E1, E2. reflexivity.
  Qed.

  Lemma cov_written_in (c : tensor A) chisq n f : In (n, f) (cov_written c chisq) ->
    (exists i j, 0 <= i < 3 /\ 0 <= j < 3 /\ n = cov_name i j /\ f = Image (tslice c i j)) \/
    (n = "reduced_chisquare.fits" /\ f = Image chisq).
  Proof.
    intros Hin. unfold cov_written in Hin. apply in_app_or in Hin. destruct Hin as [Hin|[Hin|[]]].
    - left. apply in_map_iff in Hin. destruct Hin as (k & E & Hk). apply in_zrange in Hk. injection E as <- <-.
      exists (k / 3), (k mod 3). pose proof (Z.mod_pos_bound k 3 ltac:(lia)). pose proof (Z.div_mod k 3 ltac:(lia)).
      split; [lia|]. split; [lia|]. split; reflexivity.
    - right. injection Hin as <- <-. split; reflexivity.
  Qed.

  Lemma cov_keys (c : tensor A) chisq : keys (cov_written c chisq) = nine_pairs.
  Proof. reflexivity. Qed.

  Lemma unnumbered_keys (extra : folder A) : (forall n f, In (n, f) extra -> unnumbered n) -> keys extra = [].
  Proof.
    intros Hex. unfold keys. induction extra as [|[n f] extra IH]; [reflexivity|]. cbn [flat_map fst].
    rewrite (proj2 (two_digits_none n) (Hex n f (or_introl eq_refl))). cbn [app].
    apply IH. intros n' f' Hin. apply (Hex n' f'). right. exact Hin.
  Qed.

  Lemma c98_cov (c : tensor A) chisq (extra files : folder A) :
    rows chisq = t_rows c -> cols chisq = t_cols c ->
    Permutation files (cov_written c chisq ++ extra) ->
    (forall n f, In (n, f) extra -> unnumbered n /\ exists a, f = Image a /\ rows a = t_rows c /\ cols a = t_cols c) ->
    exists m, Cij files = Ok (Some m) /\ same_tensor33 m c.
  Proof.
    intros Rc Cc Hp Hex.
    assert (Hk : Permutation (keys files) nine_pairs).
    { rewrite (keys_perm _ _ Hp), keys_app, cov_keys, (unnumbered_keys extra), app_nil_r; [reflexivity|].
      intros n f Hin. apply (Hex n f Hin). }
    assert (Hall : forall n f, In (n, f) files -> exists a, f = Image a /\ rows a = t_rows c /\ cols a = t_cols c).
    { intros n f Hin. apply (Permutation_in _ Hp), in_app_or in Hin. destruct Hin as [Hin|Hin]; [|apply (Hex n f Hin)].
      destruct (cov_written_in c chisq n f Hin) as [(i & j & _ & _ & _ & ->)|(_ & ->)]; eexists; (split; [reflexivity|]); [split; reflexivity|split; assumption]. }
    destruct files as [|[first f0] rest].
    { apply Permutation_length in Hk. discriminate. }
    destruct (Hall first f0 (or_introl eq_refl)) as (a & -> & Ra & Ca).
    destruct (Cij_ok first a rest (t_rows c) (t_cols c) Ra Ca) as (m & E & R & C & V & _).
    - intros n f i j Hin Et. destruct (Hall n f Hin) as (b & Eb & Rb & Cb). pose proof Hin as Hin'.
      apply (Permutation_in _ Hp), in_app_or in Hin'. destruct Hin' as [Hin'|Hin'].
      + destruct (cov_written_in c chisq n f Hin') as [(i' & j' & Hi & Hj & -> & _)|(-> & _)]; [|discriminate].
        rewrite cov_two_digits in Et by assumption. injection Et as <- <-. split; [lia|]. split; [lia|]. exists b. auto.
      + rewrite (proj2 (two_digits_none n) (proj1 (Hex n f Hin'))) in Et. discriminate.
    - rewrite (Permutation_length Hk). reflexivity.
    - exists m. split; [exact E|]. split; [exact R|]. split; [exact C|]. intros i j y x Hi Hj Hy Hx.
      rewrite (V (Permutation_NoDup (Permutation_sym Hk) nine_NoDup) (cov_name i j) (tslice c i j) i j).
      + rewrite bcell_in by (cbn; lia). reflexivity.
      + apply (Permutation_in _ (Permutation_sym Hp)), in_or_app. left. apply cov_in; assumption.
      + apply cov_two_digits; assumption.
  Qed.

  Lemma c98_first_broken n (rest : folder A) : Cij ((n, Broken) :: rest) = Raise OSError.
  Proof. reflexivity. Qed.

  Lemma cov_loop_inv (files : folder A) : forall m k m' k', cov_loop m k files = Ok (m', k') ->
    k' = k + Z.of_nat (length (keys files)) /\ forall i j, In (i, j) (keys files) -> i < 3 /\ j < 3.
  Proof.
    induction files as [|[n f] files IH]; intros m k m' k' E.
    - injection E as _ <-. cbn. split; [lia|intros; contradiction].
    - cbn [cov_loop] in E. unfold keys. cbn [flat_map fst]. fold (keys files). destruct (two_digits n) as [[i j]|] eqn:Et.
      + destruct f as [a|]; [|discriminate]. cbn [read_fits bind] in E. apply bind_ok in E. destruct E as (m1 & Em & E).
        unfold put_cov in Em. destruct ((i <? 3) && (j <? 3)) eqn:Eij; [|discriminate].
        destruct (IH _ _ _ _ E) as (-> & K). cbn [app length]. split; [lia|].
        intros i' j' [Eq|Hin]; [injection Eq as <- <-; lia|apply K; exact Hin].
      + cbn [app]. exact (IH _ _ _ _ E).
  Qed.

  Lemma cov_loop_fuel (files : folder A) : forall m k, cov_loop m k files <> NoFuel.
  Proof.
    induction files as [|[n f] files IH]; intros m k; [discriminate|]. cbn [cov_loop].
    destruct (two_digits n) as [[i j]|]; [|apply IH]. destruct f as [a|]; [|discriminate]. cbn [read_fits bind].
    unfold put_cov. destruct (negb ((i <? 3) && (j <? 3))); [discriminate|]. destruct (negb _); [discriminate|]. cbn [bind]. apply IH.
  Qed.

  Lemma Cij_raises (files : folder A) : files <> [] -> (forall m, Cij files <> Ok (Some m)) -> raises (Cij files).
  Proof.
    intros Hne Hn. destruct files as [|[n f] files]; [contradiction|]. destruct f as [a|]; [|exists OSError; reflexivity].
    revert Hn. unfold Cij. cbn [read_fits bind].
    destruct (cov_loop _ 0 ((n, Image a) :: files)) as [[m k]|e|] eqn:E; cbn [bind].
    - destruct (negb (k =? 9)); intros Hn; [exists ValueError; reflexivity|exfalso; exact (Hn m eq_refl)].
    - intros _. exists e. reflexivity.
    - intros _. exfalso. exact (cov_loop_fuel _ _ _ E).
  Qed.

  Lemma Cij_inv (files : folder A) m : Cij files = Ok (Some m) ->
    length (keys files) = 9%nat /\ forall i j, In (i, j) (keys files) -> i < 3 /\ j < 3.
  Proof.
    destruct files as [|[n f] files]; [discriminate|]. unfold Cij. destruct f as [a|]; [|discriminate]. cbn [read_fits bind].
    intros E. apply bind_ok in E. destruct E as ([m' k] & E1 & E2). destruct (cov_loop_inv _ _ _ _ _ E1) as (Ek & K).
    destruct (k =? 9) eqn:E9; [|discriminate]. split; [lia|exact K].
  Qed.

  Lemma two_digits_pos s i j : two_digits s = Some (i, j) -> 0 <= i /\ 0 <= j.
  Proof. intro E. apply two_digits_spec in E. destruct E as (p & (Hi & Hj & _) & _). lia. Qed.

  Lemma c98_missing (files : folder A) i j : files <> [] ->
    NoDup (map fst files) ->
    (forall n n' f f' i' j', In (n, f) files -> In (n', f') files -> numbered n i' j' -> numbered n' i' j' -> n = n') ->
    0 <= i < 3 -> 0 <= j < 3 -> (forall n f, In (n, f) files -> ~ numbered n i j) ->
    raises (Cij files).
  Proof.
    intros Hne Hnd Huniq Hi Hj Hmiss. apply Cij_raises; [exact Hne|]. intros m E. destruct (Cij_inv _ _ E) as (L & K).
    assert (Hkn : NoDup (keys files)).
    { clear - Hnd Huniq. induction files as [|[n f] files IH]; [constructor|].
      unfold keys. cbn [flat_map fst]. fold (keys files). cbn [map fst] in Hnd. apply NoDup_cons_iff in Hnd. destruct Hnd as [Hni Hnd].
      assert (Hk : NoDup (keys files)).
      { apply IH; [exact Hnd|]. intros n1 n2 f1 f2 i' j' H1 H2. apply (Huniq n1 n2 f1 f2); right; assumption. }
      destruct (two_digits n) as [[i j]|] eqn:Et; [|exact Hk]. cbn [app]. constructor; [|exact Hk].
      intros Hin. apply keys_in in Hin. destruct Hin as (n' & f' & Hin & Et').
      assert (n = n').
      { apply (Huniq n n' f f' i j); [left; reflexivity|right; exact Hin|apply two_digits_spec; exact Et|apply two_digits_spec; exact Et']. }
      subst n'. apply Hni. apply in_map_iff. exists (n, f'). split; [reflexivity|exact Hin]. }
    assert (Hincl : incl ((i, j) :: keys files) nine_pairs).
    { intros (i', j') [Eq|Hin].
      - injection Eq as <- <-. apply in_nine; assumption.
      - destruct (K i' j' Hin) as (Bi & Bj). apply keys_in in Hin. destruct Hin as (n & f & _ & Et). apply two_digits_pos in Et.
        apply in_nine; lia. }
    assert (Hnd' : NoDup ((i, j) :: keys files)).
    { constructor; [|exact Hkn]. intros Hin. apply keys_in in Hin. destruct Hin as (n & f & Hin & Et).
      apply (Hmiss n f Hin). apply two_digits_spec. exact Et. }
    pose proof (NoDup_incl_length Hnd' Hincl) as Hlen. cbn [length] in Hlen. rewrite L in Hlen. change (length nine_pairs) with 9%nat in Hlen. lia.
  Qed.

  Lemma c98_copy (c : tensor A) (copy chisq : arr A) :
    rows copy = t_rows c -> cols copy = t_cols c ->
    exists m, Cij (tl (cov_written c chisq) ++ [("C01_copy.fits"%string, Image copy)]) = Ok (Some m) /\
      forall y x, t_cell m 0 0 y x = n0.
  Proof.
    intros Rc Cc. set (files := tl (cov_written c chisq) ++ [("C01_copy.fits"%string, Image copy)]).
    assert (K : keys files = tl nine_pairs ++ [(0, 1)]) by reflexivity.
    assert (F : files = (cov_name 0 1, Image (tslice c 0 1)) :: tl files) by reflexivity.
    destruct (Cij_ok (cov_name 0 1) (tslice c 0 1) (tl files) (t_rows c) (t_cols c) eq_refl eq_refl) as (m & E & _ & _ & _ & U).
    - rewrite <- F. intros n f i j Hin Et. unfold files in Hin. apply in_app_or in Hin. destruct Hin as [Hin|[Hin|[]]].
      + assert (Hin' : In (n, f) (cov_written c chisq)) by (right; exact Hin).
        destruct (cov_written_in c chisq n f Hin') as [(i' & j' & Hi & Hj & -> & ->)|(-> & _)]; [|discriminate].
        rewrite cov_two_digits in Et by assumption. injection Et as <- <-. split; [lia|]. split; [lia|].
        eexists. split; [reflexivity|]. split; reflexivity.
      + injection Hin as <- <-. injection Et as <- <-. split; [lia|]. split; [lia|]. exists copy. auto.
    - rewrite <- F, K. reflexivity.
    - rewrite <- F in *. exists m. split; [exact E|]. intros y x. apply U. rewrite K. vm_compute. intuition discriminate.
  Qed.

  (** ** The maps *)
  Lemma read_map_in name a (files : folder A) : NoDup (map fst files) -> In (name, Image a) files -> read_map name files = Ok a.
  Proof.
    intros Hnd Hin. unfold read_map. induction files as [|[n f] files IH]; [destruct Hin|]. cbn [find fst].
    cbn [map fst] in Hnd. apply NoDup_cons_iff in Hnd. destruct Hnd as [Hni Hnd]. destruct (String.eqb_spec n name) as [->|Hn].
    - destruct Hin as [Eq|Hin]; [injection Eq as ->; reflexivity|]. exfalso. apply Hni. apply in_map_iff. exists (name, Image a). auto.
    - destruct Hin as [Eq|Hin]; [congruence|]. exact (IH Hnd Hin).
  Qed.

  Lemma c98_maps (c : calibration A) (extra files : folder A) :
    Permutation files (written_files c ++ extra) -> NoDup (map fst files) ->
    tk files = Ok (k_tk c) /\ eff files = Ok (k_eff c) /\ phi files = Ok (k_phase c).
  Proof.
    intros Hp Hnd. assert (Hin : forall e, In e (written_files c) -> In e files).
    { intros e He. apply (Permutation_in _ (Permutation_sym Hp)), in_or_app. left. exact He. }
    split; [|split]; (apply read_map_in; [exact Hnd|]; apply Hin; unfold written_files; apply in_or_app; right).
    - left. reflexivity.
    - right. left. reflexivity.
    - do 2 right. left. reflexivity.
  Qed.

  Lemma c98_no_map name (files : folder A) : ~ In name (map fst files) -> read_map name files = Raise FileNotFoundError.
  Proof.
    intros Hni. unfold read_map. destruct (find _ files) as [[n f]|] eqn:E; [|reflexivity].
    apply find_some in E. destruct E as [Hin E]. cbn [fst] in E. apply String.eqb_eq in E. subst n.
    exfalso. apply Hni. apply in_map_iff. exists (name, f). auto.
  Qed.
End Cov.
