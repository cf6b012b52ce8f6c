From Coq Require Import String Ascii Reals Lra Permutation NArith.
From Verif Require Import Base.Base Base.BaseFacts Base.Num Base.Bcast Model.Stokes Model.Demodulate
  Model.DemodLoad Spec.LoadSpec Spec.Terminates Proofs.UtilFacts.
Local Open Scope string_scope.
Local Open Scope list_scope.
Local Open Scope Z_scope.
Ltac Zify.zify_post_hook ::= idtac.

(** ** Names *)
Lemma digit_spec c i : digit c = Some i <-> 0 <= i < 10 /\ c = ascii_of_N (Z.to_N (48 + i)).
Proof.
  unfold digit. pose proof (N_ascii_bounded c) as Hb. split.
  - destruct ((48 <=? Z.of_N (N_of_ascii c)) && (Z.of_N (N_of_ascii c) <=? 57)) eqn:E; [|discriminate].
    intros E'. injection E' as <-. split; [lia|].
    replace (48 + (Z.of_N (N_of_ascii c) - 48)) with (Z.of_N (N_of_ascii c)) by lia.
    rewrite N2Z.id, ascii_N_embedding. reflexivity.
  - intros (Hi & ->). rewrite N_ascii_embedding by lia. rewrite Z2N.id by lia.
    replace ((48 <=? 48 + i) && (48 + i <=? 57)) with true by lia. f_equal. lia.
Qed.

Lemma pair_at_0 s i j : pair_at s 0 i j <->
  exists a b rest, s = String a (String b rest) /\ digit a = Some i /\ digit b = Some j.
Proof.
  unfold pair_at. split.
  - intros (Hi & Hj & G0 & G1). destruct s as [|a [|b rest]]; cbn in G0, G1; try discriminate.
    injection G0 as ->. injection G1 as ->. do 3 eexists. split; [reflexivity|].
    split; apply digit_spec; auto.
  - intros (a & b & rest & -> & Da & Db). apply digit_spec in Da. apply digit_spec in Db.
    destruct Da as [? ->], Db as [? ->]. cbn. auto.
Qed.

Lemma pair_at_S a s p i j : pair_at (String a s) (S p) i j <-> pair_at s p i j.
Proof. unfold pair_at. cbn. tauto. Qed.

Lemma two_digits_cons a s :
  two_digits (String a s) =
  match digit a, s with
  | Some i, String b _ => match digit b with Some j => Some (i, j) | None => two_digits s end
  | _, _ => two_digits s
  end.
Proof. reflexivity. Qed.

Lemma two_digits_spec s i j : two_digits s = Some (i, j) <-> numbered s i j.
Proof.
  revert i j. induction s as [|a s IH]; intros i j.
  - split; [discriminate|]. intros (p & (_ & _ & G & _) & _). destruct p; discriminate.
  - assert (Hstep : (forall i' j', ~ pair_at (String a s) 0 i' j') ->
                    (numbered s i j <-> numbered (String a s) i j)).
    { intros Hno. split.
      - intros (p & Hp & Hf). exists (S p). split; [apply (proj2 (pair_at_S _ _ _ _ _)); exact Hp|].
        intros [|q] i' j' Hq; [apply Hno|]. intros H. apply (proj1 (pair_at_S _ _ _ _ _)) in H. apply (Hf q i' j'); [lia|exact H].
      - intros ([|p] & Hp & Hf); [exfalso; exact (Hno _ _ Hp)|].
        exists p. split; [apply (proj1 (pair_at_S _ _ _ _ _)) in Hp; exact Hp|].
        intros q i' j' Hq H. apply (Hf (S q) i' j'); [lia|apply (proj2 (pair_at_S _ _ _ _ _)); exact H]. }
    rewrite two_digits_cons.
    destruct (digit a) as [i0|] eqn:Da; [destruct s as [|b rest]; [|destruct (digit b) as [j0|] eqn:Db]|].
    + rewrite IH. apply Hstep. intros i' j' H. apply (proj1 (pair_at_0 _ _ _)) in H.
      destruct H as (? & ? & ? & ? & _). discriminate.
    + split.
      * intros E. injection E as <- <-. exists 0%nat. split; [|intros; lia].
        apply (proj2 (pair_at_0 _ _ _)). do 3 eexists. split; [reflexivity|]. split; assumption.
      * intros ([|p] & Hp & Hf).
        -- apply (proj1 (pair_at_0 _ _ _)) in Hp. destruct Hp as (x & y & r & E & Dx & Dy).
           injection E as -> -> ->. congruence.
        -- exfalso. apply (Hf 0%nat i0 j0); [lia|]. apply (proj2 (pair_at_0 _ _ _)).
           do 3 eexists. split; [reflexivity|]. split; assumption.
    + rewrite IH. apply Hstep. intros i' j' H. apply (proj1 (pair_at_0 _ _ _)) in H.
      destruct H as (x & y & r & E & Dx & Dy). injection E as -> -> ->. congruence.
    + rewrite IH. apply Hstep. intros i' j' H. apply (proj1 (pair_at_0 _ _ _)) in H.
      destruct H as (x & y & r & E & Dx & Dy). injection E as -> ->. congruence.
Qed.

Lemma two_digits_none s : two_digits s = None <-> unnumbered s.
Proof.
  split.
  - induction s as [|a s IH]; intros E p i j H.
    + destruct H as (_ & _ & G & _). destruct p; discriminate.
    + rewrite two_digits_cons in E. destruct p as [|p].
      * apply (proj1 (pair_at_0 _ _ _)) in H. destruct H as (x & y & r & E' & Dx & Dy). injection E' as -> ->.
        rewrite Dx, Dy in E. discriminate.
      * apply (proj1 (pair_at_S _ _ _ _ _)) in H. revert H. apply IH.
        destruct (digit a); [|exact E]. destruct s as [|b rest]; [exact E|].
        destruct (digit b); [discriminate|exact E].
  - intros H. destruct (two_digits s) as [[i j]|] eqn:E; [|reflexivity].
    apply two_digits_spec in E. destruct E as (p & Hp & _). exfalso. exact (H _ _ _ Hp).
Qed.

(** ** Loading *)
Definition keys {A} (files : folder A) : list (Z * Z) :=
  flat_map (fun e => match two_digits (fst e) with Some k => [k] | None => [] end) files.

Definition flag_name : string := "fit_found_flag.fits".

Section Load.
  Context {A : Type} `{Num A}.

  Definition readable (files : folder A) (h w : Z) : Prop :=
    (forall n f i j, In (n, f) files -> two_digits n = Some (i, j) ->
       i < 3 /\ j < 4 /\ exists a, f = Image a /\ rows a = h /\ cols a = w) /\
    (forall f, In (flag_name, f) files -> exists a, f = Image a).

  Lemma readable_tl e files h w : readable (e :: files) h w -> readable files h w.
  Proof.
    intros (H1 & H2). split.
    - intros n f i j Hin. apply H1. right. exact Hin.
    - intros f Hin. apply H2. right. exact Hin.
  Qed.

  Lemma load_files_ok h w files : forall st : loading,
    t_rows (l_m st) = h -> t_cols (l_m st) = w -> readable files h w ->
    exists st', load_files st files = Ok st' /\ t_rows (l_m st') = h /\ t_cols (l_m st') = w /\
      l_matches st' = l_matches st + Z.of_nat (length (keys files)) /\
      (NoDup (keys files) -> forall n a i j, In (n, Image a) files -> two_digits n = Some (i, j) ->
         t_cell (l_m st') i j = bcell a) /\
      (forall i j, ~ In (i, j) (keys files) -> t_cell (l_m st') i j = t_cell (l_m st) i j) /\
      (NoDup (map fst files) -> forall a, In (flag_name, Image a) files -> l_flags st' = Some a) /\
      (~ In flag_name (map fst files) -> l_flags st' = l_flags st).
  Proof.
    induction files as [|[n f] files IH]; intros st Hr Hc Hg.
    - exists st. cbn. repeat split; try assumption; try lia; intros; contradiction.
    - cbn [load_files].
      assert (E : exists st1, load_file st (n, f) = Ok st1 /\ t_rows (l_m st1) = h /\ t_cols (l_m st1) = w /\
        match two_digits n with
        | Some (i, j) => l_matches st1 = l_matches st + 1 /\
            (forall a, f = Image a -> t_cell (l_m st1) i j = bcell a) /\
            (forall i' j', (i', j') <> (i, j) -> t_cell (l_m st1) i' j' = t_cell (l_m st) i' j')
        | None => l_matches st1 = l_matches st /\ l_m st1 = l_m st
        end /\
        (forall a, n = flag_name -> f = Image a -> l_flags st1 = Some a) /\
        (n <> flag_name -> l_flags st1 = l_flags st)).
      { destruct Hg as (G1 & G2). unfold load_file.
        destruct (two_digits n) as [[i j]|] eqn:Et.
        - destruct (G1 n f i j (or_introl eq_refl) Et) as (Bi & Bj & a & -> & Ra & Ca).
          cbn [read_fits bind]. unfold put_matrix. rewrite Ra, Ca, Hr, Hc, !Z.eqb_refl.
          replace ((i <? 3) && (j <? 4)) with true by lia. cbn [negb orb andb bind].
          destruct (String.eqb_spec n "fit_found_flag.fits") as [->|Hn].
          { exfalso. vm_compute in Et. discriminate. }
          eexists. split; [reflexivity|]. cbn [l_m l_flags l_matches t_rows t_cols t_cell].
          repeat (split; [reflexivity|]). split; [split; [reflexivity|split]|split].
          + intros b Eb. injection Eb as <-. rewrite !Z.eqb_refl. reflexivity.
          + intros i' j' Hne. destruct ((i' =? i) && (j' =? j)) eqn:Eij; [|reflexivity].
            exfalso. apply Hne. f_equal; lia.
          + intros b En. contradiction.
          + reflexivity.
        - cbn [bind]. destruct (String.eqb_spec n "fit_found_flag.fits") as [->|Hn].
          + destruct (G2 f (or_introl eq_refl)) as (a & ->). cbn [read_fits bind].
            eexists. split; [reflexivity|]. cbn [l_m l_flags l_matches].
            split; [exact Hr|]. split; [exact Hc|]. split; [split; reflexivity|]. split.
            * intros b _ Eb. injection Eb as ->. reflexivity.
            * intros Hn. exfalso. apply Hn. reflexivity.
          + eexists. split; [reflexivity|]. split; [exact Hr|]. split; [exact Hc|].
            split; [split; reflexivity|]. split; [intros b En; contradiction|reflexivity]. }
      destruct E as (st1 & -> & R1 & C1 & K1 & F1 & F2). cbn [bind].
      destruct (IH st1 R1 C1 (readable_tl _ _ _ _ Hg)) as (st' & E' & R' & C' & M' & V' & U' & L' & N').
      exists st'. split; [exact E'|]. split; [exact R'|]. split; [exact C'|].
      unfold keys in *. cbn [flat_map fst]. fold (keys files) in *.
      destruct (two_digits n) as [[i j]|] eqn:Et.
      + destruct K1 as (Km & Kv & Ku). cbn [app length].
        split; [lia|]. split; [|split; [|split]].
        * intros Hnd n' a i' j' [Hin|Hin] Et'.
          -- injection Hin as -> ->. rewrite Et in Et'. injection Et' as <- <-.
             apply NoDup_cons_iff in Hnd. destruct Hnd as [Hni _]. rewrite U' by exact Hni.
             apply Kv. reflexivity.
          -- apply NoDup_cons_iff in Hnd. destruct Hnd as [_ Hnd]. apply (V' Hnd n'); assumption.
        * intros i' j' Hni. rewrite U' by (intros Hin; apply Hni; right; exact Hin).
          apply Ku. intros Eq. apply Hni. left. symmetry. exact Eq.
        * intros Hnd a [Hin|Hin].
          -- injection Hin as -> ->. cbn [map fst] in Hnd. apply NoDup_cons_iff in Hnd. destruct Hnd as [Hni _].
             rewrite N' by exact Hni. apply F1; reflexivity.
          -- cbn [map fst] in Hnd. apply NoDup_cons_iff in Hnd. apply L'; [apply Hnd|exact Hin].
        * intros Hni. cbn [map fst] in Hni. rewrite N' by (intros Hin; apply Hni; right; exact Hin).
          apply F2. intros ->. apply Hni. left. reflexivity.
      + destruct K1 as (Km & Ku). cbn [app length].
        split; [lia|]. split; [|split; [|split]].
        * intros Hnd n' a i' j' [Hin|Hin] Et'; [injection Hin as -> ->; congruence|].
          apply (V' Hnd n'); assumption.
        * intros i' j' Hni. rewrite U' by exact Hni. rewrite Ku. reflexivity.
        * intros Hnd a [Hin|Hin].
          -- injection Hin as -> ->. cbn [map fst] in Hnd. apply NoDup_cons_iff in Hnd. destruct Hnd as [Hni _].
             rewrite N' by exact Hni. apply F1; reflexivity.
          -- cbn [map fst] in Hnd. apply NoDup_cons_iff in Hnd. apply L'; [apply Hnd|exact Hin].
        * intros Hni. cbn [map fst] in Hni. rewrite N' by (intros Hin; apply Hni; right; exact Hin).
          apply F2. intros ->. apply Hni. left. reflexivity.
  Qed.

  Lemma sample_matrix_in files (f : fits_file A) : sample_matrix files = Some f ->
    exists n i j, In (n, f) files /\ two_digits n = Some (i, j).
  Proof.
    induction files as [|[n g] files IH]; [discriminate|]. cbn [sample_matrix].
    destruct (two_digits n) as [[i j]|] eqn:E.
    - intros Ef. injection Ef as ->. exists n, i, j. split; [left; reflexivity|exact E].
    - intros Ef. destruct (IH Ef) as (n' & i & j & Hin & E'). exists n', i, j. split; [right; exact Hin|exact E'].
  Qed.

  Lemma sample_matrix_none (files : folder A) : sample_matrix files = None -> keys files = [].
  Proof.
    induction files as [|[n g] files IH]; [reflexivity|]. cbn [sample_matrix]. unfold keys in *.
    cbn [flat_map fst]. destruct (two_digits n); [discriminate|]. exact IH.
  Qed.

  (** Twelve readable numbered files, all of the same shape *)
  Lemma load_ok (files : folder A) h w :
    readable files h w -> length (keys files) = 12%nat ->
    exists d, load files = Ok d /\ t_rows (mij d) = h /\ t_cols (mij d) = w /\
      (NoDup (keys files) -> forall n a i j, In (n, Image a) files -> two_digits n = Some (i, j) ->
         t_cell (mij d) i j = bcell a) /\
      (forall i j, ~ In (i, j) (keys files) -> forall y x, t_cell (mij d) i j y x = n0) /\
      (NoDup (map fst files) -> forall a, In (flag_name, Image a) files -> fit_found_flags d = Some a) /\
      (~ In flag_name (map fst files) -> fit_found_flags d = None).
  Proof.
    intros Hg Hlen. unfold load.
    destruct (sample_matrix files) as [f|] eqn:Es.
    2: { rewrite (sample_matrix_none files Es) in Hlen. discriminate. }
    destruct (sample_matrix_in files f Es) as (n & i & j & Hin & Et).
    destruct (proj1 Hg n f i j Hin Et) as (_ & _ & a & -> & Ra & Ca).
    set (m0 := mktensor (rows a) (cols a) (fun _ _ _ _ => n0)).
    destruct (load_files_ok h w files (mkloading m0 None 0) Ra Ca Hg)
      as (st & E & R & C & M & V & U & L & N).
    cbn [l_m l_flags l_matches] in *. rewrite Hlen in M.
    exists (mkdemodulator (l_m st) (l_flags st)). split.
    - destruct files as [|e files]; [discriminate|]. cbn [read_fits bind]. fold m0. rewrite E. cbn [bind].
      rewrite M. reflexivity.
    - cbn [mij fit_found_flags]. split; [exact R|]. split; [exact C|]. split; [exact V|].
      split; [|split; [exact L|exact N]]. intros i' j' Hni y x. rewrite U by exact Hni. reflexivity.
  Qed.

  Lemma load_files_inv (files : folder A) : forall st st' : loading, load_files st files = Ok st' ->
    l_matches st' = l_matches st + Z.of_nat (length (keys files)) /\
    (forall i j, In (i, j) (keys files) -> i < 3 /\ j < 4) /\
    (forall n f i j, In (n, f) files -> two_digits n = Some (i, j) -> f <> Broken) /\
    (forall f, In (flag_name, f) files -> f <> Broken).
  Proof.
    induction files as [|[n f] files IH]; intros st st' E.
    - injection E as <-. cbn. split; [lia|]. repeat split; intros; contradiction.
    - cbn [load_files] in E. apply bind_ok in E. destruct E as (st1 & E1 & E2).
      destruct (IH _ _ E2) as (M & K & B & F). clear IH E2.
      unfold keys in *. cbn [flat_map fst]. fold (keys files) in *. unfold load_file in E1.
      destruct (two_digits n) as [[i j]|] eqn:Et.
      + destruct f as [a|]; [|discriminate]. cbn [read_fits bind] in E1.
        apply bind_ok in E1. destruct E1 as (st2 & E1 & E3).
        apply bind_ok in E1. destruct E1 as (m & Em & E1).
        unfold put_matrix in Em. destruct ((i <? 3) && (j <? 4)) eqn:Eij; [|discriminate].
        destruct (String.eqb_spec n "fit_found_flag.fits") as [->|Hn].
        { exfalso. vm_compute in Et. discriminate. }
        injection E1 as <-. injection E3 as <-. cbn [l_matches app length] in *. split; [lia|].
        split; [|split].
        * intros i' j' [Eq|Hin]; [injection Eq as <- <-; lia|apply K; exact Hin].
        * intros n' f' i' j' [Eq|Hin] Et'; [injection Eq as <- <-; discriminate|exact (B _ _ _ _ Hin Et')].
        * intros f' [Eq|Hin]; [injection Eq as En <-; contradiction|exact (F _ Hin)].
      + cbn [bind] in E1. cbn [app].
        assert (Hst : l_matches st1 = l_matches st /\ (n = flag_name -> f <> Broken)).
        { destruct (String.eqb_spec n "fit_found_flag.fits") as [->|Hn].
          - destruct f as [a|]; [|discriminate]. cbn [read_fits bind] in E1. injection E1 as <-.
            split; [reflexivity|discriminate].
          - injection E1 as <-. split; [reflexivity|contradiction]. }
        destruct Hst as (Hm & Hf). split; [lia|]. split; [exact K|]. split.
        * intros n' f' i' j' [Eq|Hin] Et'; [injection Eq as -> ->; congruence|exact (B _ _ _ _ Hin Et')].
        * intros f' [Eq|Hin]; [injection Eq as -> ->; apply Hf; reflexivity|exact (F _ Hin)].
  Qed.

  Lemma load_files_fuel (files : folder A) : forall st : loading, load_files st files <> NoFuel.
  Proof.
    induction files as [|[n f] files IH]; intros st; [discriminate|]. cbn [load_files].
    assert (Hr : forall g : fits_file A, read_fits g = Raise OSError \/ exists a, read_fits g = Ok a).
    { intros [a|]; [right; exists a; reflexivity|left; reflexivity]. }
    destruct (load_file st (n, f)) as [st1|e|] eqn:E; cbn [bind]; [apply IH|discriminate|].
    exfalso. revert E. unfold load_file.
    destruct (two_digits n) as [[i j]|]; destruct (Hr f) as [-> | [a ->]]; cbn [bind];
      try (unfold put_matrix; destruct (negb ((i <? 3) && (j <? 4)));
           [|destruct (negb _)]; cbn [bind]); try discriminate;
      destruct (String.eqb n "fit_found_flag.fits"); discriminate.
  Qed.

  Lemma load_inv (files : folder A) d : load files = Ok d ->
    length (keys files) = 12%nat /\
    (forall i j, In (i, j) (keys files) -> i < 3 /\ j < 4) /\
    (forall n f i j, In (n, f) files -> two_digits n = Some (i, j) -> f <> @Broken A) /\
    (forall f, In (flag_name, f) files -> f <> Broken).
  Proof.
    unfold load. destruct files as [|e files]; [discriminate|].
    destruct (sample_matrix (e :: files)) as [f|]; [|discriminate].
    destruct f as [a|]; [|discriminate]. cbn [read_fits bind]. intros E.
    apply bind_ok in E. destruct E as (st & E1 & E2).
    destruct (load_files_inv _ _ _ E1) as (M & K & B & F). cbn [l_matches] in M.
    destruct (l_matches st =? 12) eqn:Em; [|discriminate].
    split; [lia|]. split; [exact K|]. split; [exact B|exact F].
  Qed.

  Lemma load_raises (files : folder A) : (forall d, load files <> Ok d) -> raises (load files).
  Proof.
    intros Hn. destruct (load files) as [d|e|] eqn:E; [exfalso; exact (Hn d eq_refl)|exists e; reflexivity|].
    exfalso. revert E. unfold load. destruct files as [|e files]; [discriminate|].
    destruct (sample_matrix (e :: files)) as [f|]; [|discriminate].
    destruct f as [a|]; [|discriminate]. cbn [read_fits bind].
    destruct (load_files _ (e :: files)) as [st|x|] eqn:El; cbn [bind]; [|discriminate|].
    - destruct (negb _); discriminate.
    - intros _. exact (load_files_fuel _ _ El).
  Qed.

  Lemma keys_app (l l' : folder A) : keys (l ++ l') = keys l ++ keys l'.
  Proof. unfold keys. apply flat_map_app. Qed.

  Lemma keys_in (files : folder A) i j :
    In (i, j) (keys files) <-> exists n f, In (n, f) files /\ two_digits n = Some (i, j).
  Proof.
    unfold keys. rewrite in_flat_map. split.
    - intros ([n f] & Hin & Hk). cbn [fst] in Hk. exists n, f. split; [exact Hin|].
      destruct (two_digits n) as [[i' j']|]; cbn in Hk; [destruct Hk as [Eq|[]]; congruence|destruct Hk].
    - intros (n & f & Hin & Et). exists (n, f). split; [exact Hin|]. cbn [fst]. rewrite Et. left. reflexivity.
  Qed.

  Lemma keys_perm (l l' : folder A) : Permutation l l' -> Permutation (keys l) (keys l').
  Proof. intros Hp. unfold keys. apply Permutation_flat_map. exact Hp. Qed.

  Lemma digit_range c i : digit c = Some i -> 0 <= i < 10.
  Proof. intros D. apply digit_spec in D. apply D. Qed.

  Definition all_pairs : list (Z * Z) := map (fun k => (k / 4, k mod 4)) (zrange 12).

  Lemma in_all_pairs i j : In (i, j) all_pairs <-> 0 <= i < 3 /\ 0 <= j < 4.
  Proof.
    unfold all_pairs. rewrite in_map_iff. split.
    - intros (k & E & Hk). apply in_zrange in Hk. injection E as <- <-.
      pose proof (Z.mod_pos_bound k 4 ltac:(lia)). pose proof (Z.div_mod k 4 ltac:(lia)). lia.
    - intros (Hi & Hj). exists (4 * i + j). split.
      + f_equal; symmetry; [apply Z.div_unique with j|apply Z.mod_unique with i]; lia.
      + apply in_zrange. lia.
  Qed.

  (** ** C28 *)
  Lemma c28_missing (files : folder A) i j :
    NoDup (map fst files) ->
    (forall n n' f f' i' j', In (n, f) files -> In (n', f') files ->
       numbered n i' j' -> numbered n' i' j' -> n = n') ->
    0 <= i < 3 -> 0 <= j < 4 -> (forall n f, In (n, f) files -> ~ numbered n i j) ->
    raises (load files).
  Proof.
    intros Hnd Hu Hi Hj Hno. apply load_raises. intros d E.
    destruct (load_inv files d E) as (Hlen & Hb & _ & _).
    assert (Hndk : NoDup (keys files)).
    { clear - Hnd Hu. induction files as [|[n f] files IH]; [constructor|].
      cbn [map fst] in Hnd. apply NoDup_cons_iff in Hnd. destruct Hnd as [Hni Hnd].
      assert (Htl : NoDup (keys files)).
      { apply IH; [exact Hnd|]. intros n1 n2 f1 f2 i' j' H1 H2. apply (Hu n1 n2 f1 f2); right; assumption. }
      unfold keys in *. cbn [flat_map fst]. fold (keys files) in *.
      destruct (two_digits n) as [[i j]|] eqn:Et; [|exact Htl].
      constructor; [|exact Htl]. intros Hin. apply keys_in in Hin. destruct Hin as (n' & f' & Hin & Et').
      assert (n = n').
      { apply (Hu n n' f f' i j); [left; reflexivity|right; exact Hin| |]; apply two_digits_spec; assumption. }
      subst n'. apply Hni. apply in_map_iff. exists (n, f'). split; [reflexivity|exact Hin]. }
    assert (Hincl : incl (keys files) all_pairs).
    { intros [i' j'] Hin. apply in_all_pairs. destruct (Hb i' j' Hin) as (b1 & b2).
      apply keys_in in Hin. destruct Hin as (n & f & _ & Et). apply two_digits_spec in Et.
      destruct Et as (p & (q1 & q2 & _) & _). lia. }
    assert (Hall : incl all_pairs (keys files)).
    { apply NoDup_length_incl; [exact Hndk|rewrite Hlen; vm_compute; constructor|exact Hincl]. }
    specialize (Hall (i, j) (proj2 (in_all_pairs i j) (conj Hi Hj))).
    apply keys_in in Hall. destruct Hall as (n & f & Hin & Et). apply two_digits_spec in Et.
    exact (Hno n f Hin Et).
  Qed.

  Lemma matrix_two_digits i j : 0 <= i < 3 -> 0 <= j < 4 -> two_digits (matrix_name i j) = Some (i, j).
  Proof.
    intros Hi Hj. assert (i = 0 \/ i = 1 \/ i = 2) as Di by lia.
    assert (j = 0 \/ j = 1 \/ j = 2 \/ j = 3) as Dj by lia.
    destruct Di as [-> | [-> | ->]]; destruct Dj as [-> | [-> | [-> | ->]]]; reflexivity.
  Qed.

  Lemma in_matrix_files (m : tensor A) n f :
    In (n, f) (matrix_files m) -> exists i j, 0 <= i < 3 /\ 0 <= j < 4 /\
      n = matrix_name i j /\ f = Image (tslice m i j).
  Proof.
    unfold matrix_files. rewrite in_map_iff. intros (k & E & Hk). apply in_zrange in Hk.
    injection E as <- <-. exists (k / 4), (k mod 4).
    pose proof (Z.mod_pos_bound k 4 ltac:(lia)). pose proof (Z.div_mod k 4 ltac:(lia)).
    repeat split; lia.
  Qed.

  Lemma matrix_in (m : tensor A) i j :
    0 <= i < 3 -> 0 <= j < 4 -> In (matrix_name i j, Image (tslice m i j)) (matrix_files m).
  Proof.
    intros Hi Hj. unfold matrix_files. apply in_map_iff. exists (4 * i + j). split.
    - replace ((4 * i + j) / 4) with i by (apply Z.div_unique with j; lia).
      replace ((4 * i + j) mod 4) with j by (apply Z.mod_unique with i; lia). reflexivity.
    - apply in_zrange. lia.
  Qed.

  (** M00.fits is missing, M01.fits has a copy. *)
  Lemma c28_copy (m : tensor A) (copy : arr A) :
    rows copy = t_rows m -> cols copy = t_cols m ->
    exists d, load (tl (matrix_files m) ++ [("M01_copy.fits", Image copy)]) = Ok d /\
      forall y x, t_cell (mij d) 0 0 y x = n0.
  Proof.
    intros Hr Hc.
    destruct (load_ok (tl (matrix_files m) ++ [("M01_copy.fits", Image copy)]) (t_rows m) (t_cols m))
      as (d & E & _ & _ & _ & Z0 & _).
    - split.
      + intros n f i j Hin Et. apply in_app_or in Hin. destruct Hin as [Hin|[Eq|[]]].
        * assert (Hin' : In (n, f) (matrix_files m)) by (right; exact Hin).
          destruct (in_matrix_files m n f Hin') as (i' & j' & Hi & Hj & -> & ->).
          rewrite matrix_two_digits in Et by assumption. injection Et as <- <-.
          split; [lia|]. split; [lia|]. eexists. split; [reflexivity|]. split; reflexivity.
        * injection Eq as <- <-. vm_compute in Et. injection Et as <- <-.
          split; [lia|]. split; [lia|]. exists copy. auto.
      + intros f Hin. apply in_app_or in Hin. destruct Hin as [Hin|[Eq|[]]]; [|discriminate].
        assert (Hin' : In (flag_name, f) (matrix_files m)) by (right; exact Hin).
        destruct (in_matrix_files m _ _ Hin') as (i' & j' & _ & _ & En & _). discriminate.
    - reflexivity.
    - exists d. split; [exact E|]. apply Z0. vm_compute.
      intros Hin. repeat (destruct Hin as [Hin|Hin]; [discriminate|]). exact Hin.
  Qed.

  (** ** C27 *)
  Lemma written_keys (c : calibration A) : keys (written_files c) = all_pairs.
  Proof. reflexivity. Qed.

  Lemma all_pairs_NoDup : NoDup all_pairs.
  Proof.
    vm_compute. repeat (constructor; [intros Hin; repeat (destruct Hin as [Hin|Hin]; [discriminate|]); exact Hin|]).
    constructor.
  Qed.

  Definition written_names : list string := map fst (written_files (mkcalibration (A := A)
    (mktensor 0 0 (fun _ _ _ _ => n0)) (full 0 0 n0) (full 0 0 n0) (full 0 0 n0) (full 0 0 n0))).

  Lemma written_names_eq (c : calibration A) : map fst (written_files c) = written_names.
  Proof. reflexivity. Qed.

  Lemma written_names_NoDup (c : calibration A) : NoDup (map fst (written_files c)).
  Proof.
    rewrite written_names_eq. vm_compute.
    repeat (constructor; [intros Hin; repeat (destruct Hin as [Hin|Hin]; [discriminate|]); exact Hin|]).
    constructor.
  Qed.

  Lemma in_written (c : calibration A) n f :
    In (n, f) (written_files c) ->
    (exists i j, 0 <= i < 3 /\ 0 <= j < 4 /\ n = matrix_name i j /\ f = Image (tslice (k_m c) i j)) \/
    (two_digits n = None /\ exists a, f = Image a).
  Proof.
    unfold written_files. intros Hin. apply in_app_or in Hin. destruct Hin as [Hin|Hin].
    - left. exact (in_matrix_files _ _ _ Hin).
    - right. destruct Hin as [E|[E|[E|[E|[]]]]]; injection E as <- <-; (split; [reflexivity|eauto]).
  Qed.

  Lemma c27_roundtrip (c : calibration A) extra files :
    Permutation files (written_files c ++ extra) ->
    NoDup (map fst files) -> (forall n f, In (n, f) extra -> unnumbered n) ->
    exists d, load files = Ok d /\ same_tensor (mij d) (k_m c) /\ fit_found_flags d = Some (k_found c).
  Proof.
    intros Hp Hnd Hex.
    assert (Hk : Permutation (keys files) all_pairs).
    { rewrite (keys_perm _ _ Hp), keys_app, written_keys.
      replace (keys extra) with (@nil (Z * Z)); [rewrite app_nil_r; reflexivity|].
      symmetry. unfold keys. clear - Hex. induction extra as [|[n f] extra IH]; [reflexivity|].
      cbn [flat_map fst].
      rewrite (proj2 (two_digits_none n) (Hex n f (or_introl eq_refl))). cbn [app].
      apply IH. intros n' f' Hin. apply (Hex n' f'). right. exact Hin. }
    assert (Hflag : In (flag_name, Image (k_found c)) files).
    { apply (Permutation_in _ (Permutation_sym Hp)), in_or_app. left.
      unfold written_files. apply in_or_app. right. do 3 right. left. reflexivity. }
    destruct (load_ok files (t_rows (k_m c)) (t_cols (k_m c))) as (d & E & R & C & V & _ & F & _).
    - split.
      + intros n f i j Hin Et. apply (Permutation_in _ Hp), in_app_or in Hin. destruct Hin as [Hin|Hin].
        * destruct (in_written c n f Hin) as [(i' & j' & Hi & Hj & -> & ->)|(En & _)]; [|congruence].
          rewrite matrix_two_digits in Et by assumption. injection Et as <- <-.
          split; [lia|]. split; [lia|]. eexists. split; [reflexivity|]. split; reflexivity.
        * rewrite (proj2 (two_digits_none n) (Hex n f Hin)) in Et. discriminate.
      + intros f Hin.
        assert (Ef : f = Image (k_found c)); [|eauto].
        clear - Hnd Hin Hflag. induction files as [|[n g] files IH]; [destruct Hin|].
        cbn [map fst] in Hnd. apply NoDup_cons_iff in Hnd. destruct Hnd as [Hni Hnd].
        assert (Hname : forall g', In (flag_name, g') files -> In flag_name (map fst files)).
        { intros g' Hg'. apply in_map_iff. exists (flag_name, g'). split; [reflexivity|exact Hg']. }
        destruct Hin as [E1|H1]; destruct Hflag as [E2|H2]; try congruence.
        * injection E1 as -> ->. exfalso. apply Hni. exact (Hname _ H2).
        * injection E2 as -> ->. exfalso. apply Hni. exact (Hname _ H1).
        * apply IH; assumption.
    - rewrite (Permutation_length Hk). reflexivity.
    - exists d. split; [exact E|]. split.
      + split; [exact R|]. split; [exact C|]. intros i j y x Hi Hj Hy Hx.
        assert (Hin : In (matrix_name i j, Image (tslice (k_m c) i j)) files).
        { apply (Permutation_in _ (Permutation_sym Hp)), in_or_app. left. unfold written_files.
          apply in_or_app. left. apply matrix_in; assumption. }
        rewrite (V (Permutation_NoDup (Permutation_sym Hk) all_pairs_NoDup) _ _ i j Hin
                   (matrix_two_digits i j Hi Hj)).
        rewrite bcell_in by (cbn; lia). reflexivity.
      + apply F; assumption.
  Qed.

  (** ** C74 *)
  Lemma write_same (new old : folder A) k :
    map fst new = map fst old -> NoDup (map fst old) ->
    write_all (firstn k new) old = firstn k new ++ skipn k old.
  Proof.
    intros En Hnd. unfold write_all.
    enough (G : forall (done new old : folder A), map fst new = map fst old ->
      NoDup (map fst done ++ map fst old) ->
      forall k, fold_left (fun l e => put_file (fst e) (snd e) l) (firstn k new) (done ++ old) =
                done ++ firstn k new ++ skipn k old).
    { apply (G [] new old En Hnd k). }
    clear. intros done new. revert done. induction new as [|[n f] new IH]; intros done old En Hnd k.
    - destruct old; [|discriminate]. rewrite firstn_nil, skipn_nil. reflexivity.
    - destruct old as [|[n' g] old]; [discriminate|]. cbn [map fst] in En. injection En as <- En.
      destruct k as [|k]; [reflexivity|]. cbn [firstn skipn fold_left fst snd].
      assert (Hput : put_file n f (done ++ (n, g) :: old) = (done ++ [(n, f)]) ++ old).
      { assert (Hd : ~ In n (map fst done)).
        { intros Hin. cbn [map fst] in Hnd. apply NoDup_remove_2 in Hnd. apply Hnd. apply in_or_app. left. exact Hin. }
        clear - Hd. induction done as [|[m e] done IHd]; cbn [app put_file].
        - rewrite String.eqb_refl. reflexivity.
        - destruct (String.eqb_spec m n) as [->|Hmn]; [exfalso; apply Hd; left; reflexivity|].
          rewrite IHd; [reflexivity|]. intros Hin. apply Hd. right. exact Hin. }
      rewrite Hput, IH; [rewrite <- app_assoc; reflexivity|exact En|].
      rewrite map_app, <- app_assoc. exact Hnd.
  Qed.

  Lemma written_nth (c : calibration A) k : 0 <= k < 12 ->
    nth_error (written_files c) (Z.to_nat k) =
    Some (matrix_name (k / 4) (k mod 4), Image (tslice (k_m c) (k / 4) (k mod 4))).
  Proof.
    intros Hk. unfold written_files. rewrite nth_error_app1.
    - unfold matrix_files. rewrite nth_error_map, nth_error_zrange by exact Hk. reflexivity.
    - unfold matrix_files. rewrite map_length, length_zrange. lia.
  Qed.

  Lemma nth_error_skip {B} (l : list B) k n : nth_error (skipn k l) n = nth_error l (k + n).
  Proof.
    revert l. induction k as [|k IH]; intros l; [reflexivity|].
    destruct l as [|x l]; [destruct n; reflexivity|]. apply IH.
  Qed.

  Lemma NoDup_prefix {B} (l l' : list B) : NoDup (l ++ l') -> NoDup l.
  Proof.
    induction l as [|x l IH]; intros Hnd; [constructor|]. cbn [app] in Hnd.
    apply NoDup_cons_iff in Hnd. destruct Hnd as [Hni Hnd]. constructor; [|apply IH; exact Hnd].
    intros Hin. apply Hni. apply in_or_app. left. exact Hin.
  Qed.

  Lemma in_firstn_nth {B} (l : list B) k e : In e (firstn k l) ->
    exists n, (n < k)%nat /\ nth_error l n = Some e.
  Proof.
    revert k. induction l as [|x l IH]; intros k Hin; [rewrite firstn_nil in Hin; destruct Hin|].
    destruct k as [|k]; [destruct Hin|]. destruct Hin as [->|Hin].
    - exists 0%nat. split; [lia|reflexivity].
    - destruct (IH k Hin) as (n & Hn & E). exists (S n). split; [lia|exact E].
  Qed.

  Lemma in_skipn_nth {B} (l : list B) k e : In e (skipn k l) ->
    exists n, (k <= n)%nat /\ nth_error l n = Some e.
  Proof.
    revert k. induction l as [|x l IH]; intros k Hin; [rewrite skipn_nil in Hin; destruct Hin|].
    destruct k as [|k].
    - apply In_nth_error in Hin. destruct Hin as (n & E). exists n. split; [lia|exact E].
    - destruct (IH k Hin) as (n & Hn & E). exists (S n). split; [lia|exact E].
  Qed.

  (** k files of the new calibration over those of the old one: accepted. *)
  Lemma c74_mixture (old new : calibration A) k files :
    t_rows (k_m new) = t_rows (k_m old) -> t_cols (k_m new) = t_cols (k_m old) ->
    0 <= k <= 16 ->
    Permutation files (interrupted new (Z.to_nat k) Untouched (written_files old)) ->
    exists d, load files = Ok d /\
      t_rows (mij d) = t_rows (k_m old) /\ t_cols (mij d) = t_cols (k_m old) /\
      (forall i j y x, 0 <= i < 3 -> 0 <= j < 4 -> 0 <= y < t_rows (k_m old) -> 0 <= x < t_cols (k_m old) ->
        t_cell (mij d) i j y x =
        if 4 * i + j <? k then t_cell (k_m new) i j y x else t_cell (k_m old) i j y x) /\
      fit_found_flags d = Some (if k =? 16 then k_found new else k_found old).
  Proof.
    intros Hr Hc Hk Hp.
    set (mix := firstn (Z.to_nat k) (written_files new) ++ skipn (Z.to_nat k) (written_files old)).
    assert (Hmix : interrupted new (Z.to_nat k) Untouched (written_files old) = mix).
    { unfold interrupted.
      rewrite write_same; [|rewrite !written_names_eq; reflexivity|apply written_names_NoDup].
      destruct (nth_error (written_files new) (Z.to_nat k)) as [[n f]|]; reflexivity. }
    rewrite Hmix in Hp. clear Hmix.
    assert (Hnames : map fst mix = written_names).
    { unfold mix. rewrite map_app, <- firstn_map, <- skipn_map, !written_names_eq. apply firstn_skipn. }
    assert (Hkeys : forall l : folder A,
      keys l = flat_map (fun n => match two_digits n with Some k => [k] | None => [] end) (map fst l)).
    { intros l. unfold keys. clear. induction l as [|e l IH]; [reflexivity|]. cbn [flat_map map]. rewrite IH. reflexivity. }
    assert (Hmk : keys mix = all_pairs) by (rewrite Hkeys, Hnames; reflexivity).
    pose proof (keys_perm _ _ Hp) as Hkp. rewrite Hmk in Hkp.
    assert (Hnd : NoDup (map fst files)).
    { apply (Permutation_NoDup (l := map fst mix)); [apply Permutation_map, Permutation_sym; exact Hp|].
      rewrite Hnames, <- (written_names_eq old). apply written_names_NoDup. }
    (* every file of the mixture *)
    assert (Hin : forall n f, In (n, f) mix ->
      (exists i j, 0 <= i < 3 /\ 0 <= j < 4 /\ n = matrix_name i j /\
         f = Image (if 4 * i + j <? k then tslice (k_m new) i j else tslice (k_m old) i j)) \/
      (two_digits n = None /\ exists a, f = Image a)).
    { intros n f H0. unfold mix in H0. apply in_app_or in H0. destruct H0 as [H0|H0].
      - destruct (in_firstn_nth _ _ _ H0) as (p & Hp' & E).
        destruct (Z_lt_dec (Z.of_nat p) 12) as [Hlt|Hge].
        + left. pose proof (written_nth new (Z.of_nat p) ltac:(lia)) as E'. rewrite Nat2Z.id, E in E'.
          injection E' as -> ->. exists (Z.of_nat p / 4), (Z.of_nat p mod 4).
          pose proof (Z.mod_pos_bound (Z.of_nat p) 4 ltac:(lia)). pose proof (Z.div_mod (Z.of_nat p) 4 ltac:(lia)).
          replace (4 * (Z.of_nat p / 4) + Z.of_nat p mod 4 <? k) with true by lia. repeat split; lia.
        + destruct (in_written new n f) as [(i & j & Hi & Hj & -> & ->)|Hn]; [|exfalso|right; exact Hn].
          * apply nth_error_In in E. exact E.
          * pose proof (written_nth new (4 * i + j) ltac:(lia)) as E'.
            replace ((4 * i + j) / 4) with i in E' by (apply Z.div_unique with j; lia).
            replace ((4 * i + j) mod 4) with j in E' by (apply Z.mod_unique with i; lia).
            pose proof (written_names_NoDup new) as Hn'.
            rewrite NoDup_nth_error in Hn'.
            assert (Hl : (p < length (written_files new))%nat).
            { apply nth_error_Some. rewrite E. discriminate. }
            specialize (Hn' p (Z.to_nat (4 * i + j))). rewrite map_length in Hn'. specialize (Hn' Hl).
            rewrite !nth_error_map, E, E' in Hn'. specialize (Hn' eq_refl). lia.
      - destruct (in_skipn_nth _ _ _ H0) as (p & Hp' & E).
        destruct (Z_lt_dec (Z.of_nat p) 12) as [Hlt|Hge].
        + left. pose proof (written_nth old (Z.of_nat p) ltac:(lia)) as E'. rewrite Nat2Z.id, E in E'.
          injection E' as -> ->. exists (Z.of_nat p / 4), (Z.of_nat p mod 4).
          pose proof (Z.mod_pos_bound (Z.of_nat p) 4 ltac:(lia)). pose proof (Z.div_mod (Z.of_nat p) 4 ltac:(lia)).
          replace (4 * (Z.of_nat p / 4) + Z.of_nat p mod 4 <? k) with false by lia. repeat split; lia.
        + destruct (in_written old n f) as [(i & j & Hi & Hj & -> & ->)|Hn]; [|exfalso|right; exact Hn].
          * apply nth_error_In in E. exact E.
          * pose proof (written_nth old (4 * i + j) ltac:(lia)) as E'.
            replace ((4 * i + j) / 4) with i in E' by (apply Z.div_unique with j; lia).
            replace ((4 * i + j) mod 4) with j in E' by (apply Z.mod_unique with i; lia).
            pose proof (written_names_NoDup old) as Hn'.
            rewrite NoDup_nth_error in Hn'.
            assert (Hl : (p < length (written_files old))%nat).
            { apply nth_error_Some. rewrite E. discriminate. }
            specialize (Hn' p (Z.to_nat (4 * i + j))). rewrite map_length in Hn'. specialize (Hn' Hl).
            rewrite !nth_error_map, E, E' in Hn'. specialize (Hn' eq_refl). lia. }
    assert (Hmat : forall i j, 0 <= i < 3 -> 0 <= j < 4 ->
      In (matrix_name i j, Image (if 4 * i + j <? k then tslice (k_m new) i j else tslice (k_m old) i j)) files).
    { intros i j Hi Hj. assert (Hm : In (i, j) (keys mix)) by (rewrite Hmk; apply in_all_pairs; auto).
      apply keys_in in Hm. destruct Hm as (n & f & Hin' & Et).
      apply (Permutation_in _ (Permutation_sym Hp)).
      destruct (Hin n f Hin') as [(i' & j' & Hi' & Hj' & -> & ->)|(En & _)]; [|congruence].
      rewrite matrix_two_digits in Et by assumption. injection Et as -> ->. exact Hin'. }
    assert (Hfl : In (flag_name, Image (if k =? 16 then k_found new else k_found old)) files).
    { apply (Permutation_in _ (Permutation_sym Hp)). unfold mix. apply in_or_app.
      destruct (Z.eqb_spec k 16) as [->|Hn16].
      - left. change (firstn (Z.to_nat 16) (written_files new)) with (written_files new).
        unfold written_files. apply in_or_app. right. do 3 right. left. reflexivity.
      - right. assert (E : nth_error (skipn (Z.to_nat k) (written_files old)) (15 - Z.to_nat k) =
                           Some (flag_name, Image (k_found old))).
        { rewrite nth_error_skip. replace (Z.to_nat k + (15 - Z.to_nat k))%nat with 15%nat by lia. reflexivity. }
        exact (nth_error_In _ _ E). }
    destruct (load_ok files (t_rows (k_m old)) (t_cols (k_m old))) as (d & E & R & C & V & _ & F & _).
    - split.
      + intros n f i j H0 Et. apply (Permutation_in _ Hp) in H0.
        destruct (Hin n f H0) as [(i' & j' & Hi & Hj & -> & ->)|(En & _)]; [|congruence].
        rewrite matrix_two_digits in Et by assumption. injection Et as <- <-.
        split; [lia|]. split; [lia|]. eexists. split; [reflexivity|].
        destruct (4 * i' + j' <? k); cbn; auto.
      + intros f H0. apply (Permutation_in _ Hp) in H0.
        destruct (Hin _ f H0) as [(i' & j' & Hi & Hj & En & _)|(_ & Ha)]; [discriminate|exact Ha].
    - rewrite (Permutation_length Hkp). reflexivity.
    - exists d. split; [exact E|]. split; [exact R|]. split; [exact C|]. split.
      + intros i j y x Hi Hj Hy Hx.
        rewrite (V (Permutation_NoDup (Permutation_sym Hkp) all_pairs_NoDup) _ _ i j (Hmat i j Hi Hj)
                   (matrix_two_digits i j Hi Hj)).
        destruct (4 * i + j <? k); rewrite bcell_in by (cbn; lia); reflexivity.
      + apply F; assumption.
  Qed.

  Lemma remove_not_in name (l : folder A) f : ~ In (name, f) (remove_file name l).
  Proof.
    unfold remove_file. intros Hin. apply filter_In in Hin. destruct Hin as [_ E]. cbn [fst] in E.
    rewrite String.eqb_refl in E. discriminate.
  Qed.

  Lemma put_in name (f : fits_file A) l : In (name, f) (put_file name f l).
  Proof.
    induction l as [|[n g] l IH]; cbn [put_file]; [left; reflexivity|].
    destruct (String.eqb_spec n name) as [->|]; [left; reflexivity|right; exact IH].
  Qed.

  (** An interruption in the middle of one of the twelve matrices is noticed. *)
  Lemma c74_cut_matrix (old new : calibration A) k how files :
    0 <= k < 12 -> how <> Untouched ->
    Permutation files (interrupted new (Z.to_nat k) how (written_files old)) ->
    raises (load files).
  Proof.
    intros Hk Hhow Hp. unfold interrupted in Hp. rewrite (written_nth new k Hk) in Hp.
    rewrite write_same in Hp; [|rewrite !written_names_eq; reflexivity|apply written_names_NoDup].
    set (mix := firstn (Z.to_nat k) (written_files new) ++ skipn (Z.to_nat k) (written_files old)) in *.
    set (name := matrix_name (k / 4) (k mod 4)) in *.
    pose proof (Z.mod_pos_bound k 4 ltac:(lia)) as Bm. pose proof (Z.div_mod k 4 ltac:(lia)) as Bd.
    assert (Et : two_digits name = Some (k / 4, k mod 4)) by (apply matrix_two_digits; lia).
    apply load_raises. intros d E. destruct (load_inv files d E) as (Hlen & _ & Hb & _).
    destruct how; [contradiction| |].
    - (* removed *)
      assert (Hnames : map fst mix = written_names).
      { unfold mix. rewrite map_app, <- firstn_map, <- skipn_map, !written_names_eq. apply firstn_skipn. }
      rewrite (Permutation_length (keys_perm _ _ Hp)) in Hlen.
      assert (Hkeys : forall l : folder A,
        keys (remove_file name l) =
        flat_map (fun n => match two_digits n with Some k => [k] | None => [] end)
          (filter (fun n => negb (String.eqb n name)) (map fst l))).
      { intros l. unfold keys, remove_file. clear. induction l as [|e l IH]; [reflexivity|].
        cbn [map filter]. destruct (negb (String.eqb (fst e) name)); cbn [flat_map]; rewrite IH; reflexivity. }
      rewrite Hkeys, Hnames in Hlen. revert Hlen. unfold name. clear - Hk.
      assert (D : k = 0 \/ k = 1 \/ k = 2 \/ k = 3 \/ k = 4 \/ k = 5 \/ k = 6 \/ k = 7 \/ k = 8 \/ k = 9 \/
                  k = 10 \/ k = 11) by lia.
      repeat (destruct D as [-> | D]; [vm_compute; discriminate|]). subst k. vm_compute. discriminate.
    - (* cut short *)
      assert (Hin : In (name, Broken) files).
      { apply (Permutation_in _ (Permutation_sym Hp)). apply put_in. }
      exact (Hb _ _ _ _ Hin Et eq_refl).
  Qed.

  Lemma write_fresh (c : calibration A) k : write_all (firstn k (written_files c)) [] = firstn k (written_files c).
  Proof.
    unfold write_all.
    enough (G : forall (new done : folder A), NoDup (map fst (done ++ new)) ->
      forall k, fold_left (fun l e => put_file (fst e) (snd e) l) (firstn k new) done = done ++ firstn k new).
    { apply (G (written_files c) []). apply written_names_NoDup. }
    clear. induction new as [|[n f] new IH]; intros done Hnd k.
    - rewrite firstn_nil. cbn. rewrite app_nil_r. reflexivity.
    - destruct k as [|k]; [cbn; rewrite app_nil_r; reflexivity|]. cbn [firstn fold_left fst snd].
      assert (Hput : put_file n f done = done ++ [(n, f)]).
      { rewrite map_app in Hnd. cbn [map fst] in Hnd. apply NoDup_remove_2 in Hnd.
        assert (Hd : ~ In n (map fst done)) by (intros Hin; apply Hnd; apply in_or_app; left; exact Hin).
        clear - Hd. induction done as [|[m e] done IHd]; [reflexivity|]. cbn [put_file app].
        destruct (String.eqb_spec m n) as [->|Hmn]; [exfalso; apply Hd; left; reflexivity|].
        rewrite IHd; [reflexivity|]. intros Hin. apply Hd. right. exact Hin. }
      rewrite Hput, IH; [rewrite <- app_assoc; reflexivity|]. rewrite <- app_assoc. exact Hnd.
  Qed.

  Lemma remove_absent name (l : folder A) : ~ In name (map fst l) -> remove_file name l = l.
  Proof.
    intros Hn. unfold remove_file. induction l as [|[n f] l IH]; [reflexivity|]. cbn [filter fst].
    cbn [map fst] in Hn. destruct (String.eqb_spec n name) as [->|Hne].
    - exfalso. apply Hn. left. reflexivity.
    - cbn [negb]. rewrite IH; [reflexivity|]. intros Hin. apply Hn. right. exact Hin.
  Qed.

  Lemma put_absent name (f : fits_file A) l : ~ In name (map fst l) -> put_file name f l = l ++ [(name, f)].
  Proof.
    intros Hn. induction l as [|[n g] l IH]; [reflexivity|]. cbn [put_file app].
    cbn [map fst] in Hn. destruct (String.eqb_spec n name) as [->|Hne].
    - exfalso. apply Hn. left. reflexivity.
    - rewrite IH; [reflexivity|]. intros Hin. apply Hn. right. exact Hin.
  Qed.

  (** What an interruption leaves in a new folder *)
  Lemma interrupted_fresh (c : calibration A) k how :
    interrupted c k how [] = firstn k (written_files c) \/
    exists n f, nth_error (written_files c) k = Some (n, f) /\
      interrupted c k how [] = firstn k (written_files c) ++ [(n, Broken)].
  Proof.
    unfold interrupted. rewrite write_fresh.
    destruct (nth_error (written_files c) k) as [[n f]|] eqn:E; [|left; reflexivity].
    assert (Ha : ~ In n (map fst (firstn k (written_files c)))).
    { intros Hin. rewrite <- firstn_map in Hin. destruct (in_firstn_nth _ _ _ Hin) as (p & Hp & Ep).
      pose proof (written_names_NoDup c) as Hnd. rewrite NoDup_nth_error in Hnd.
      assert (Hl : (p < length (map fst (written_files c)))%nat).
      { apply nth_error_Some. rewrite Ep. discriminate. }
      specialize (Hnd p k Hl). rewrite Ep, nth_error_map, E in Hnd. specialize (Hnd eq_refl). lia. }
    destruct how; [left; reflexivity|left; apply remove_absent; exact Ha|right].
    exists n, f. split; [reflexivity|]. rewrite remove_absent by exact Ha. apply put_absent. exact Ha.
  Qed.

  Lemma firstn_snoc {B} (l : list B) k x : nth_error l k = Some x -> firstn (S k) l = firstn k l ++ [x].
  Proof.
    revert k. induction l as [|y l IH]; intros k E; [destruct k; discriminate|].
    destruct k as [|k]; [injection E as ->; reflexivity|]. cbn [firstn app]. f_equal. apply IH. exact E.
  Qed.

  Lemma c74_fresh (c : calibration A) k how files :
    Permutation files (interrupted c k how []) ->
    raises (load files) \/
    exists d, load files = Ok d /\ same_tensor (mij d) (k_m c) /\
      (fit_found_flags d = None \/ fit_found_flags d = Some (k_found c)).
  Proof.
    intros Hp.
    destruct (load files) as [d|e|] eqn:E.
    2: { left. exists e. reflexivity. }
    2: { left. rewrite <- E. apply load_raises. intros d. rewrite E. discriminate. }
    right. exists d. split; [reflexivity|].
    destruct (load_inv files d E) as (Hlen & _ & Hb & Hbf).
    rewrite (Permutation_length (keys_perm _ _ Hp)) in Hlen.
    assert (Hkeys : forall l : folder A,
      keys l = flat_map (fun n => match two_digits n with Some k => [k] | None => [] end) (map fst l)).
    { intros l. unfold keys. clear. induction l as [|e l IH]; [reflexivity|]. cbn [flat_map map]. rewrite IH. reflexivity. }
    (* there are at least twelve files, and the broken one is not read *)
    assert (Hpref : exists p rest, (12 <= p)%nat /\
      interrupted c k how [] = firstn p (written_files c) ++ rest /\
      (forall n f, In (n, f) rest -> two_digits n = None /\ n <> flag_name) /\ NoDup (map fst (firstn p (written_files c) ++ rest))).
    { destruct (interrupted_fresh c k how) as [Ei|(n & f & En & Ei)].
      - exists k, []. rewrite app_nil_r. rewrite Ei in Hlen.
        assert (Hk : (12 <= k)%nat).
        { rewrite Hkeys, <- firstn_map, written_names_eq in Hlen.
          destruct (le_lt_dec 12 k) as [Hle|Hlt]; [exact Hle|exfalso].
          do 12 (destruct k as [|k]; [vm_compute in Hlen; discriminate|]). lia. }
        split; [exact Hk|]. split; [exact Ei|]. split; [intros ? ? []|].
        rewrite <- firstn_map. clear - H. pose proof (written_names_NoDup c) as Hnd.
        rewrite <- (firstn_skipn k (map fst (written_files c))) in Hnd. apply NoDup_prefix in Hnd. exact Hnd.
      - exists k, [(n, Broken)].
        assert (Hin : In (n, Broken) files).
        { apply (Permutation_in _ (Permutation_sym Hp)). rewrite Ei. apply in_or_app. right. left. reflexivity. }
        assert (Hn2 : two_digits n = None).
        { destruct (two_digits n) as [[i j]|] eqn:Et; [|reflexivity]. exfalso. exact (Hb _ _ _ _ Hin Et eq_refl). }
        assert (Hnf : n <> flag_name) by (intros ->; exact (Hbf _ Hin eq_refl)).
        assert (Hk : (12 <= k)%nat).
        { destruct (le_lt_dec 12 k) as [Hle|Hlt]; [exact Hle|exfalso].
          pose proof (written_nth c (Z.of_nat k) ltac:(lia)) as E'. rewrite Nat2Z.id, En in E'.
          injection E' as -> _.
          pose proof (Z.mod_pos_bound (Z.of_nat k) 4 ltac:(lia)). pose proof (Z.div_mod (Z.of_nat k) 4 ltac:(lia)).
          rewrite matrix_two_digits in Hn2 by lia. discriminate. }
        split; [exact Hk|]. split; [exact Ei|]. split.
        + intros n' f' [Eq|[]]. injection Eq as <- <-. split; [exact Hn2|exact Hnf].
        + rewrite map_app, <- firstn_map. cbn [map fst].
          assert (En' : nth_error (map fst (written_files c)) k = Some n)
            by (rewrite nth_error_map, En; reflexivity).
          rewrite <- (firstn_snoc _ _ _ En'). pose proof (written_names_NoDup c) as Hnd.
          rewrite <- (firstn_skipn (S k) (map fst (written_files c))) in Hnd. apply NoDup_prefix in Hnd. exact Hnd. }
    destruct Hpref as (p & rest & Hp12 & Ei & Hrest & Hndn). rewrite Ei in Hp, Hlen.
    assert (Hnd : NoDup (map fst files)).
    { apply (Permutation_NoDup (Permutation_map fst (Permutation_sym Hp)) Hndn). }
    assert (Hk : Permutation (keys files) all_pairs).
    { rewrite (keys_perm _ _ Hp), keys_app.
      assert (Er : keys rest = []).
      { unfold keys. clear - Hrest. induction rest as [|[n f] rest IH]; [reflexivity|]. cbn [flat_map fst].
        rewrite (proj1 (Hrest n f (or_introl eq_refl))). cbn [app]. apply IH.
        intros n' f' Hin. apply (Hrest n' f'). right. exact Hin. }
      rewrite Er, app_nil_r, Hkeys, <- firstn_map, written_names_eq.
      do 12 (destruct p as [|p]; [exfalso; lia|]). clear.
      do 4 (destruct p as [|p]; [apply Permutation_refl|]). cbn [firstn].
      destruct p; apply Permutation_refl. }
    assert (Hinf : forall n f, In (n, f) files -> In (n, f) (written_files c) \/ (two_digits n = None /\ n <> flag_name)).
    { intros n f Hin. apply (Permutation_in _ Hp), in_app_or in Hin. destruct Hin as [Hin|Hin].
      - left. rewrite <- (firstn_skipn p). apply in_or_app. left. exact Hin.
      - right. exact (Hrest n f Hin). }
    destruct (load_ok files (t_rows (k_m c)) (t_cols (k_m c))) as (d' & E' & R & C & V & _ & F & F').
    - split.
      + intros n f i j Hin Et. destruct (Hinf n f Hin) as [Hw|[Hn _]]; [|congruence].
        destruct (in_written c n f Hw) as [(i' & j' & Hi & Hj & -> & ->)|(En & _)]; [|congruence].
        rewrite matrix_two_digits in Et by assumption. injection Et as <- <-.
        split; [lia|]. split; [lia|]. eexists. split; [reflexivity|]. split; reflexivity.
      + intros f Hin. destruct (Hinf _ f Hin) as [Hw|[_ Hn]]; [|exfalso; apply Hn; reflexivity].
        destruct (in_written c _ f Hw) as [(i' & j' & Hi & Hj & En & _)|(_ & Ha)]; [discriminate|exact Ha].
    - rewrite (Permutation_length Hk). reflexivity.
    - assert (d' = d) by congruence. subst d'. split.
      + split; [exact R|]. split; [exact C|]. intros i j y x Hi Hj Hy Hx.
        assert (Hm : In (i, j) (keys files)).
        { apply (Permutation_in _ (Permutation_sym Hk)). apply in_all_pairs. auto. }
        apply keys_in in Hm. destruct Hm as (n & f & Hin & Et).
        destruct (Hinf n f Hin) as [Hw|[Hn _]]; [|congruence].
        destruct (in_written c n f Hw) as [(i' & j' & Hi' & Hj' & -> & ->)|(En & _)]; [|congruence].
        rewrite matrix_two_digits in Et by assumption. injection Et as -> ->.
        rewrite (V (Permutation_NoDup (Permutation_sym Hk) all_pairs_NoDup) _ _ i j Hin
                   (matrix_two_digits i j Hi Hj)).
        rewrite bcell_in by (cbn; lia). reflexivity.
      + destruct (in_dec String.string_dec flag_name (map fst files)) as [Hin|Hni]; [right|left; apply F'; exact Hni].
        apply in_map_iff in Hin. destruct Hin as ([n f] & En & Hin). cbn [fst] in En. subst n.
        assert (Ef : f = Image (k_found c)); [|subst f; apply F; assumption].
        destruct (Hinf _ f Hin) as [Hw|[_ Hn]]; [|exfalso; apply Hn; reflexivity].
        unfold written_files in Hw. apply in_app_or in Hw. destruct Hw as [Hw|Hw].
        * destruct (in_matrix_files _ _ _ Hw) as (i' & j' & _ & _ & En & _). discriminate.
        * destruct Hw as [Eq|[Eq|[Eq|[Eq|[]]]]]; try discriminate. injection Eq as <-. reflexivity.
  Qed.
End Load.
