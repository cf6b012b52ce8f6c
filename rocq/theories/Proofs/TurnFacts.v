(** Proofs for C88 and C89. *)

From Coq Require Import QArith.
From Verif Require Import Base.Base Base.BaseFacts Base.Num Base.Bcast Model.Demosaic Model.Rebin Model.Stokes Model.Demodulate Model.DemodLoad
  Model.DemodTurn Spec.Terminates Spec.SumSpec Spec.MosaicSpec Spec.StokesSpec Spec.DemodSpec Spec.LoadSpec Spec.TurnSpec
  Proofs.RebinFacts Proofs.MosaicProps Proofs.StokesProps Proofs.DemodFacts Proofs.LoadFacts.
Local Open Scope Z_scope.

Section Turn.
  Context {A : Type} `{Num A}.

  Lemma put_ok (m : tensor A) i j a :
    i < 3 -> j < 4 -> rows a = t_rows m -> cols a = t_cols m ->
    put_matrix m i j a = Ok (mktensor (t_rows m) (t_cols m)
      (fun i' j' => if (i' =? i) && (j' =? j) then bcell a else t_cell m i' j')).
  Proof.
    intros Hi Hj Hr Hc. unfold put_matrix. replace ((i <? 3) && (j <? 4)) with true by lia.
    rewrite Hr, Hc, !Z.eqb_refl. reflexivity.
  Qed.

  Lemma bcell_in (a : arr A) y x : 0 <= y < rows a -> 0 <= x < cols a -> bcell a y x = cell a y x.
  Proof.
    intros Hy Hx. unfold bcell. destruct (Z.eqb_spec (rows a) 1), (Z.eqb_spec (cols a) 1); f_equal; lia.
  Qed.

  Lemma each_matrix_ok g (m : tensor A) (D : Z -> Z -> arr A) :
    (forall i j m', 0 <= i < 3 -> 0 <= j < 4 -> t_rows m' = t_rows m -> t_cols m' = t_cols m ->
       t_cell m' i j = t_cell m i j -> g i j m' = Ok (D i j)) ->
    (forall i j, 0 <= i < 3 -> 0 <= j < 4 -> rows (D i j) = t_rows m /\ cols (D i j) = t_cols m) ->
    exists m', each_matrix g m = Ok m' /\ t_rows m' = t_rows m /\ t_cols m' = t_cols m /\
      forall i j y x, 0 <= i < 3 -> 0 <= j < 4 -> 0 <= y < t_rows m -> 0 <= x < t_cols m ->
        t_cell m' i j y x = cell (D i j) y x.
  Proof.
    intros Hg HD. unfold each_matrix.
    destruct (for_range_1 (fun i0 m' => t_rows m' = t_rows m /\ t_cols m' = t_cols m /\
        forall i j, 0 <= i < 3 -> 0 <= j < 4 ->
          t_cell m' i j = if i <? i0 then bcell (D i j) else t_cell m i j)
      0 3 (fun i m => for_range 0 4 1 (fun j m => let* data := g i j m in put_matrix m i j data) m) m)
      as (m' & E & R & C & V); [lia| | |].
    - split; [reflexivity|]. split; [reflexivity|]. intros i j Hi _. replace (i <? 0) with false by lia. reflexivity.
    - intros i0 m0 Hi0 (R0 & C0 & V0).
      destruct (for_range_1 (fun j0 m' => t_rows m' = t_rows m /\ t_cols m' = t_cols m /\
          forall i j, 0 <= i < 3 -> 0 <= j < 4 ->
            t_cell m' i j = if (i <? i0) || ((i =? i0) && (j <? j0)) then bcell (D i j) else t_cell m i j)
        0 4 (fun j m => let* data := g i0 j m in put_matrix m i0 j data) m0)
        as (m1 & E1 & R1 & C1 & V1); [lia| | |].
      + split; [exact R0|]. split; [exact C0|]. intros i j Hi Hj. rewrite (V0 i j Hi Hj).
        replace (j <? 0) with false by lia. rewrite andb_false_r, orb_false_r. reflexivity.
      + intros j0 m1 Hj0 (R1 & C1 & V1).
        assert (Hc : t_cell m1 i0 j0 = t_cell m i0 j0).
        { rewrite V1 by assumption. replace ((i0 <? i0) || (i0 =? i0) && (j0 <? j0)) with false by lia. reflexivity. }
        rewrite (Hg i0 j0 m1 Hi0 Hj0 R1 C1 Hc). cbn [bind].
        destruct (HD i0 j0 Hi0 Hj0) as (DR & DC).
        rewrite put_ok; [|lia|lia|congruence|congruence].
        eexists. split; [reflexivity|]. cbn [t_rows t_cols t_cell]. split; [exact R1|]. split; [exact C1|].
        intros i j Hi Hj. destruct ((i =? i0) && (j =? j0)) eqn:Eij.
        * assert (i = i0) by lia. assert (j = j0) by lia. subst i j.
          replace ((i0 <? i0) || (i0 =? i0) && (j0 <? j0 + 1)) with true by lia. reflexivity.
        * rewrite V1 by assumption.
          replace ((i <? i0) || (i =? i0) && (j <? j0 + 1)) with ((i <? i0) || (i =? i0) && (j <? j0)); [reflexivity|].
          destruct (Z.eqb_spec i i0), (Z.eqb_spec j j0); cbn [andb] in Eij |- *; try discriminate;
            rewrite ?orb_false_r; try reflexivity; lia.
      + exists m1. split; [exact E1|]. split; [exact R1|]. split; [exact C1|]. intros i j Hi Hj.
        rewrite (V1 i j Hi Hj). replace ((i <? i0) || (i =? i0) && (j <? 4)) with (i <? i0 + 1); [reflexivity|].
        destruct (Z.eqb_spec i i0); cbn [andb]; lia.
    - exists m'. split; [exact E|]. split; [exact R|]. split; [exact C|].
      intros i j y x Hi Hj Hy Hx. rewrite (V i j Hi Hj). replace (i <? 3) with true by lia.
      destruct (HD i j Hi Hj) as (DR & DC). apply bcell_in; congruence.
  Qed.

  Lemma each_matrix_first g (m : tensor A) e : g 0 0 m = Raise e -> each_matrix g m = Raise e.
  Proof.
    intro E. unfold each_matrix. rewrite for_range_step by lia. rewrite for_range_step by lia. rewrite E. reflexivity.
  Qed.
  Lemma each_matrix_put g (m : tensor A) a e :
    g 0 0 m = Ok a -> put_matrix m 0 0 a = Raise e -> each_matrix g m = Raise e.
  Proof.
    intros E E1. unfold each_matrix. rewrite for_range_step by lia. rewrite for_range_step by lia. rewrite E. cbn [bind].
    rewrite E1. reflexivity.
  Qed.

  Lemma tslice_eq (m m' : tensor A) i j :
    t_rows m' = t_rows m -> t_cols m' = t_cols m -> t_cell m' i j = t_cell m i j -> tslice m' i j = tslice m i j.
  Proof. intros R C V. unfold tslice. rewrite R, C, V. reflexivity. Qed.

  (** ** Turns *)
  Lemma rot90_square (d : demodulator A) k n :
    t_rows (mij d) = n -> t_cols (mij d) = n ->
    exists d', demod_rot90 d k = Ok d' /\ fit_found_flags d' = fit_found_flags d /\
      moved (quarters n k) (mij d) (mij d').
  Proof.
    intros Hr Hc. unfold demod_rot90.
    destruct (each_matrix_ok (fun i j m => Ok (np_rot90 (tslice m i j) k)) (mij d)
                (fun i j => np_rot90 (tslice (mij d) i j) k)) as (m' & E & R & C & V).
    - intros i j m' _ _ R C V. rewrite (tslice_eq _ _ _ _ R C V). reflexivity.
    - intros i j _ _. unfold np_rot90, flip_cols, flip_rows, transpose, tslice.
      destruct (k mod 4 =? 0); [split; reflexivity|]. destruct (k mod 4 =? 2); [split; reflexivity|].
      destruct (k mod 4 =? 1); cbn [rows cols]; split; congruence.
    - rewrite E. cbn [bind]. eexists. split; [reflexivity|]. cbn [mij fit_found_flags]. split; [reflexivity|].
      split; [exact R|]. split; [exact C|]. intros i j y x Hi Hj Hy Hx. rewrite (V i j y x Hi Hj Hy Hx).
      assert (Hk : 0 <= k mod 4 < 4) by (apply Z.mod_pos_bound; lia).
      unfold np_rot90, quarters. set (q := k mod 4) in *. clearbody q.
      assert (Q : q = 0 \/ q = 1 \/ q = 2 \/ q = 3) by lia.
      destruct Q as [-> | [-> | [-> | ->]]]; cbn [Z.eqb Pos.eqb Z.to_nat Pos.to_nat Pos.iter_op Nat.add Nat.iter];
        unfold quarter, flip_cols, flip_rows, transpose, tslice; cbn [rows cols cell fst snd]; rewrite ?Hr, ?Hc;
        try reflexivity.
      change (Nat.iter (Pos.to_nat 3) (fun p : Z * Z => (snd p, n - 1 - fst p)) (y, x))
        with (n - 1 - x, n - 1 - (n - 1 - y)). cbn [fst snd]. f_equal. lia.
  Qed.

  Lemma rot90_half (d : demodulator A) k :
    k mod 4 = 2 -> exists d', demod_rot90 d k = Ok d' /\ fit_found_flags d' = fit_found_flags d /\
      moved (half_turn (t_rows (mij d)) (t_cols (mij d))) (mij d) (mij d').
  Proof.
    intros Hk. unfold demod_rot90.
    destruct (each_matrix_ok (fun i j m => Ok (np_rot90 (tslice m i j) k)) (mij d)
                (fun i j => np_rot90 (tslice (mij d) i j) k)) as (m' & E & R & C & V).
    - intros i j m' _ _ R C V. rewrite (tslice_eq _ _ _ _ R C V). reflexivity.
    - intros i j _ _. unfold np_rot90. rewrite Hk. split; reflexivity.
    - rewrite E. cbn [bind]. eexists. split; [reflexivity|]. cbn [mij fit_found_flags]. split; [reflexivity|].
      split; [exact R|]. split; [exact C|]. intros i j y x Hi Hj Hy Hx. rewrite (V i j y x Hi Hj Hy Hx).
      unfold np_rot90. rewrite Hk. reflexivity.
  Qed.

  Lemma rot90_raises (d : demodulator A) k :
    t_rows (mij d) <> t_cols (mij d) -> k mod 2 = 1 -> demod_rot90 d k = Raise ValueError.
  Proof.
    intros Hne Hk. unfold demod_rot90.
    assert (K : k mod 4 = 1 \/ k mod 4 = 3).
    { assert (k mod 4 mod 2 = 1) by (rewrite <- Znumtheory.Zmod_div_mod; [exact Hk|lia|lia|exists 2; reflexivity]).
      assert (0 <= k mod 4 < 4) by (apply Z.mod_pos_bound; lia).
      assert (Q : k mod 4 = 0 \/ k mod 4 = 1 \/ k mod 4 = 2 \/ k mod 4 = 3) by lia.
      destruct Q as [Q | [Q | [Q | Q]]]; rewrite Q in *; cbv in H0; try discriminate; auto. }
    rewrite (each_matrix_put _ _ (np_rot90 (tslice (mij d) 0 0) k) ValueError); [reflexivity|reflexivity|].
    unfold np_rot90, put_matrix. 
    destruct K as [-> | ->]; cbn [Z.eqb Pos.eqb]; unfold flip_cols, transpose, tslice; cbn [rows cols];
      replace ((0 <? 3) && (0 <? 4)) with true by reflexivity; cbn [negb];
      destruct (Z.eqb_spec (t_cols (mij d)) (t_rows (mij d))), (Z.eqb_spec (t_cols (mij d)) 1),
        (Z.eqb_spec (t_rows (mij d)) (t_cols (mij d))), (Z.eqb_spec (t_rows (mij d)) 1); cbn [orb andb negb];
      try reflexivity; lia.
  Qed.

  Lemma rot90_cases (d d1 : demodulator A) k :
    demod_rot90 d k = Ok d1 ->
    fit_found_flags d1 = fit_found_flags d /\ t_rows (mij d1) = t_rows (mij d) /\ t_cols (mij d1) = t_cols (mij d) /\
    ((t_rows (mij d) = t_cols (mij d) /\ moved (quarters (t_rows (mij d)) k) (mij d) (mij d1)) \/
     (k mod 4 = 0 /\ moved (fun p => p) (mij d) (mij d1)) \/
     (k mod 4 = 2 /\ moved (half_turn (t_rows (mij d)) (t_cols (mij d))) (mij d) (mij d1))).
  Proof.
    intros E. destruct (Z.eq_dec (t_rows (mij d)) (t_cols (mij d))) as [Hs|Hs].
    - destruct (rot90_square d k _ eq_refl (eq_sym Hs)) as (d' & E' & F & M). rewrite E in E'. injection E' as <-.
      split; [exact F|]. split; [apply M|]. split; [apply M|]. left. split; assumption.
    - destruct (Z.eq_dec (k mod 2) 1) as [Ho|Ho]; [rewrite (rot90_raises d k Hs Ho) in E; discriminate|].
      assert (Hk : 0 <= k mod 4 < 4) by (apply Z.mod_pos_bound; lia).
      assert (K : k mod 4 = 0 \/ k mod 4 = 2).
      { assert (H2 : k mod 4 mod 2 = k mod 2) by (rewrite <- Znumtheory.Zmod_div_mod; [reflexivity|lia|lia|exists 2; reflexivity]).
        assert (Q : k mod 4 = 0 \/ k mod 4 = 1 \/ k mod 4 = 2 \/ k mod 4 = 3) by lia.
        destruct Q as [Q | [Q | [Q | Q]]]; auto; exfalso; apply Ho; rewrite <- H2, Q; reflexivity. }
      destruct K as [K|K].
      + revert E. unfold demod_rot90.
        destruct (each_matrix_ok (fun i j m => Ok (np_rot90 (tslice m i j) k)) (mij d)
                    (fun i j => tslice (mij d) i j)) as (m' & E & R & C & V).
        * intros i j m' _ _ R C V. rewrite (tslice_eq _ _ _ _ R C V). unfold np_rot90. rewrite K. reflexivity.
        * intros i j _ _. split; reflexivity.
        * rewrite E. cbn [bind]. intros E'. injection E' as <-. cbn [mij fit_found_flags].
          split; [reflexivity|]. split; [exact R|]. split; [exact C|]. right. left. split; [exact K|].
          split; [exact R|]. split; [exact C|]. intros i j y x Hi Hj Hy Hx. exact (V i j y x Hi Hj Hy Hx).
      + destruct (rot90_half d k K) as (d' & E' & F & M). rewrite E in E'. injection E' as <-.
        split; [exact F|]. split; [apply M|]. split; [apply M|]. right. right. split; assumption.
  Qed.

  Lemma quarter_keeps n p : 0 <= fst p < n -> 0 <= snd p < n ->
    0 <= fst (quarter n p) < n /\ 0 <= snd (quarter n p) < n.
  Proof. unfold quarter. cbn. lia. Qed.
  Lemma quarters_keeps n k : keeps (quarters n k) n n.
  Proof.
    intros y x Hy Hx. unfold quarters. induction (Z.to_nat (k mod 4)) as [|m IH]; [cbn; lia|].
    cbn [Nat.iter]. apply quarter_keeps; apply IH.
  Qed.
  Lemma quarters_compose n k k' p : quarters n k (quarters n k' p) = quarters n (k + k') p.
  Proof.
    unfold quarters.
    assert (Hk : 0 <= k mod 4 < 4) by (apply Z.mod_pos_bound; lia).
    assert (Hk' : 0 <= k' mod 4 < 4) by (apply Z.mod_pos_bound; lia).
    rewrite (Z.add_mod k k') by lia. set (a := k mod 4) in *. set (b := k' mod 4) in *. clearbody a b.
    assert (Q : a = 0 \/ a = 1 \/ a = 2 \/ a = 3) by lia. assert (Q' : b = 0 \/ b = 1 \/ b = 2 \/ b = 3) by lia.
    destruct p as [y x].
    destruct Q as [-> | [-> | [-> | ->]]], Q' as [-> | [-> | [-> | ->]]]; 
      repeat match goal with
        |- context [Z.to_nat ?e] => let v := eval vm_compute in (Z.to_nat e) in change (Z.to_nat e) with v end;
      unfold quarter; cbn [Nat.iter nat_rect fst snd]; try reflexivity; f_equal; lia.
  Qed.

  Lemma moved_trans (m m1 m2 : tensor A) f g :
    moved f m m1 -> moved g m1 m2 -> keeps g (t_rows m) (t_cols m) -> moved (fun p => f (g p)) m m2.
  Proof.
    intros (R & C & V) (R' & C' & V') K. split; [congruence|]. split; [congruence|].
    intros i j y x Hi Hj Hy Hx. rewrite V' by (assumption || lia).
    destruct (K y x Hy Hx) as (K1 & K2). rewrite V by assumption. destruct (g (y, x)). reflexivity.
  Qed.
  Lemma moved_ext (m m1 : tensor A) f g :
    (forall y x, 0 <= y < t_rows m -> 0 <= x < t_cols m -> f (y, x) = g (y, x)) -> moved f m m1 -> moved g m m1.
  Proof.
    intros E (R & C & V). split; [exact R|]. split; [exact C|]. intros i j y x Hi Hj Hy Hx.
    rewrite <- (E y x Hy Hx). apply V; assumption.
  Qed.

  Lemma turns_compose (d d1 d2 d3 : demodulator A) k k' :
    demod_rot90 d k = Ok d1 -> demod_rot90 d1 k' = Ok d2 -> demod_rot90 d (k + k') = Ok d3 ->
    same_tensor (mij d2) (mij d3) /\ fit_found_flags d2 = fit_found_flags d3.
  Proof.
    intros E1 E2 E3. destruct (rot90_cases _ _ _ E1) as (F1 & R1 & C1 & M1).
    destruct (rot90_cases _ _ _ E2) as (F2 & R2 & C2 & M2). destruct (rot90_cases _ _ _ E3) as (F3 & R3 & C3 & M3).
    split; [|congruence]. rewrite R1, C1 in *.
    assert (Z2 : forall a : Z, (a mod 4 = 0 \/ a mod 4 = 2) ->
              forall b, (b mod 4 = 0 \/ b mod 4 = 2) ->
              (a + b) mod 4 = (a mod 4 + b mod 4) mod 4) by (intros a _ b _; apply Z.add_mod; lia).
    destruct (Z.eq_dec (t_rows (mij d)) (t_cols (mij d))) as [Hs|Hs].
    - destruct (rot90_square d k _ eq_refl (eq_sym Hs)) as (x1 & X1 & _ & N1). rewrite E1 in X1. injection X1 as <-.
      destruct (rot90_square d1 k' (t_rows (mij d)) R1 ltac:(congruence)) as (x2 & X2 & _ & N2). rewrite E2 in X2. injection X2 as <-.
      destruct (rot90_square d (k + k') _ eq_refl (eq_sym Hs)) as (x3 & X3 & _ & N3). rewrite E3 in X3. injection X3 as <-.
      assert (N := moved_trans _ _ _ _ _ N1 N2).
      rewrite <- Hs in N. specialize (N (quarters_keeps _ _)).
      destruct N as (_ & _ & V). destruct N3 as (_ & _ & V3).
      split; [congruence|]. split; [congruence|]. intros i j y x Hi Hj Hy Hx.
      rewrite R3 in Hy. rewrite C3 in Hx.
      rewrite V by assumption. rewrite V3 by assumption. cbv beta. rewrite quarters_compose. reflexivity.
    - destruct M1 as [[M1 _]|M1]; [contradiction|]. destruct M2 as [[M2 _]|M2]; [contradiction|].
      destruct M3 as [[M3 _]|M3]; [contradiction|].
      split; [congruence|]. split; [congruence|]. intros i j y x Hi Hj Hy Hx.
      rewrite R3 in Hy. rewrite C3 in Hx. assert (A4 := Z.add_mod k k' 4 ltac:(lia)).
      destruct M1 as [[K1 (_ & _ & V1)]|[K1 (_ & _ & V1)]], M2 as [[K2 (_ & _ & V2)]|[K2 (_ & _ & V2)]];
        rewrite K1, K2 in A4;
        match type of A4 with _ = ?e => let v := eval vm_compute in e in change e with v in A4 end;
        destruct M3 as [[K3 (_ & _ & V3)]|[K3 (_ & _ & V3)]]; rewrite A4 in K3; try discriminate;
        rewrite R1, C1 in V2;
        rewrite V2 by assumption; rewrite V3 by assumption; unfold half_turn; cbn [fst snd];
        rewrite V1 by lia; unfold half_turn; cbn [fst snd]; f_equal; lia.
  Qed.

  Lemma turn_zero (d : demodulator A) :
    exists d', demod_rot90 d 0 = Ok d' /\ same_tensor (mij d') (mij d) /\ fit_found_flags d' = fit_found_flags d.
  Proof.
    unfold demod_rot90.
    destruct (each_matrix_ok (fun i j m => Ok (np_rot90 (tslice m i j) 0)) (mij d)
                (fun i j => tslice (mij d) i j)) as (m' & E & R & C & V).
    - intros i j m' _ _ R C V. rewrite (tslice_eq _ _ _ _ R C V). reflexivity.
    - intros i j _ _. split; reflexivity.
    - rewrite E. cbn [bind]. eexists. split; [reflexivity|]. cbn [mij fit_found_flags]. split; [|reflexivity].
      split; [exact R|]. split; [exact C|]. exact V.
  Qed.

  Lemma turns_back (d d1 d2 : demodulator A) k k' :
    demod_rot90 d k = Ok d1 -> demod_rot90 d1 k' = Ok d2 -> (k + k') mod 4 = 0 ->
    same_tensor (mij d2) (mij d).
  Proof.
    intros E1 E2 Hk.
    assert (E0 : exists d3, demod_rot90 d (k + k') = Ok d3 /\ same_tensor (mij d3) (mij d)).
    { destruct (turn_zero d) as (d3 & E3 & S3 & _). exists d3. split; [|exact S3]. rewrite <- E3.
      unfold demod_rot90. f_equal. unfold each_matrix. apply for_range_ext. intros i m. apply for_range_ext.
      intros j m0. unfold np_rot90. rewrite Hk. reflexivity. }
    destruct E0 as (d3 & E3 & (R3 & C3 & V3)).
    destruct (turns_compose d d1 d2 d3 k k' E1 E2 E3) as ((R & C & V) & _).
    split; [congruence|]. split; [congruence|]. intros i j y x Hi Hj Hy Hx.
    rewrite V by (assumption || lia). apply V3; assumption.
  Qed.

  (** ** Flips *)
  Lemma flip_ok (d : demodulator A) axis :
    (axis = 0 \/ axis = -2 ->
     exists d', demod_flip d axis = Ok d' /\ fit_found_flags d' = fit_found_flags d /\
       moved (upside_down (t_rows (mij d))) (mij d) (mij d')) /\
    (axis = 1 \/ axis = -1 ->
     exists d', demod_flip d axis = Ok d' /\ fit_found_flags d' = fit_found_flags d /\
       moved (left_right (t_cols (mij d))) (mij d) (mij d')) /\
    (axis < -2 \/ 1 < axis -> demod_flip d axis = Raise ValueError).
  Proof.
    split; [|split]; intros Ha.
    - unfold demod_flip.
      destruct (each_matrix_ok (fun i j m => np_flip (tslice m i j) axis) (mij d)
                  (fun i j => flip_rows (tslice (mij d) i j))) as (m' & E & R & C & V).
      + intros i j m' _ _ R C V. rewrite (tslice_eq _ _ _ _ R C V). unfold np_flip.
        destruct Ha as [-> | ->]; reflexivity.
      + intros i j _ _. split; reflexivity.
      + rewrite E. cbn [bind]. eexists. split; [reflexivity|]. split; [reflexivity|].
        split; [exact R|]. split; [exact C|]. exact V.
    - unfold demod_flip.
      destruct (each_matrix_ok (fun i j m => np_flip (tslice m i j) axis) (mij d)
                  (fun i j => flip_cols (tslice (mij d) i j))) as (m' & E & R & C & V).
      + intros i j m' _ _ R C V. rewrite (tslice_eq _ _ _ _ R C V). unfold np_flip.
        destruct Ha as [-> | ->]; reflexivity.
      + intros i j _ _. split; reflexivity.
      + rewrite E. cbn [bind]. eexists. split; [reflexivity|]. split; [reflexivity|].
        split; [exact R|]. split; [exact C|]. exact V.
    - unfold demod_flip. rewrite (each_matrix_first _ _ ValueError); [reflexivity|].
      unfold np_flip. replace ((axis =? 0) || (axis =? -2)) with false by lia.
      replace ((axis =? 1) || (axis =? -1)) with false by lia. reflexivity.
  Qed.

  Lemma flip_twice (d d1 d2 : demodulator A) axis :
    demod_flip d axis = Ok d1 -> demod_flip d1 axis = Ok d2 ->
    same_tensor (mij d2) (mij d) /\ fit_found_flags d2 = fit_found_flags d.
  Proof.
    intros E1 E2. destruct (flip_ok d axis) as (P0 & P1 & P2). destruct (flip_ok d1 axis) as (Q0 & Q1 & Q2).
    assert (Ax : (axis = 0 \/ axis = -2) \/ (axis = 1 \/ axis = -1) \/ (axis < -2 \/ 1 < axis)) by lia.
    destruct Ax as [Ax|[Ax|Ax]].
    - destruct (P0 Ax) as (x1 & X1 & F1 & (R1 & C1 & V1)). rewrite E1 in X1. injection X1 as <-.
      destruct (Q0 Ax) as (x2 & X2 & F2 & (R2 & C2 & V2)). rewrite E2 in X2. injection X2 as <-.
      split; [|congruence]. split; [congruence|]. split; [congruence|]. intros i j y x Hi Hj Hy Hx.
      rewrite V2 by (assumption || lia). unfold upside_down. cbn [fst snd].
      rewrite V1 by (assumption || lia). unfold upside_down. cbn [fst snd]. f_equal. lia.
    - destruct (P1 Ax) as (x1 & X1 & F1 & (R1 & C1 & V1)). rewrite E1 in X1. injection X1 as <-.
      destruct (Q1 Ax) as (x2 & X2 & F2 & (R2 & C2 & V2)). rewrite E2 in X2. injection X2 as <-.
      split; [|congruence]. split; [congruence|]. split; [congruence|]. intros i j y x Hi Hj Hy Hx.
      rewrite V2 by (assumption || lia). unfold left_right. cbn [fst snd].
      rewrite V1 by (assumption || lia). unfold left_right. cbn [fst snd]. f_equal. lia.
    - rewrite (P2 Ax) in E1. discriminate.
  Qed.

  (** ** Demodulating *)
  Lemma moved_demod src (d d' : demodulator A) (data data' : arr A) old old' h w :
    mosaic data -> mosaic data' -> rows data = 2 * h -> cols data = 2 * w -> rows data' = 2 * h -> cols data' = 2 * w ->
    t_rows (mij d) = h -> t_cols (mij d) = w -> keeps src h w -> moved src (mij d) (mij d') ->
    fit_found_flags d = None -> fit_found_flags d' = None ->
    (forall k Y X, 0 <= k < 4 -> 0 <= Y < h -> 0 <= X < w ->
       sample data' k Y X = sample data k (fst (src (Y, X))) (snd (src (Y, X)))) ->
    exists s s', demod_raw d data old = Ok s /\ demod_raw d' data' old' = Ok s' /\
      stokes_is s' h w
        (fun Y X => cell (sI s) (fst (src (Y, X))) (snd (src (Y, X))))
        (fun Y X => cell (sQ s) (fst (src (Y, X))) (snd (src (Y, X))))
        (fun Y X => cell (sU s) (fst (src (Y, X))) (snd (src (Y, X)))).
  Proof.
    intros Hm Hm' Hr Hc Hr' Hc' Tr Tc K (MR & MC & MV) Fl Fl' Hs.
    assert (Dh : rows data / 2 = h) by (rewrite Hr, Z.mul_comm; apply Z.div_mul; lia).
    assert (Dw : cols data / 2 = w) by (rewrite Hc, Z.mul_comm; apply Z.div_mul; lia).
    assert (Dh' : rows data' / 2 = h) by (rewrite Hr', Z.mul_comm; apply Z.div_mul; lia).
    assert (Dw' : cols data' / 2 = w) by (rewrite Hc', Z.mul_comm; apply Z.div_mul; lia).
    destruct (c24_product d data old h w Hm (eq_sym Dh) (eq_sym Dw) Tr Tc) as (s & E & S1).
    { intros f Ef. rewrite Fl in Ef. discriminate. }
    destruct (c24_product d' data' old' h w Hm' (eq_sym Dh') (eq_sym Dw') ltac:(congruence) ltac:(congruence)) as (s' & E' & S2).
    { intros f Ef. rewrite Fl' in Ef. discriminate. }
    exists s, s'. split; [exact E|]. split; [exact E'|].
    cbv zeta in S1, S2. rewrite Fl in S1. rewrite Fl' in S2. cbv iota in S1, S2.
    destruct S1 as (_ & _ & _ & V1). destruct S2 as (SI & SQ & SU & V2).
    split; [exact SI|]. split; [exact SQ|]. split; [exact SU|].
    intros Y X HY HX. destruct (K Y X HY HX) as (K1 & K2).
    destruct (V1 _ _ K1 K2) as (-> & -> & ->). destruct (V2 Y X HY HX) as (-> & -> & ->).
    unfold row_product. rewrite !Hs by (assumption || lia). rewrite !MV by (assumption || lia).
    repeat split; reflexivity.
  Qed.

  Lemma mirrored_sample (a b : arr A) k Y X h w :
    rows a = 2 * h -> cols a = 2 * w -> mirrored a b -> 0 <= k < 4 -> 0 <= Y < h -> 0 <= X < w ->
    sample b k Y X = sample a (neighbour k) Y (w - 1 - X).
  Proof.
    intros Hr Hc (Rb & Cb & V) Hk HY HX. unfold sample.
    assert (Q : k = 0 \/ k = 1 \/ k = 2 \/ k = 3) by lia.
    destruct Q as [-> | [-> | [-> | ->]]]; cbn [neighbour];
      repeat match goal with
        |- context [Z.pos ?a / 2] => let v := eval vm_compute in (Z.pos a / 2) in change (Z.pos a / 2) with v end;
      repeat match goal with
        |- context [Z.pos ?a mod 2] => let v := eval vm_compute in (Z.pos a mod 2) in change (Z.pos a mod 2) with v end;
      rewrite ?Zdiv_0_l, ?Zmod_0_l; rewrite V by lia; f_equal; lia.
  Qed.

  Lemma mirror_demod (d d' : demodulator A) (data data' : arr A) old h w :
    mosaic data -> rows data = 2 * h -> cols data = 2 * w -> mirrored data data' ->
    t_rows (mij d) = h -> t_cols (mij d) = w -> fit_found_flags d = None ->
    demod_flip d 1 = Ok d' ->
    exists s, demod_raw d' data' old = Ok s /\
      let product i Y X :=
        row_product (fun i j => t_cell (mij d) i j Y (w - 1 - X))
          (fun k => sample data (neighbour k) Y (w - 1 - X)) i in
      stokes_is s h w (product 0) (product 1) (product 2).
  Proof.
    intros Hm Hr Hc Hmir Tr Tc Fl E. destruct (flip_ok d 1) as (_ & P & _).
    destruct (P (or_introl eq_refl)) as (x & X & F & (MR & MC & MV)). rewrite E in X. injection X as <-.
    assert (Rm := proj1 Hmir). assert (Cm := proj1 (proj2 Hmir)).
    assert (Hm' : mosaic data') by (unfold mosaic; rewrite Rm, Cm; exact Hm).
    assert (Dh' : rows data' / 2 = h) by (rewrite Rm, Hr, Z.mul_comm; apply Z.div_mul; lia).
    assert (Dw' : cols data' / 2 = w) by (rewrite Cm, Hc, Z.mul_comm; apply Z.div_mul; lia).
    destruct (c24_product d' data' old h w Hm' (eq_sym Dh') (eq_sym Dw') ltac:(congruence) ltac:(congruence)) as (s & E' & S2).
    { intros f Ef. rewrite F, Fl in Ef. discriminate. }
    exists s. split; [exact E'|]. cbv zeta in S2 |- *. rewrite F, Fl in S2. cbv iota in S2.
    destruct S2 as (SI & SQ & SU & V2). split; [exact SI|]. split; [exact SQ|]. split; [exact SU|].
    intros Y X HY HX. destruct (V2 Y X HY HX) as (-> & -> & ->).
    unfold row_product. rewrite !(mirrored_sample data data' _ Y X h w) by (assumption || lia).
    rewrite !MV by (assumption || lia). unfold left_right. cbn [fst snd]. rewrite Tc. repeat split; reflexivity.
  Qed.

  (** ** Binning *)
  Lemma quot_div a b : 0 <= a -> 1 <= b -> Z.quot a b = a / b.
  Proof. intros Ha Hb. apply Z.quot_div_nonneg; lia. Qed.

  Lemma rebin_odd fuel files (d : demodulator A) b :
    0 <= t_rows (mij d) -> 0 <= t_cols (mij d) -> 1 <= b ->
    (t_rows (mij d) / b) mod 2 = 1 \/ (t_cols (mij d) / b) mod 2 = 1 ->
    demod_rebin fuel files d b = Raise ValueError.
  Proof.
    intros Hr Hc Hb Ho. unfold demod_rebin. replace (b =? 0) with false by lia.
    rewrite !quot_div by assumption. destruct Ho as [-> | ->]; cbn [Z.eqb negb orb]; [reflexivity|].
    rewrite orb_true_r. reflexivity.
  Qed.

  Lemma rebin_means files (d d0 : demodulator A) b :
    0 <= t_rows (mij d0) -> 0 <= t_cols (mij d0) -> 1 <= b -> load files = Ok d0 ->
    t_rows (mij d) = t_rows (mij d0) -> t_cols (mij d) = t_cols (mij d0) ->
    (t_rows (mij d) / b) mod 2 = 0 -> (t_cols (mij d) / b) mod 2 = 0 ->
    returns (fun fuel => demod_rebin fuel files d b)
      (fun d' => fit_found_flags d' = fit_found_flags d0 /\
         t_rows (mij d') = t_rows (mij d) / b /\ t_cols (mij d') = t_cols (mij d) / b /\
         forall i j Y X, 0 <= i < 3 -> 0 <= j < 4 -> 0 <= Y < t_rows (mij d) / b -> 0 <= X < t_cols (mij d) / b ->
           t_cell (mij d') i j Y X = lsum (plain_block (tslice (mij d0) i j) b Y X) /! nofZ (b * b)).
  Proof.
    intros Hr Hc Hb El Tr Tc He He'.
    set (h := t_rows (mij d0)) in *. set (w := t_cols (mij d0)) in *.
    set (n := Z.to_nat (Z.max h w)).
    assert (St : forall i j, exists r, (forall fuel, (n <= fuel)%nat -> standard_rebin fuel (tslice (mij d0) i j) b = Ok r) /\
               rows r = h / b /\ cols r = w / b /\
               forall Y X, 0 <= Y < h / b -> 0 <= X < w / b -> cell r Y X = lsum (plain_block (tslice (mij d0) i j) b Y X)).
    { intros i j. destruct (c09_rebin (tslice (mij d0) i j) b Hr Hc Hb) as (r & (Rr & Cr & Vr) & (m & Em)).
      exists r. split; [|split; [exact Rr|split; [exact Cr|]]].
      - intros fuel Hf. specialize (Em (Nat.max m fuel) ltac:(lia)).
        destruct (std_rebin_spec (tslice (mij d0) i j) b fuel (conj Hr Hc) Hb Hf) as (r' & E' & _).
        assert (M := standard_fuel_mono (tslice (mij d0) i j) r' b fuel (Nat.max m fuel) Hr Hc Hb Hf E' ltac:(lia)).
        rewrite M in Em. injection Em as <-. exact E'.
      - intros Y X HY HX. apply Vr; [rewrite Rr|rewrite Cr]; assumption. }
    assert (Hz : zeros (h / b) (w / b) = Ok (full (h / b) (w / b) (n0 : A))).
    { unfold zeros. assert (0 <= h / b) by (apply Z.div_pos; lia). assert (0 <= w / b) by (apply Z.div_pos; lia).
      replace ((h / b <? 0) || (w / b <? 0)) with false by lia. reflexivity. }
    assert (Ex : forall fuel, (n <= fuel)%nat -> demod_rebin fuel files d b = demod_rebin n files d b).
    { intros fuel Hf. unfold demod_rebin. destruct (b =? 0); [reflexivity|]. destruct (_ || _); [reflexivity|].
      rewrite El. cbn [bind]. fold h w. rewrite !quot_div by assumption. rewrite Hz. cbn [bind]. f_equal.
      unfold each_matrix. apply for_range_ext. intros i m. apply for_range_ext. intros j m0.
      destruct (St i j) as (r & Er & _). rewrite (Er fuel Hf), (Er n (le_n _)). reflexivity. }
    assert (Ok' : exists d', demod_rebin n files d b = Ok d' /\ fit_found_flags d' = fit_found_flags d0 /\
         t_rows (mij d') = h / b /\ t_cols (mij d') = w / b /\
         forall i j Y X, 0 <= i < 3 -> 0 <= j < 4 -> 0 <= Y < h / b -> 0 <= X < w / b ->
           t_cell (mij d') i j Y X = lsum (plain_block (tslice (mij d0) i j) b Y X) /! nofZ (b * b)).
    { unfold demod_rebin. replace (b =? 0) with false by lia. rewrite Tr, Tc in *. fold h w in He, He' |- *.
      rewrite !quot_div by assumption. rewrite He, He'. cbn [Z.eqb negb orb]. rewrite El. cbn [bind]. fold h w.
      rewrite !quot_div by assumption. rewrite Hz. cbn [bind].
      set (D := fun i j => match standard_rebin n (tslice (mij d0) i j) b with
                           | Ok r => amap (fun v => v /! nofZ (b * b)) r | _ => full 0 0 n0 end).
      destruct (each_matrix_ok (fun j i _ => let* r := standard_rebin n (tslice (mij d0) j i) b in
                    Ok (amap (fun v => v /! nofZ (b * b)) r))
                  (mktensor (rows (full (h / b) (w / b) (n0 : A))) (cols (full (h / b) (w / b) (n0 : A)))
                     (fun _ _ => cell (full (h / b) (w / b) n0))) D) as (m' & E & R & C & V).
      - intros i j m' _ _ _ _ _. unfold D. destruct (St i j) as (r & Er & _). rewrite (Er n (le_n _)). reflexivity.
      - intros i j _ _. unfold D. destruct (St i j) as (r & Er & Rr & Cr & _). rewrite (Er n (le_n _)).
        cbn [amap rows cols full t_rows t_cols]. split; assumption.
      - rewrite E. cbn [bind]. eexists. split; [reflexivity|]. cbn [mij fit_found_flags]. split; [reflexivity|].
        split; [exact R|]. split; [exact C|]. intros i j Y X Hi Hj HY HX.
        rewrite (V i j Y X Hi Hj HY HX). unfold D. destruct (St i j) as (r & Er & Rr & Cr & Vr).
        rewrite (Er n (le_n _)). cbn [amap cell]. rewrite (Vr Y X HY HX). reflexivity. }
    destruct Ok' as (d' & E & P). rewrite Tr, Tc. exists d'. split; [exact P|]. exists n. intros fuel Hf.
    rewrite (Ex fuel Hf). exact E.
  Qed.

  Lemma rebin_forgets fuel files (d d' : demodulator A) b :
    (exists k, demod_rot90 d k = Ok d') \/ (exists axis, demod_flip d axis = Ok d') ->
    demod_rebin fuel files d' b = demod_rebin fuel files d b.
  Proof.
    intros Ht. assert (D : t_rows (mij d') = t_rows (mij d) /\ t_cols (mij d') = t_cols (mij d)).
    { destruct Ht as [(k & E)|(axis & E)].
      - destruct (rot90_cases _ _ _ E) as (_ & R & C & _). split; assumption.
      - destruct (flip_ok d axis) as (P0 & P1 & P2).
        assert (Ax : (axis = 0 \/ axis = -2) \/ (axis = 1 \/ axis = -1) \/ (axis < -2 \/ 1 < axis)) by lia.
        destruct Ax as [Ax|[Ax|Ax]].
        + destruct (P0 Ax) as (x & X & _ & (R & C & _)). rewrite E in X. injection X as <-. split; assumption.
        + destruct (P1 Ax) as (x & X & _ & (R & C & _)). rewrite E in X. injection X as <-. split; assumption.
        + rewrite (P2 Ax) in E. discriminate. }
    destruct D as (R & C). unfold demod_rebin. rewrite R, C. reflexivity.
  Qed.

  Lemma where2_flags (c : arr bool) (a o : arr A) h' :
    rows a = h' -> 2 <= h' -> rows c <> h' -> 2 <= rows c -> where2 c a o = Raise ValueError.
  Proof.
    intros Ra Hh Hc H2. unfold where2, bmap2 at 1.
    destruct (bdim (rows a) (rows o)) as [h|] eqn:E1; [|reflexivity].
    destruct (bdim (cols a) (cols o)) as [w|] eqn:E2; [|reflexivity].
    assert (Hh' : h = h').
    { unfold bdim in E1. rewrite Ra in E1.
      destruct (Z.eqb_spec h' (rows o)); [congruence|]. destruct (Z.eqb_spec h' 1); [lia|].
      destruct (rows o =? 1); congruence. }
    subst h. cbn [bind]. unfold bmap2. cbn [rows cols]. unfold bdim at 1.
    destruct (Z.eqb_spec (rows c) h'); [contradiction|]. destruct (Z.eqb_spec (rows c) 1); [lia|].
    destruct (Z.eqb_spec h' 1); [lia|]. reflexivity.
  Qed.

  Lemma demod_flags_shape (d : demodulator A) (data : arr A) old f :
    mosaic data -> t_rows (mij d) = rows data / 2 -> t_cols (mij d) = cols data / 2 ->
    fit_found_flags d = Some f -> 2 <= rows data / 2 -> 2 <= rows f -> rows f <> rows data / 2 ->
    demod_raw d data old = Raise ValueError.
  Proof.
    intros Hm Tr Tc Fl H2 Hf Hne.
    destruct (c24_product (mkdemodulator (mij d) None) data old _ _ Hm eq_refl eq_refl Tr Tc) as (s & E & Sp).
    { discriminate. }
    unfold demod_raw in *. destruct (split_polarizations data) as [q|e|]; cbn [bind] in *; try discriminate.
    cbn [mij fit_found_flags] in E. destruct (demod_product (mij d) q) as [p|e|]; cbn [bind select_stokes] in *; try discriminate.
    injection E as ->. rewrite Fl. cbn [select_stokes].
    rewrite (where2_flags _ _ _ (rows data / 2)); [reflexivity| |exact H2|cbn [amap rows]; exact Hne|cbn [amap rows]; exact Hf].
    apply Sp.
  Qed.

  Lemma rebin_flags files (d d0 : demodulator A) b f data old :
    load files = Ok d0 -> fit_found_flags d0 = Some f -> rows f = t_rows (mij d0) -> 2 <= b ->
    0 <= t_cols (mij d0) -> 2 <= t_rows (mij d0) / b ->
    t_rows (mij d) = t_rows (mij d0) -> t_cols (mij d) = t_cols (mij d0) ->
    (t_rows (mij d) / b) mod 2 = 0 -> (t_cols (mij d) / b) mod 2 = 0 ->
    mosaic data -> rows data / 2 = t_rows (mij d) / b -> cols data / 2 = t_cols (mij d) / b ->
    returns (fun fuel => demod_rebin fuel files d b) (fun d' => demod_raw d' data old = Raise ValueError).
  Proof.
    intros El Fl Rf Hb Hc H2 Tr Tc He He' Hm Dr Dc.
    assert (Hr : 2 <= t_rows (mij d0) / b <= t_rows (mij d0) - 1).
    { split; [exact H2|]. assert (0 < t_rows (mij d0)).
      { destruct (Z_le_gt_dec (t_rows (mij d0)) 0) as [Hn|Hn]; [|lia]. exfalso.
        assert (t_rows (mij d0) / b <= 0) by (apply Z.div_le_upper_bound; lia). lia. }
      assert (t_rows (mij d0) / b < t_rows (mij d0)) by (apply Z.div_lt; lia). lia. }
    destruct (rebin_means files d d0 b ltac:(lia) Hc ltac:(lia) El Tr Tc He He') as (d' & (Fd & R & C & _) & N).
    exists d'. split; [|exact N].
    apply (demod_flags_shape d' data old f); try congruence; try assumption; rewrite ?Dr, ?Tr; lia.
  Qed.
End Turn.

Local Open Scope Z_scope.
Lemma ideal_mirror :
  mirrored light0 light0_mirrored /\
  exists d', demod_flip (mkdemodulator ideal_tensor None) 1 = Ok d' /\
  on_ok (fun s => (cell (sI s) 0 0, cell (sQ s) 0 0, cell (sU s) 0 0)) (demod_raw (mkdemodulator ideal_tensor None) light0 nothing)
    = Ok (1, 1, 0)%Q /\
  on_ok (fun s => (cell (sI s) 0 0, cell (sQ s) 0 0, cell (sU s) 0 0)) (demod_raw d' light0_mirrored nothing)
    = Ok (1, 0, 1)%Q.
Proof.
  split.
  - split; [reflexivity|]. split; [reflexivity|]. change (rows light0) with 2. change (cols light0) with 2.
    intros y x Hy Hx. assert (Y : y = 0 \/ y = 1) by lia. assert (X : x = 0 \/ x = 1) by lia.
    destruct Y as [-> | ->], X as [-> | ->]; reflexivity.
  - assert (C : match demod_flip (mkdemodulator ideal_tensor None) 1 with
                Ok d' => on_ok (fun s => (cell (sI s) 0 0, cell (sQ s) 0 0, cell (sU s) 0 0)) (demod_raw d' light0_mirrored nothing)
                | _ => NoFuel end = Ok (1, 0, 1)%Q) by (vm_compute; reflexivity).
    destruct (flip_ok (mkdemodulator ideal_tensor None) 1) as (_ & P & _).
    destruct (P (or_introl eq_refl)) as (d' & E & _). rewrite E in C. exists d'.
    split; [exact E|]. split; [vm_compute; reflexivity|exact C].
Qed.

Lemma binning_case :
  let c := mkcalibration (counting 4 4) (full 4 4 1%Q) (full 4 4 1%Q) (full 4 4 1%Q) (full 4 4 1%Q) in
  exists d0 d', load (written_files c) = Ok d0 /\ fit_found_flags d0 = Some (k_found c) /\
    t_rows (mij d0) = 4 /\ t_cols (mij d0) = 4 /\
    demod_rebin 10 (written_files c) d0 2 = Ok d' /\
    Forall2 (Forall2 Qeq) (to_list (tslice (mij d') 2 1)) [[4211 # 2; 4215 # 2]; [4251 # 2; 4255 # 2]]%Q /\
    (forall fuel, demod_rebin fuel (written_files c) d0 3 = Raise ValueError).
Proof.
  intro c.
  destruct (c27_roundtrip c [] (written_files c)) as (d0 & E & (R & C & _) & F).
  { rewrite app_nil_r. apply Permutation.Permutation_refl. }
  { vm_compute. repeat (constructor; [intro Hin; repeat (destruct Hin as [Hin|Hin]; [discriminate Hin|]); exact Hin|]).
    constructor. }
  { intros n f []. }
  assert (L : match load (written_files c) with
              | Ok d0 => match demod_rebin 10 (written_files c) d0 2 with
                         | Ok d' => to_list (tslice (mij d') 2 1) | _ => [] end
              | _ => [] end = [[4211 # 2; 4215 # 2]; [4251 # 2; 4255 # 2]]%Q).
  { vm_compute. reflexivity. }
  rewrite E in L. destruct (demod_rebin 10 (written_files c) d0 2) as [d'|e|] eqn:Er; try discriminate L.
  exists d0, d'. split; [exact E|]. split; [exact F|]. split; [exact R|]. split; [exact C|]. split; [exact Er|].
  rewrite L. split.
  - repeat constructor.
  - intro fuel. apply rebin_odd; rewrite ?R, ?C; cbn; lia.
Qed.
