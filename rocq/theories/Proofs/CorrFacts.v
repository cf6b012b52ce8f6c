(** Errors of the polarization parameters from the errors of the pixels. *)
From Coq Require Import Reals Lra Lia.
From Verif Require Import Base.Base Base.BaseFacts Base.Num Model.Demosaic Model.Stokes Model.Pol
  Model.Demodulate Model.Errors Spec.MosaicSpec Spec.StokesSpec Spec.DemodSpec Spec.ErrorSpec Spec.CorrSpec Proofs.PolFacts Proofs.DemodFacts Proofs.ErrorFacts.
Local Open Scope R_scope.

(** ** Along a line *)
Lemma row_changed m i v j t : (0 <= j < 4)%Z -> row m i (changed v j t) = row m i v + m i j * (t - v j).
Proof.
  intros Hj. unfold row, sum4, changed.
  assert (D : j = 0%Z \/ j = 1%Z \/ j = 2%Z \/ j = 3%Z) by lia.
  destruct D as [-> | [-> | [-> | ->]]]; cbn; ring.
Qed.

Lemma d_line V b x : derivable_pt_lim (fun t => V + b * (t - x)) x b.
Proof.
  apply (dlim_val _ _ (0 + b * (1 - 0))); [ring|].
  apply (derivable_pt_lim_plus (fun _ => V) (fun t => b * (t - x))); [apply derivable_pt_lim_const|].
  apply (derivable_pt_lim_scal (fun t => t - x)).
  apply (derivable_pt_lim_minus (fun t => t) (fun _ => x)); [apply derivable_pt_lim_id|apply derivable_pt_lim_const].
Qed.

Lemma near_line V b x : V <> 0 -> exists d, 0 < d /\ forall t, x - d < t < x + d -> 0 < (V + b * (t - x)) * V.
Proof.
  intros HV. pose proof (Rabs_pos_lt V HV) as Hp. pose proof (Rabs_pos b) as Hb.
  exists (Rabs V / (Rabs b + 1)). split; [apply Rdiv_lt_0_compat; lra|].
  intros t Ht. assert (Hd : Rabs (t - x) < Rabs V / (Rabs b + 1)) by (apply Rabs_def1; lra).
  assert (K : Rabs (b * (t - x)) < Rabs V).
  { rewrite Rabs_mult. apply Rle_lt_trans with (Rabs b * (Rabs V / (Rabs b + 1))).
    - apply Rmult_le_compat_l; lra.
    - apply Rlt_le_trans with ((Rabs b + 1) * (Rabs V / (Rabs b + 1))).
      + apply Rmult_lt_compat_r; [apply Rdiv_lt_0_compat; lra|lra].
      + right. field. lra. }
  apply Rabs_def2 in K as (K1 & K2). revert K1 K2. unfold Rabs. destruct (Rcase_abs V); intros; nra.
Qed.

Lemma line_at V b x : V + b * (x - x) = V. Proof. ring. Qed.

Lemma d_norm_line Q U b c x : 0 < Q * Q + U * U ->
  derivable_pt_lim (fun t => sqrt ((Q + b * (t - x)) * (Q + b * (t - x)) + (U + c * (t - x)) * (U + c * (t - x)))) x
    ((Q * b + U * c) / sqrt (Q * Q + U * U)).
Proof.
  intros Hp. assert (Hs : 0 < sqrt (Q * Q + U * U)) by (apply sqrt_lt_R0; exact Hp).
  set (q := fun t => Q + b * (t - x)). set (u := fun t => U + c * (t - x)).
  apply (dlim_val _ _ (/ (2 * sqrt (Q * Q + U * U)) * ((b * q x + q x * b) + (c * u x + u x * c)))).
  { unfold q, u. rewrite !line_at. field. lra. }
  apply (derivable_pt_lim_comp (fun t => q t * q t + u t * u t) sqrt).
  - apply (derivable_pt_lim_plus (fun t => q t * q t) (fun t => u t * u t));
      apply derivable_pt_lim_mult; apply d_line.
  - unfold q, u. rewrite !line_at. apply derivable_pt_lim_sqrt. exact Hp.
Qed.

Lemma pB_line I Q U a b c x : ~ (Q = 0 /\ U = 0) ->
  derivable_pt_lim (fun t => value (pB (pixel (I + a * (t - x)) (Q + b * (t - x)) (U + c * (t - x))))) x
    ((Q * b + U * c) / sqrt (Q * Q + U * U)).
Proof. intros H0. apply (d_norm_line Q U b c x). apply norm_pos. exact H0. Qed.

Lemma DoLP_line I Q U a b c x : I <> 0 -> ~ (Q = 0 /\ U = 0) ->
  derivable_pt_lim (fun t => value (DoLP (pixel (I + a * (t - x)) (Q + b * (t - x)) (U + c * (t - x))))) x
    ((Q * b + U * c) / sqrt (Q * Q + U * U) / I - sqrt (Q * Q + U * U) * a / (I * I)).
Proof.
  intros HI H0. destruct (near_line I a x HI) as (d & Hd & Hn).
  set (r := fun t => sqrt ((Q + b * (t - x)) * (Q + b * (t - x)) + (U + c * (t - x)) * (U + c * (t - x)))).
  apply (derivable_pt_lim_locally_ext (fun t => r t / (I + a * (t - x))) _ x (x - d) (x + d)); [lra| |].
  - intros t Ht. rewrite DoLP_pixel; [reflexivity|]. specialize (Hn t Ht). intros E. rewrite E in Hn. lra.
  - assert (Er : r x = sqrt (Q * Q + U * U)) by (unfold r; rewrite !line_at; reflexivity).
    apply (dlim_val _ _ (((Q * b + U * c) / sqrt (Q * Q + U * U) * (I + a * (x - x)) - a * r x) / Rsqr (I + a * (x - x)))).
    + rewrite line_at, Er. unfold Rsqr. field.
      pose proof (sqrt_lt_R0 _ (norm_pos Q U H0)). split; first [exact HI|lra].
    + apply (derivable_pt_lim_div r (fun t => I + a * (t - x)));
        [apply d_norm_line, norm_pos, H0|apply d_line|rewrite line_at; exact HI].
Qed.

Lemma AoLP_line I Q U a b c x : Q <> 0 -> 0 < Q \/ U <> 0 ->
  derivable_pt_lim (fun t => value (AoLP (pixel (I + a * (t - x)) (Q + b * (t - x)) (U + c * (t - x))))) x
    (1 / 2 * (/ (1 + (U / Q) * (U / Q)) * ((c * Q - b * U) / (Q * Q)))).
Proof.
  intros HQ HU. set (q := fun t => Q + b * (t - x)). set (u := fun t => U + c * (t - x)).
  apply (dlim_ext (fun t => 1 / 2 * atan2 (u t) (q t))); [intros t; rewrite AoLP_pixel; reflexivity|].
  apply (derivable_pt_lim_scal (fun t => atan2 (u t) (q t))).
  assert (Eq : q x = Q) by apply line_at. assert (Eu : u x = U) by apply line_at.
  assert (D : forall k, derivable_pt_lim (fun t => atan (u t / q t) + k) x (/ (1 + (U / Q) * (U / Q)) * ((c * Q - b * U) / (Q * Q)))).
  { intros k. eapply dlim_val; [|apply (d_atan_over (fun t => u t / q t)), (derivable_pt_lim_div u q);
      [apply d_line|apply d_line|rewrite Eq; exact HQ]].
    cbv beta. rewrite Eq, Eu. unfold Rsqr. field. repeat split; try exact HQ; intros E; nra. }
  destruct (near_line Q b x HQ) as (d & Hd & Hn). fold q in Hn.
  destruct (Rdichotomy _ _ HQ) as [Hneg|Hpos].
  - assert (HU' : U <> 0) by (destruct HU; [lra|assumption]).
    destruct (near_line U c x HU') as (d' & Hd' & Hn').
    set (e := Rmin d d'). assert (He : 0 < e) by (apply Rmin_glb_lt; assumption).
    pose proof (Rmin_l d d') as M1. pose proof (Rmin_r d d') as M2. fold e in M1, M2.
    destruct (Rdichotomy _ _ HU') as [Hu|Hu].
    + apply (derivable_pt_lim_locally_ext (fun t => atan (u t / q t) + - PI) _ x (x - e) (x + e)); [lra| |apply D].
      intros t Ht. rewrite atan2_lower; [reflexivity| |].
      * apply (sign_neg _ Q); [apply Hn; lra|exact Hneg].
      * apply (sign_neg _ U); [apply Hn'; lra|exact Hu].
    + apply (derivable_pt_lim_locally_ext (fun t => atan (u t / q t) + PI) _ x (x - e) (x + e)); [lra| |apply D].
      intros t Ht. rewrite atan2_upper; [reflexivity| |].
      * apply (sign_neg _ Q); [apply Hn; lra|exact Hneg].
      * left. apply (sign_pos _ U); [apply Hn'; lra|exact Hu].
  - apply (derivable_pt_lim_locally_ext (fun t => atan (u t / q t) + 0) _ x (x - d) (x + d)); [lra| |apply D].
    intros t Ht. rewrite atan2_right; [lra|]. apply (sign_pos _ Q); [apply Hn; lra|exact Hpos].
Qed.

(** ** The four pixels of a superpixel *)
Definition deviation (m : Z -> Z -> R) (sigma : Z -> R) (i : Z) : R :=
  sqrt (sum4 (fun j => (m i j * sigma j) * (m i j * sigma j))).
Lemma squares_nonneg (f : Z -> R) : 0 <= sum4 (fun j => f j * f j).
Proof.
  unfold sum4. assert (P : forall t : R, 0 <= t * t) by (intros; nra).
  pose proof (P (f 0%Z)). pose proof (P (f 1%Z)). pose proof (P (f 2%Z)). pose proof (P (f 3%Z)). lra.
Qed.
Lemma deviation_square m sigma i : deviation m sigma i * deviation m sigma i = covariance m sigma i i.
Proof.
  unfold deviation. rewrite sqrt_sqrt; [|apply (squares_nonneg (fun j => m i j * sigma j))].
  unfold covariance, sum4. ring.
Qed.

(** [f] has the gradient (fI, fQ, fU) at (I, Q, U). *)
Definition gradient (f : R -> R -> R -> R) (I Q U fI fQ fU : R) : Prop :=
  forall a b c x, derivable_pt_lim (fun t => f (I + a * (t - x)) (Q + b * (t - x)) (U + c * (t - x))) x
                    (fI * a + fQ * b + fU * c).

Lemma by_gradient f m v sigma fI fQ fU e :
  gradient f (row m 0 v) (row m 1 v) (row m 2 v) fI fQ fU ->
  first_order f (row m 0 v) (row m 1 v) (row m 2 v) (deviation m sigma 0) (deviation m sigma 1) (deviation m sigma 2) e ->
  exists s, by_pixels f m v sigma s /\ 0 <= s /\
    s * s = e * e + 2 * (fI * fQ * covariance m sigma 0 1 + fI * fU * covariance m sigma 0 2 + fQ * fU * covariance m sigma 1 2).
Proof.
  intros Hf (dI & dQ & dU & HI & HQ & HU & ->).
  assert (EI : dI = fI).
  { apply (uniqueness_limite (fun t => f t (row m 1 v) (row m 2 v)) (row m 0 v)); [exact HI|].
    eapply dlim_val; [|eapply dlim_ext; [|apply (Hf 1 0 0 (row m 0 v))]]; [ring|].
    intros t. cbv beta. f_equal; ring. }
  assert (EQ : dQ = fQ).
  { apply (uniqueness_limite (fun t => f (row m 0 v) t (row m 2 v)) (row m 1 v)); [exact HQ|].
    eapply dlim_val; [|eapply dlim_ext; [|apply (Hf 0 1 0 (row m 1 v))]]; [ring|].
    intros t. cbv beta. f_equal; ring. }
  assert (EU : dU = fU).
  { apply (uniqueness_limite (fun t => f (row m 0 v) (row m 1 v) t) (row m 2 v)); [exact HU|].
    eapply dlim_val; [|eapply dlim_ext; [|apply (Hf 0 0 1 (row m 2 v))]]; [ring|].
    intros t. cbv beta. f_equal; ring. }
  subst dI dQ dU. set (D := fun j => fI * m 0%Z j + fQ * m 1%Z j + fU * m 2%Z j).
  exists (sqrt (sum4 (fun j => (D j * sigma j) * (D j * sigma j)))). split; [|split].
  - exists D. split; [|reflexivity]. intros j Hj.
    eapply dlim_ext; [|apply (Hf (m 0%Z j) (m 1%Z j) (m 2%Z j) (v j))].
    intros t. cbv beta. rewrite !row_changed by exact Hj. reflexivity.
  - apply sqrt_pos.
  - rewrite sqrt_sqrt by apply (squares_nonneg (fun j => D j * sigma j)).
    rewrite sqrt_sqrt by nra.
    replace (fI * deviation m sigma 0 * (fI * deviation m sigma 0) + fQ * deviation m sigma 1 * (fQ * deviation m sigma 1)
             + fU * deviation m sigma 2 * (fU * deviation m sigma 2))
      with (fI * fI * (deviation m sigma 0 * deviation m sigma 0) + fQ * fQ * (deviation m sigma 1 * deviation m sigma 1)
             + fU * fU * (deviation m sigma 2 * deviation m sigma 2)) by ring.
    rewrite !deviation_square. unfold D, covariance, sum4. ring.
Qed.

(** There is only one such error. *)
Lemma by_pixels_unique f m v sigma s t : by_pixels f m v sigma s -> by_pixels f m v sigma t -> s = t.
Proof.
  intros (D & HD & ->) (E & HE & ->). f_equal.
  assert (K : forall j, (0 <= j < 4)%Z -> D j = E j).
  { intros j Hj. exact (uniqueness_limite _ _ _ _ (HD j Hj) (HE j Hj)). }
  unfold sum4. rewrite !K by lia. reflexivity.
Qed.

Lemma equal_squares s t : 0 <= s -> 0 <= t -> s * s = t * t -> s = t.
Proof. intros H1 H2 E. apply Rsqr_inj; assumption. Qed.

Lemma pB_gradient I Q U : ~ (Q = 0 /\ U = 0) -> let r := sqrt (Q * Q + U * U) in
  gradient (fun i q u => value (pB (pixel i q u))) I Q U 0 (Q / r) (U / r).
Proof.
  intros H0 r a b c x. pose proof (sqrt_lt_R0 _ (norm_pos Q U H0)) as Hr. fold r in Hr.
  eapply dlim_val; [|apply pB_line; exact H0]. fold r. field. lra.
Qed.
Lemma DoLP_gradient I Q U : I <> 0 -> ~ (Q = 0 /\ U = 0) -> let r := sqrt (Q * Q + U * U) in
  gradient (fun i q u => value (DoLP (pixel i q u))) I Q U (- r / (I * I)) (Q / r / I) (U / r / I).
Proof.
  intros HI H0 r a b c x. pose proof (sqrt_lt_R0 _ (norm_pos Q U H0)) as Hr. fold r in Hr.
  eapply dlim_val; [|apply DoLP_line; [exact HI|exact H0]]. fold r. field. split; first [exact HI|lra].
Qed.
Lemma AoLP_gradient I Q U : Q <> 0 -> 0 < Q \/ U <> 0 ->
  gradient (fun i q u => value (AoLP (pixel i q u))) I Q U 0 (- U / (2 * (Q * Q + U * U))) (Q / (2 * (Q * Q + U * U))).
Proof.
  intros HQ HU a b c x. assert (Hp : 0 < Q * Q) by nra.
  eapply dlim_val; [|apply AoLP_line; [exact HQ|exact HU]]. field.
  repeat split; try exact HQ; intros E; nra.
Qed.

(** ** A demodulated image *)
Section Image.
  Variables (d : demodulator R) (data e : arr R) (old s : stokes R) (h w : Z).
  Hypotheses (Hm : mosaic data) (He : rows e = rows data /\ cols e = cols data)
    (Hh : h = (rows data / 2)%Z) (Hw : w = (cols data / 2)%Z) (Tr : t_rows (mij d) = h) (Tc : t_cols (mij d) = w)
    (Hf : forall f, fit_found_flags d = Some f ->
       (rows f = h /\ cols f = w) /\ (rows (sI old) = h /\ cols (sI old) = w) /\
       (rows (sQ old) = h /\ cols (sQ old) = w) /\ (rows (sU old) = h /\ cols (sU old) = w))
    (Hs : demod_raw d data old = Ok s).

  Definition matrix_at Y X : Z -> Z -> R := fun i j => t_cell (mij d) i j Y X.

  Lemma c113_relation : exists sS sP sD sA, MicropolImageError s e d = Ok (sS, sP, sD, sA) /\
    forall Y X, (0 <= Y < h)%Z -> (0 <= X < w)%Z -> (forall f, fit_found_flags d = Some f -> cell f Y X = 1) ->
      let m := matrix_at Y X in let v j := sample data j Y X in let sigma j := sample e j Y X in
      let I := row m 0 v in let Q := row m 1 v in let U := row m 2 v in let cov := covariance m sigma in
      (0 <= cell sP Y X /\ 0 <= cell sD Y X /\ 0 <= cell sA Y X) /\
      (~ (Q = 0 /\ U = 0) -> exists t, by_pixels (fun i q u => value (pB (pixel i q u))) m v sigma t /\ 0 <= t /\
         t * t = cell sP Y X * cell sP Y X + 2 * (Q * U / (Q * Q + U * U)) * cov 1%Z 2%Z) /\
      (I <> 0 -> ~ (Q = 0 /\ U = 0) ->
         exists t, by_pixels (fun i q u => value (DoLP (pixel i q u))) m v sigma t /\ 0 <= t /\
         t * t = cell sD Y X * cell sD Y X + 2 * (Q * U / (Q * Q + U * U) * cov 1%Z 2%Z / (I * I)
                   - (Q * cov 0%Z 1%Z + U * cov 0%Z 2%Z) / (I * I * I))) /\
      (Q <> 0 -> 0 < Q \/ U <> 0 ->
         exists t, by_pixels (fun i q u => value (AoLP (pixel i q u))) m v sigma t /\ 0 <= t /\
         t * t = cell sA Y X * cell sA Y X - Q * U / (2 * (Q * Q + U * U) * (Q * Q + U * U)) * cov 1%Z 2%Z).
  Proof.
    destruct He as (Re & Ce).
    assert (Me : mosaic e) by (unfold mosaic in *; rewrite Re, Ce; exact Hm).
    destruct (c24_product d data old h w Hm Hh Hw Tr Tc Hf) as (s' & E' & HS). rewrite Hs in E'. injection E' as <-.
    cbv zeta in HS.
    destruct (c65_all s e d _ _ _ h w Me ltac:(rewrite Re; exact Hh) ltac:(rewrite Ce; exact Hw) Tr Tc HS)
      as (sS & sP & sD & sA & EM & _ & _ & _ & _ & Hc).
    exists sS, sP, sD, sA. split; [exact EM|]. intros Y X HY HX Hflag m v sigma I Q U cov.
    specialize (Hc Y X HY HX). cbv zeta beta in Hc.
    assert (Ef : match fit_found_flags d with None => true | Some f => neqb (cell f Y X) n1 end = true).
    { destruct (fit_found_flags d) as [f|] eqn:Ed; [|reflexivity]. rewrite (Hflag f eq_refl). apply Reqb_true. reflexivity. }
    rewrite Ef in Hc. destruct Hc as (H0 & HP & HD & HA).
    split; [exact H0|]. split; [|split].
    - intros Hn. pose proof (norm_pos Q U Hn) as Hp. pose proof (sqrt_lt_R0 _ Hp) as Hr.
      destruct (by_gradient _ m v sigma _ _ _ _ (pB_gradient I Q U Hn) (HP Hn)) as (t & H1 & H2 & H3).
      exists t. split; [exact H1|]. split; [exact H2|]. rewrite H3. set (r := sqrt (Q * Q + U * U)) in *.
      assert (Er : r * r = Q * Q + U * U) by (apply sqrt_sqrt; lra). fold cov. rewrite <- Er. field. lra.
    - intros HI Hn. pose proof (norm_pos Q U Hn) as Hp. pose proof (sqrt_lt_R0 _ Hp) as Hr.
      destruct (by_gradient _ m v sigma _ _ _ _ (DoLP_gradient I Q U HI Hn) (HD HI Hn)) as (t & H1 & H2 & H3).
      exists t. split; [exact H1|]. split; [exact H2|]. rewrite H3. set (r := sqrt (Q * Q + U * U)) in *.
      assert (Er : r * r = Q * Q + U * U) by (apply sqrt_sqrt; lra). fold cov. rewrite <- Er.
      field. split; first [exact HI|lra].
    - intros HQ HU. assert (Hn : ~ (Q = 0 /\ U = 0)) by tauto. pose proof (norm_pos Q U Hn) as Hp.
      destruct (by_gradient _ m v sigma _ _ _ _ (AoLP_gradient I Q U HQ HU) (HA HQ HU)) as (t & H1 & H2 & H3).
      exists t. split; [exact H1|]. split; [exact H2|]. rewrite H3. fold cov. field. lra.
  Qed.

  (** Without covariances the errors are the right ones. *)
  Lemma c113_uncorrelated : exists sS sP sD sA, MicropolImageError s e d = Ok (sS, sP, sD, sA) /\
    forall Y X, (0 <= Y < h)%Z -> (0 <= X < w)%Z -> (forall f, fit_found_flags d = Some f -> cell f Y X = 1) ->
      let m := matrix_at Y X in let v j := sample data j Y X in let sigma j := sample e j Y X in
      let I := row m 0 v in let Q := row m 1 v in let U := row m 2 v in
      covariance m sigma 1 2 = 0 ->
      (~ (Q = 0 /\ U = 0) -> by_pixels (fun i q u => value (pB (pixel i q u))) m v sigma (cell sP Y X)) /\
      (Q <> 0 -> 0 < Q \/ U <> 0 -> by_pixels (fun i q u => value (AoLP (pixel i q u))) m v sigma (cell sA Y X)) /\
      (covariance m sigma 0 1 = 0 -> covariance m sigma 0 2 = 0 -> I <> 0 -> ~ (Q = 0 /\ U = 0) ->
         by_pixels (fun i q u => value (DoLP (pixel i q u))) m v sigma (cell sD Y X)).
  Proof.
    destruct c113_relation as (sS & sP & sD & sA & EM & Hc). exists sS, sP, sD, sA. split; [exact EM|].
    intros Y X HY HX Hflag m v sigma I Q U C12. destruct (Hc Y X HY HX Hflag) as (H0 & HP & HD & HA). cbv zeta in *.
    fold m v sigma I Q U in HP, HD, HA. split; [|split].
    - intros Hn. destruct (HP Hn) as (t & H1 & H2 & H3). rewrite C12 in H3.
      replace (cell sP Y X) with t; [exact H1|]. apply equal_squares; [exact H2|apply H0|lra].
    - intros HQ HU. destruct (HA HQ HU) as (t & H1 & H2 & H3). rewrite C12 in H3.
      replace (cell sA Y X) with t; [exact H1|]. apply equal_squares; [exact H2|apply H0|lra].
    - intros C01 C02 HI Hn. destruct (HD HI Hn) as (t & H1 & H2 & H3). rewrite C12, C01, C02 in H3.
      replace (cell sD Y X) with t; [exact H1|]. apply equal_squares; [exact H2|apply H0|]. rewrite H3. field. split; [exact HI|].
      pose proof (norm_pos Q U Hn). lra.
  Qed.

  (** With a covariance of Q and U they are not. *)
  Lemma c113_correlated : exists sS sP sD sA, MicropolImageError s e d = Ok (sS, sP, sD, sA) /\
    forall Y X, (0 <= Y < h)%Z -> (0 <= X < w)%Z -> (forall f, fit_found_flags d = Some f -> cell f Y X = 1) ->
      let m := matrix_at Y X in let v j := sample data j Y X in let sigma j := sample e j Y X in
      let I := row m 0 v in let Q := row m 1 v in let U := row m 2 v in
      covariance m sigma 1 2 <> 0 -> Q <> 0 -> U <> 0 ->
      ~ by_pixels (fun i q u => value (pB (pixel i q u))) m v sigma (cell sP Y X) /\
      ~ by_pixels (fun i q u => value (AoLP (pixel i q u))) m v sigma (cell sA Y X).
  Proof.
    destruct c113_relation as (sS & sP & sD & sA & EM & Hc). exists sS, sP, sD, sA. split; [exact EM|].
    intros Y X HY HX Hflag m v sigma I Q U C12 HQ HU. destruct (Hc Y X HY HX Hflag) as (H0 & HP & HD & HA). cbv zeta in *.
    fold m v sigma I Q U in HP, HD, HA. assert (Hn : ~ (Q = 0 /\ U = 0)) by tauto.
    pose proof (norm_pos Q U Hn) as Hp.
    assert (NQU : Q * U <> 0) by (apply Rmult_integral_contrapositive_currified; assumption).
    split; intros Hb.
    - destruct (HP Hn) as (t & H1 & H2 & H3). rewrite (by_pixels_unique _ _ _ _ _ _ Hb H1) in H3.
      assert (Z0 : 2 * (Q * U / (Q * Q + U * U)) * covariance m sigma 1 2 = 0) by lra.
      apply Rmult_integral in Z0 as [Z0|Z0]; [|exact (C12 Z0)]. apply NQU.
      replace (Q * U) with (2 * (Q * U / (Q * Q + U * U)) * ((Q * Q + U * U) / 2)) by (field; lra). rewrite Z0. ring.
    - destruct (HA HQ (or_intror HU)) as (t & H1 & H2 & H3). rewrite (by_pixels_unique _ _ _ _ _ _ Hb H1) in H3.
      assert (Z0 : Q * U / (2 * (Q * Q + U * U) * (Q * Q + U * U)) * covariance m sigma 1 2 = 0) by lra.
      apply Rmult_integral in Z0 as [Z0|Z0]; [|exact (C12 Z0)]. apply NQU.
      replace (Q * U) with (Q * U / (2 * (Q * Q + U * U) * (Q * Q + U * U)) * (2 * (Q * Q + U * U) * (Q * Q + U * U))) by (field; lra).
      rewrite Z0. ring.
  Qed.
End Image.

(** ** Ideal polarizers *)
Lemma ideal_rows a m f : arrangement_ok a -> ideal_matrix a m ->
  sum4 (fun j => m 0%Z j * f j) = (f (p0 a) + f (p45 a) + f (pm45 a) + f (p90 a)) / 2 /\
  sum4 (fun j => m 1%Z j * f j) = f (p0 a) - f (p90 a) /\
  sum4 (fun j => m 2%Z j * f j) = f (p45 a) - f (pm45 a).
Proof.
  intros Ha Hi.
  destruct (Hi 0%Z ltac:(lia)) as (A0 & B0 & C0). destruct (Hi 1%Z ltac:(lia)) as (A1 & B1 & C1).
  destruct (Hi 2%Z ltac:(lia)) as (A2 & B2 & C2). destruct (Hi 3%Z ltac:(lia)) as (A3 & B3 & C3).
  unfold sum4. rewrite A0, A1, A2, A3, B0, B1, B2, B3, C0, C1, C2, C3. clear Hi A0 A1 A2 A3 B0 B1 B2 B3 C0 C1 C2 C3.
  destruct a as [a b c d']. unfold arrangement_ok in Ha. cbn [p0 p45 pm45 p90] in *.
  destruct Ha as (Ra & Rb & Rc & Rd & N1 & N2 & N3 & N4 & N5 & N6).
  assert (Da : a = 0%Z \/ a = 1%Z \/ a = 2%Z \/ a = 3%Z) by lia. assert (Db : b = 0%Z \/ b = 1%Z \/ b = 2%Z \/ b = 3%Z) by lia.
  assert (Dc : c = 0%Z \/ c = 1%Z \/ c = 2%Z \/ c = 3%Z) by lia. assert (Dd : d' = 0%Z \/ d' = 1%Z \/ d' = 2%Z \/ d' = 3%Z) by lia.
  clear Ra Rb Rc Rd.
  destruct Da as [-> | [-> | [-> | ->]]]; destruct Db as [-> | [-> | [-> | ->]]]; try (exfalso; apply N1; reflexivity);
    destruct Dc as [-> | [-> | [-> | ->]]]; try (exfalso; (apply N2; reflexivity) || (apply N4; reflexivity));
    destruct Dd as [-> | [-> | [-> | ->]]]; try (exfalso; (apply N3; reflexivity) || (apply N5; reflexivity) || (apply N6; reflexivity));
    cbn [Z.eqb Pos.eqb]; repeat split; field.
Qed.

Lemma ideal_covariance a m sigma : arrangement_ok a -> ideal_matrix a m ->
  covariance m sigma 1 2 = 0 /\
  covariance m sigma 0 1 = (sigma (p0 a) * sigma (p0 a) - sigma (p90 a) * sigma (p90 a)) / 2 /\
  covariance m sigma 0 2 = (sigma (p45 a) * sigma (p45 a) - sigma (pm45 a) * sigma (pm45 a)) / 2.
Proof.
  intros Ha Hi. split; [|split].
  - unfold covariance, sum4.
    destruct (Hi 0%Z ltac:(lia)) as (A0 & B0 & C0). destruct (Hi 1%Z ltac:(lia)) as (A1 & B1 & C1).
    destruct (Hi 2%Z ltac:(lia)) as (A2 & B2 & C2). destruct (Hi 3%Z ltac:(lia)) as (A3 & B3 & C3).
    assert (P : forall j : Z, (if (j =? p0 a)%Z then 1 else if (j =? p90 a)%Z then -1 else 0) *
                         (if (j =? p45 a)%Z then 1 else if (j =? pm45 a)%Z then -1 else 0) = 0).
    { intros j. unfold arrangement_ok in Ha.
      destruct (Z.eqb_spec j (p0 a)), (Z.eqb_spec j (p90 a)), (Z.eqb_spec j (p45 a)), (Z.eqb_spec j (pm45 a)); try lra; lia. }
    rewrite B0, B1, B2, B3, C0, C1, C2, C3, !P. ring.
  - unfold covariance. destruct (ideal_rows a m (fun j => sigma j * sigma j) Ha Hi) as (_ & E & _).
    unfold sum4 in *. destruct (Hi 0%Z ltac:(lia)) as (A0 & _). destruct (Hi 1%Z ltac:(lia)) as (A1 & _).
    destruct (Hi 2%Z ltac:(lia)) as (A2 & _). destruct (Hi 3%Z ltac:(lia)) as (A3 & _). rewrite A0, A1, A2, A3. rewrite <- E. field.
  - unfold covariance. destruct (ideal_rows a m (fun j => sigma j * sigma j) Ha Hi) as (_ & _ & E).
    unfold sum4 in *. destruct (Hi 0%Z ltac:(lia)) as (A0 & _). destruct (Hi 1%Z ltac:(lia)) as (A1 & _).
    destruct (Hi 2%Z ltac:(lia)) as (A2 & _). destruct (Hi 3%Z ltac:(lia)) as (A3 & _). rewrite A0, A1, A2, A3. rewrite <- E. field.
Qed.

Section Ideal.
  Variables (a : arrangement) (d : demodulator R) (data e : arr R) (old s : stokes R) (h w : Z).
  Hypotheses (Hm : mosaic data) (He : rows e = rows data /\ cols e = cols data)
    (Hh : h = (rows data / 2)%Z) (Hw : w = (cols data / 2)%Z) (Tr : t_rows (mij d) = h) (Tc : t_cols (mij d) = w)
    (Hf : fit_found_flags d = None) (Ha : arrangement_ok a)
    (Hi : forall Y X, (0 <= Y < h)%Z -> (0 <= X < w)%Z -> ideal_matrix a (fun i j => t_cell (mij d) i j Y X))
    (Hs : demod_raw d data old = Ok s).

  Lemma c113_ideal : exists sS sP sD sA, MicropolImageError s e d = Ok (sS, sP, sD, sA) /\
    forall Y X, (0 <= Y < h)%Z -> (0 <= X < w)%Z ->
      let m := matrix_at d Y X in let v j := sample data j Y X in let sigma j := sample e j Y X in
      let Q := v (p0 a) - v (p90 a) in let U := v (p45 a) - v (pm45 a) in
      (~ (Q = 0 /\ U = 0) -> by_pixels (fun i q u => value (pB (pixel i q u))) m v sigma (cell sP Y X)) /\
      (Q <> 0 -> 0 < Q \/ U <> 0 -> by_pixels (fun i q u => value (AoLP (pixel i q u))) m v sigma (cell sA Y X)).
  Proof.
    assert (Hf' : forall f, fit_found_flags d = Some f ->
       (rows f = h /\ cols f = w) /\ (rows (sI old) = h /\ cols (sI old) = w) /\
       (rows (sQ old) = h /\ cols (sQ old) = w) /\ (rows (sU old) = h /\ cols (sU old) = w))
      by (intros f E; rewrite Hf in E; discriminate).
    destruct (c113_uncorrelated d data e old s h w Hm He Hh Hw Tr Tc Hf' Hs) as (sS & sP & sD & sA & EM & Hc).
    exists sS, sP, sD, sA. split; [exact EM|]. intros Y X HY HX m v sigma Q U.
    assert (Hflag : forall f, fit_found_flags d = Some f -> cell f Y X = 1) by (intros f E; rewrite Hf in E; discriminate).
    destruct (ideal_covariance a m sigma Ha (Hi Y X HY HX)) as (C12 & _).
    destruct (ideal_rows a m v Ha (Hi Y X HY HX)) as (_ & EQ & EU).
    destruct (Hc Y X HY HX Hflag C12) as (HP & HA & _).
    change (row (matrix_at d Y X) 1 (fun j => sample data j Y X)) with (sum4 (fun j => m 1%Z j * v j)) in HP, HA.
    change (row (matrix_at d Y X) 2 (fun j => sample data j Y X)) with (sum4 (fun j => m 2%Z j * v j)) in HP, HA.
    rewrite EQ, EU in HP, HA. split; [exact HP|exact HA].
  Qed.

  (** Photon noise: the squares of the errors are proportional to the pixels. *)
  Lemma c113_photon g : 0 < g ->
    (forall j Y X, (0 <= j < 4)%Z -> (0 <= Y < h)%Z -> (0 <= X < w)%Z -> sample e j Y X * sample e j Y X = sample data j Y X / g) ->
    exists sS sP sD sA, MicropolImageError s e d = Ok (sS, sP, sD, sA) /\
    forall Y X, (0 <= Y < h)%Z -> (0 <= X < w)%Z ->
      let m := matrix_at d Y X in let v j := sample data j Y X in let sigma j := sample e j Y X in
      let I := (v (p0 a) + v (p45 a) + v (pm45 a) + v (p90 a)) / 2 in
      let Q := v (p0 a) - v (p90 a) in let U := v (p45 a) - v (pm45 a) in
      0 < I -> ~ (Q = 0 /\ U = 0) ->
      exists t, by_pixels (fun i q u => value (DoLP (pixel i q u))) m v sigma t /\ 0 <= t /\
        t * t = cell sD Y X * cell sD Y X - (Q * Q + U * U) / (g * (I * I * I)) /\ t < cell sD Y X.
  Proof.
    intros Hg Hn.
    assert (Hf' : forall f, fit_found_flags d = Some f ->
       (rows f = h /\ cols f = w) /\ (rows (sI old) = h /\ cols (sI old) = w) /\
       (rows (sQ old) = h /\ cols (sQ old) = w) /\ (rows (sU old) = h /\ cols (sU old) = w))
      by (intros f E; rewrite Hf in E; discriminate).
    destruct (c113_relation d data e old s h w Hm He Hh Hw Tr Tc Hf' Hs) as (sS & sP & sD & sA & EM & Hc).
    exists sS, sP, sD, sA. split; [exact EM|]. intros Y X HY HX m v sigma I Q U HI HQU.
    assert (Hflag : forall f, fit_found_flags d = Some f -> cell f Y X = 1) by (intros f E; rewrite Hf in E; discriminate).
    destruct (ideal_covariance a m sigma Ha (Hi Y X HY HX)) as (C12 & C01 & C02).
    destruct (ideal_rows a m v Ha (Hi Y X HY HX)) as (EI & EQ & EU).
    destruct (Hc Y X HY HX Hflag) as ((_ & H0 & _) & _ & HD & _). clear Hc. cbv zeta in HD.
    change (fun j => sample data j Y X) with v in HD. change (fun j => sample e j Y X) with sigma in HD. fold m in HD.
    change (row m 0 v) with (sum4 (fun j => m 0%Z j * v j)) in HD.
    change (row m 1 v) with (sum4 (fun j => m 1%Z j * v j)) in HD.
    change (row m 2 v) with (sum4 (fun j => m 2%Z j * v j)) in HD.
    rewrite EI, EQ, EU in HD. fold I Q U in HD. rewrite C12, C01, C02 in HD.
    unfold arrangement_ok in Ha.
    assert (S0 : forall j, (0 <= j < 4)%Z -> sigma j * sigma j = v j / g) by (intros j Hj; apply Hn; assumption).
    rewrite (S0 (p0 a)), (S0 (p90 a)), (S0 (p45 a)), (S0 (pm45 a)) in HD by apply Ha.
    destruct (HD ltac:(lra) HQU) as (t & H1 & H2 & H3). exists t. split; [exact H1|]. split; [exact H2|].
    pose proof (norm_pos Q U HQU) as Hp.
    assert (E : t * t = cell sD Y X * cell sD Y X - (Q * Q + U * U) / (g * (I * I * I))).
    { rewrite H3. replace (v (p0 a) / g - v (p90 a) / g) with (Q / g) by (unfold Q; field; lra).
      replace (v (p45 a) / g - v (pm45 a) / g) with (U / g) by (unfold U; field; lra). clear - Hg HI Hp. clearbody I Q U. field. repeat split; intros E; lra. }
    split; [exact E|].
    assert (K : 0 < (Q * Q + U * U) / (g * (I * I * I))).
    { apply Rdiv_lt_0_compat; [exact Hp|]. apply Rmult_lt_0_compat; [exact Hg|]. apply Rmult_lt_0_compat; [apply Rmult_lt_0_compat|]; exact HI. }
    nra.
  Qed.
End Ideal.
