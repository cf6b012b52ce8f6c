(** Symmetries of the sensor (C125). *)
From Coq Require Import Reals Lra Lia.
From Verif Require Import Base.Base Base.Num Base.BaseFacts Model.Demosaic Model.Rebin Model.Stokes Model.Pol
  Spec.Terminates Spec.MosaicSpec Spec.SumSpec Spec.StokesSpec Spec.OrderSpec Spec.SymmetrySpec
  Proofs.MosaicFacts Proofs.MosaicProps Proofs.StokesFacts Proofs.SumFacts Proofs.BinFacts Proofs.PolFacts Proofs.OrderFacts.
Local Open Scope Z_scope.

Lemma four_cases k : 0 <= k < 4 -> k = 0 \/ k = 1 \/ k = 2 \/ k = 3. Proof. lia. Qed.

Lemma mosaic_transposed {A} (d : arr A) : mosaic d -> mosaic (transposed d).
Proof. unfold mosaic. cbn [transposed rows cols]. tauto. Qed.
Lemma mosaic_upside {A} (d : arr A) : mosaic d -> mosaic (upside d).
Proof. unfold mosaic. cbn [upside rows cols]. tauto. Qed.

Lemma sample_transposed {A} (d : arr A) k Y X : 0 <= k < 4 -> sample (transposed d) (tpos k) Y X = sample d k X Y.
Proof. intros Hk. destruct (four_cases k Hk) as [-> | [-> | [-> | ->]]]; reflexivity. Qed.
Lemma sample_upside {A} (d : arr A) k Y X : mosaic d -> 0 <= k < 4 -> sample (upside d) (upos k) Y X = sample d k (rows d / 2 - 1 - Y) X.
Proof.
  intros (_ & _ & M & _) Hk. pose proof (Z.div_mod (rows d) 2 ltac:(lia)) as D. rewrite M in D. unfold sample, upside. cbn [cell].
  set (h := rows d / 2) in *. clearbody h.
  assert (E : upos k / 2 = 1 - k / 2 /\ upos k mod 2 = k mod 2) by (destruct (four_cases k Hk) as [-> | [-> | [-> | ->]]]; split; reflexivity).
  destruct E as [-> ->]. f_equal; lia.
Qed.
Lemma tpos_range k : 0 <= k < 4 -> 0 <= tpos k < 4. Proof. intros Hk. destruct (four_cases k Hk) as [-> | [-> | [-> | ->]]]; cbn; lia. Qed.
Lemma upos_range k : 0 <= k < 4 -> 0 <= upos k < 4. Proof. intros Hk. destruct (four_cases k Hk) as [-> | [-> | [-> | ->]]]; cbn; lia. Qed.
Lemma tpos_tpos k : 0 <= k < 4 -> tpos (tpos k) = k. Proof. intros Hk. destruct (four_cases k Hk) as [-> | [-> | [-> | ->]]]; reflexivity. Qed.

Ltac stokes_pair Hd Hd' Hm Hm' :=
  destruct (data_stokes_spec _ _ _ Hd Hm) as (s & Es & (SI1 & SI2) & (SQ1 & SQ2) & (SU1 & SU2) & Sv);
  destruct (data_stokes_spec _ _ _ Hd' Hm') as (t & Et & (TI1 & TI2) & (TQ1 & TQ2) & (TU1 & TU2) & Tv);
  exists s, t; split; [exact Es|]; split; [exact Et|].

Lemma c125_transpose dic dic' a (d : arr R) : describes dic a -> describes dic' (placed tpos a) -> mosaic d ->
  exists s t, data_stokes dic d = Ok s /\ data_stokes dic' (transposed d) = Ok t /\
    sI t =a= transposed (sI s) /\ sQ t =a= transposed (sQ s) /\ sU t =a= transposed (sU s).
Proof.
  intros Hd Hd' Hm. stokes_pair Hd Hd' Hm (mosaic_transposed d Hm). destruct Hd as ((A1 & A2 & A3 & A4 & _) & _).
  cbn [transposed rows cols] in TI1, TI2, TQ1, TQ2, TU1, TU2, Tv. cbn [placed p0 p45 pm45 p90] in Tv.
  split; [|split]; (split; [cbn [transposed rows cols]; congruence|]; split; [cbn [transposed rows cols]; congruence|]);
    intros y x Hy Hx; cbn [transposed cell].
  - rewrite TI1 in Hy. rewrite TI2 in Hx. destruct (Tv y x Hy Hx) as (-> & _ & _). destruct (Sv x y Hx Hy) as (-> & _ & _).
    change 0 with (tpos 0) at 1. change 1 with (tpos 2) at 1. change 2 with (tpos 1) at 2. change 3 with (tpos 3) at 1.
    rewrite !sample_transposed by lia. cbn [nadd nmul Num_R]. ring.
  - rewrite TQ1 in Hy. rewrite TQ2 in Hx. destruct (Tv y x Hy Hx) as (_ & -> & _). destruct (Sv x y Hx Hy) as (_ & -> & _).
    rewrite !sample_transposed by assumption. reflexivity.
  - rewrite TU1 in Hy. rewrite TU2 in Hx. destruct (Tv y x Hy Hx) as (_ & _ & ->). destruct (Sv x y Hx Hy) as (_ & _ & ->).
    rewrite !sample_transposed by assumption. reflexivity.
Qed.

Lemma c125_upside dic dic' a (d : arr R) : describes dic a -> describes dic' (placed upos a) -> mosaic d ->
  exists s t, data_stokes dic d = Ok s /\ data_stokes dic' (upside d) = Ok t /\
    sI t =a= upside (sI s) /\ sQ t =a= upside (sQ s) /\ sU t =a= upside (sU s).
Proof.
  intros Hd Hd' Hm. stokes_pair Hd Hd' Hm (mosaic_upside d Hm). destruct Hd as ((A1 & A2 & A3 & A4 & _) & _).
  cbn [upside rows cols] in TI1, TI2, TQ1, TQ2, TU1, TU2, Tv. cbn [placed p0 p45 pm45 p90] in Tv.
  split; [|split]; (split; [cbn [upside rows cols]; congruence|]; split; [cbn [upside rows cols]; congruence|]);
    intros y x Hy Hx; cbn [upside cell].
  - rewrite TI1 in Hy. rewrite TI2 in Hx. rewrite SI1. destruct (Tv y x Hy Hx) as (-> & _ & _).
    destruct (Sv (rows d / 2 - 1 - y) x ltac:(lia) Hx) as (-> & _ & _).
    change 0 with (upos 2) at 1. change 1 with (upos 3) at 1. change 2 with (upos 0) at 2. change 3 with (upos 1) at 2.
    rewrite !sample_upside by (assumption || lia). cbn [nadd nmul Num_R]. ring.
  - rewrite TQ1 in Hy. rewrite TQ2 in Hx. rewrite SQ1. destruct (Tv y x Hy Hx) as (_ & -> & _).
    destruct (Sv (rows d / 2 - 1 - y) x ltac:(lia) Hx) as (_ & -> & _). rewrite !sample_upside by assumption. reflexivity.
  - rewrite TU1 in Hy. rewrite TU2 in Hx. rewrite SU1. destruct (Tv y x Hy Hx) as (_ & _ & ->).
    destruct (Sv (rows d / 2 - 1 - y) x ltac:(lia) Hx) as (_ & _ & ->). rewrite !sample_upside by assumption. reflexivity.
Qed.

(** ** Binning *)
Lemma rsum2_swap n m f : rsum2 n m f = rsum2 m n (fun v u => f u v).
Proof. apply rsum_swap. Qed.
Lemma rsum_back n f : rsum n (fun i => f (n - 1 - i)%Z) = rsum n f.
Proof.
  destruct (Z.le_gt_cases 0 n) as [Hn|Hn]; [|rewrite !rsum_neg by lia; reflexivity].
  revert f. pattern n. apply zpos_ind; [|intros k Hk IH|exact Hn].
  - intros f. rewrite !rsum_0. reflexivity.
  - intros f. rewrite (rsum_succ k f Hk). replace (k + 1) with (1 + k) at 1 by lia. rewrite (rsum_app 1 k) by lia.
    rewrite Rplus_comm. f_equal.
    + rewrite <- (IH f). apply rsum_ext. intros i Hi. f_equal. lia.
    + change (f (k + 1 - 1 - 0)%Z + 0 = f k)%R. rewrite Rplus_0_r. f_equal. lia.
Qed.

Lemma c125_bin_transpose (d : arr R) b : mosaic d -> 1 <= b ->
  exists r r', evaluates (fun fuel => micropolarray_rebin fuel d b) r /\
    evaluates (fun fuel => micropolarray_rebin fuel (transposed d) b) r' /\ r' =a= transposed r.
Proof.
  intros Hm Hb. destruct (bin_cells d b Hm Hb) as (r & E & R1 & C1 & V).
  destruct (bin_cells (transposed d) b (mosaic_transposed d Hm) Hb) as (r' & E' & R2 & C2 & V').
  exists r, r'. split; [exact E|]. split; [exact E'|]. cbn [transposed rows cols] in R2, C2.
  split; [cbn; congruence|]. split; [cbn; congruence|]. intros Y X HY HX. cbn [transposed cell].
  rewrite V' by assumption. rewrite V by congruence. rewrite (rsum2_swap b b (block d b X Y)). apply rsum2_ext. reflexivity.
Qed.

Lemma c125_bin_upside (d : arr R) b : mosaic d -> 1 <= b -> rows d mod (2 * b) = 0 ->
  exists r r', evaluates (fun fuel => micropolarray_rebin fuel d b) r /\
    evaluates (fun fuel => micropolarray_rebin fuel (upside d) b) r' /\ r' =a= upside r.
Proof.
  intros Hm Hb Hr. destruct (bin_cells d b Hm Hb) as (r & E & R1 & C1 & V).
  destruct (bin_cells (upside d) b (mosaic_upside d Hm) Hb) as (r' & E' & R2 & C2 & V').
  exists r, r'. split; [exact E|]. split; [exact E'|]. cbn [upside rows cols] in R2, C2.
  split; [cbn; congruence|]. split; [cbn; congruence|]. intros Y X HY HX. cbn [upside cell].
  rewrite V' by assumption. rewrite V by lia. rewrite R2 in HY. rewrite R1. unfold rsum2.
  rewrite <- (rsum_back b (fun u => rsum b (block d b (2 * (rows d / (2 * b)) - 1 - Y) X u))). apply rsum_ext. intros u Hu.
  apply rsum_ext. intros v Hv. unfold block. cbn [upside cell]. f_equal.
  pose proof (Z.div_mod (rows d) (2 * b) ltac:(lia)) as D. rewrite Hr in D. set (n := rows d / (2 * b)) in *. clearbody n.
  assert (Y2 : (2 * n - 1 - Y) / 2 = n - 1 - Y / 2 /\ (2 * n - 1 - Y) mod 2 = 1 - Y mod 2) by (clear; Z.to_euclidean_division_equations; lia).
  destruct Y2 as [-> ->]. rewrite D. ring.
Qed.

(** ** Demosaicing *)
Lemma c125_adjacent_transpose (d : arr R) : mosaic d ->
  exists q q', demosaic d "adjacent" = Ok q /\ demosaic (transposed d) "adjacent" = Ok q' /\
    forall k, 0 <= k < 4 -> qnth q' (tpos k) =a= transposed (qnth q k).
Proof.
  intros Hm. destruct (demosaic_adjacent_spec d Hm) as (q & E & V). destruct (demosaic_adjacent_spec (transposed d) (mosaic_transposed d Hm)) as (q' & E' & V').
  exists q, q'. split; [exact E|]. split; [exact E'|]. intros k Hk. destruct (V k Hk) as (R1 & C1 & W). destruct (V' (tpos k) (tpos_range k Hk)) as (R2 & C2 & W').
  cbn [transposed rows cols] in R2, C2, W'. split; [cbn; congruence|]. split; [cbn; congruence|]. rewrite R2, C2. intros y x Hy Hx.
  rewrite W' by assumption. cbn [transposed cell]. rewrite W by assumption. unfold interpolated. cbn [transposed rows cols].
  rewrite !sample_transposed by exact Hk. destruct (y mod 2 =? 0), (x mod 2 =? 0); cbn [nadd nmul Num_R]; try reflexivity. ring.
Qed.

Lemma c125_mean_transpose (d : arr R) : mosaic d ->
  exists q q', demosaic d "mean" = Ok q /\ demosaic (transposed d) "mean" = Ok q' /\
    forall k, 0 <= k < 4 -> qnth q' (tpos k) =a= transposed (qnth q k).
Proof.
  intros Hm. destruct (demosaic_mean_spec d Hm) as (q & E & V). destruct (demosaic_mean_spec (transposed d) (mosaic_transposed d Hm)) as (q' & E' & V').
  exists q, q'. split; [exact E|]. split; [exact E'|]. intros k Hk. destruct (V k Hk) as (R1 & C1 & W). destruct (V' (tpos k) (tpos_range k Hk)) as (R2 & C2 & W').
  cbn [transposed rows cols] in R2, C2, W'. split; [cbn; congruence|]. split; [cbn; congruence|]. rewrite R2, C2. intros y x Hy Hx.
  rewrite W' by assumption. cbn [transposed cell]. rewrite W by assumption. rewrite !sample_transposed by exact Hk. reflexivity.
Qed.

Lemma c125_mean_upside (d : arr R) : mosaic d ->
  exists q q', demosaic d "mean" = Ok q /\ demosaic (upside d) "mean" = Ok q' /\
    forall k, 0 <= k < 4 -> qnth q' (upos k) =a= upside (qnth q k).
Proof.
  intros Hm. destruct (demosaic_mean_spec d Hm) as (q & E & V). destruct (demosaic_mean_spec (upside d) (mosaic_upside d Hm)) as (q' & E' & V').
  exists q, q'. split; [exact E|]. split; [exact E'|]. intros k Hk. destruct (V k Hk) as (R1 & C1 & W). destruct (V' (upos k) (upos_range k Hk)) as (R2 & C2 & W').
  cbn [upside rows cols] in R2, C2, W'. split; [cbn; congruence|]. split; [cbn; congruence|]. rewrite R2, C2. intros y x Hy Hx.
  rewrite W' by assumption. cbn [upside cell]. rewrite R1, W by lia. rewrite sample_upside by assumption. f_equal. f_equal.
  destruct Hm as (_ & _ & M & _). clear - M. Z.to_euclidean_division_equations; lia.
Qed.

Definition ramp : arr R := mkarr 4 2 (fun y _ => IZR (y / 2)).
Lemma ramp_mosaic : mosaic ramp. Proof. repeat split; cbn; lia. Qed.
Lemma c125_refuted : exists (d : arr R) q q', mosaic d /\ demosaic d "adjacent" = Ok q /\ demosaic (upside d) "adjacent" = Ok q' /\
  ~ qnth q' (upos 0) =a= upside (qnth q 0).
Proof.
  exists ramp. destruct (demosaic_adjacent_spec ramp ramp_mosaic) as (q & E & V).
  destruct (demosaic_adjacent_spec (upside ramp) (mosaic_upside _ ramp_mosaic)) as (q' & E' & V').
  exists q, q'. split; [exact ramp_mosaic|]. split; [exact E|]. split; [exact E'|]. intros (_ & _ & W).
  destruct (V 0) as (R1 & _ & V0); [lia|]. destruct (V' (upos 0)) as (R2 & C2 & V2); [cbn; lia|].
  assert (X : cell (qnth q' (upos 0)) 1 0 = cell (upside (qnth q 0)) 1 0) by (apply W; rewrite ?R2, ?C2; cbn; lia).
  rewrite V2 in X by (cbn; lia). cbn [upside cell] in X. rewrite R1 in X. rewrite V0 in X by (cbn; lia).
  unfold interpolated, sample, next in X. cbn in X. lra.
Qed.

(** ** Angles *)
Lemma direction p a a' f : (0 < p)%R -> (p * cos (2 * a') = p * cos (2 * a + 2 * f))%R -> (p * sin (2 * a') = p * sin (2 * a + 2 * f))%R ->
  same_direction a' (a + f).
Proof.
  intros Hp Hc Hs. apply Rmult_eq_reg_l in Hc; [|lra]. apply Rmult_eq_reg_l in Hs; [|lra].
  destruct (angle_unique _ _ Hc Hs) as (k & E). exists k. lra.
Qed.

Lemma pB_cell (s : stokes R) y x : cell (pB s) y x = sqrt (cell (sQ s) y x * cell (sQ s) y x + cell (sU s) y x * cell (sU s) y x).
Proof. reflexivity. Qed.
Lemma DoLP_same (s t : stokes R) y x : cell (sI t) y x = cell (sI s) y x -> cell (pB t) y x = cell (pB s) y x -> cell (DoLP t) y x = cell (DoLP s) y x.
Proof.
  intros Ei Ep. destruct (c20_def s y x) as [S1 S2]. destruct (c20_def t y x) as [T1 T2].
  destruct (Req_dec (cell (sI s) y x) 0) as [Z|N].
  - rewrite S2, T2 by congruence. reflexivity.
  - rewrite S1, T1 by congruence. rewrite Ei, Ep. reflexivity.
Qed.

Lemma c125_turn dic dic' a (d : arr R) : describes dic a -> describes dic' (turned a) -> mosaic d ->
  exists s t, data_stokes dic d = Ok s /\ data_stokes dic' d = Ok t /\
    forall y x, 0 <= y < rows d / 2 -> 0 <= x < cols d / 2 ->
      cell (sI t) y x = cell (sI s) y x /\ cell (sQ t) y x = (- cell (sU s) y x)%R /\ cell (sU t) y x = cell (sQ s) y x /\
      cell (pB t) y x = cell (pB s) y x /\ cell (DoLP t) y x = cell (DoLP s) y x /\
      ((0 < cell (pB s) y x)%R -> same_direction (cell (AoLP t) y x) (cell (AoLP s) y x + PI / 4)).
Proof.
  intros Hd Hd' Hm. stokes_pair Hd Hd' Hm Hm. intros y x Hy Hx.
  destruct (Sv y x Hy Hx) as (E1 & E2 & E3). destruct (Tv y x Hy Hx) as (F1 & F2 & F3). cbn [turned p0 p45 pm45 p90] in F2, F3. cbn [nsub Num_R] in *.
  assert (EI : cell (sI t) y x = cell (sI s) y x) by congruence.
  assert (EQ : cell (sQ t) y x = (- cell (sU s) y x)%R) by (rewrite F2, E3; ring).
  assert (EU : cell (sU t) y x = cell (sQ s) y x) by congruence.
  assert (EP : cell (pB t) y x = cell (pB s) y x) by (rewrite !pB_cell, EQ, EU; f_equal; ring).
  split; [exact EI|]. split; [exact EQ|]. split; [exact EU|]. split; [exact EP|]. split; [apply DoLP_same; assumption|]. intros Hp.
  destruct (c19_polar s y x) as (_ & _ & Q1 & U1 & _). destruct (c19_polar t y x) as (_ & _ & Q2 & U2 & _).
  apply (direction _ _ _ _ Hp); rewrite <- EP at 1; rewrite <- ?Q2, <- ?U2; replace (2 * cell (AoLP s) y x + 2 * (PI / 4))%R with (2 * cell (AoLP s) y x + PI / 2)%R by field.
  - rewrite cos_plus, cos_PI2, sin_PI2, EQ, U1. ring.
  - rewrite sin_plus, cos_PI2, sin_PI2, EU, Q1. ring.
Qed.

Lemma c125_opposite dic dic' a (d : arr R) : describes dic a -> describes dic' (opposite a) -> mosaic d ->
  exists s t, data_stokes dic d = Ok s /\ data_stokes dic' d = Ok t /\
    forall y x, 0 <= y < rows d / 2 -> 0 <= x < cols d / 2 ->
      cell (sI t) y x = cell (sI s) y x /\ cell (sQ t) y x = cell (sQ s) y x /\ cell (sU t) y x = (- cell (sU s) y x)%R /\
      cell (pB t) y x = cell (pB s) y x /\ cell (DoLP t) y x = cell (DoLP s) y x /\
      ((0 < cell (pB s) y x)%R -> same_direction (cell (AoLP t) y x) (- cell (AoLP s) y x)).
Proof.
  intros Hd Hd' Hm. stokes_pair Hd Hd' Hm Hm. intros y x Hy Hx.
  destruct (Sv y x Hy Hx) as (E1 & E2 & E3). destruct (Tv y x Hy Hx) as (F1 & F2 & F3). cbn [opposite p0 p45 pm45 p90] in F2, F3. cbn [nsub Num_R] in *.
  assert (EI : cell (sI t) y x = cell (sI s) y x) by congruence.
  assert (EQ : cell (sQ t) y x = cell (sQ s) y x) by congruence.
  assert (EU : cell (sU t) y x = (- cell (sU s) y x)%R) by (rewrite F3, E3; ring).
  assert (EP : cell (pB t) y x = cell (pB s) y x) by (rewrite !pB_cell, EQ, EU; f_equal; ring).
  split; [exact EI|]. split; [exact EQ|]. split; [exact EU|]. split; [exact EP|]. split; [apply DoLP_same; assumption|]. intros Hp.
  destruct (c19_polar s y x) as (_ & _ & Q1 & U1 & _). destruct (c19_polar t y x) as (_ & _ & Q2 & U2 & _).
  replace (- cell (AoLP s) y x)%R with (- cell (AoLP s) y x + 0)%R by ring.
  apply (direction _ _ _ _ Hp); rewrite <- EP at 1; rewrite <- ?Q2, <- ?U2; replace (2 * - cell (AoLP s) y x + 2 * 0)%R with (- (2 * cell (AoLP s) y x))%R by ring.
  - rewrite cos_neg, EQ. exact Q1.
  - rewrite sin_neg, EU, U1. ring.
Qed.
