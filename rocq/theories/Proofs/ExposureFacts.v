(** Multiplying pixels by a power of two, in binary64. *)
From Coq Require Import ZArith Reals Lra Lia Floats.SpecFloat String.
From Flocq Require Import Core Relative BinarySingleNaN.
From Verif Require Import Base.Base Base.Num Base.BaseFacts Model.Demosaic Model.Stokes Model.Demodulate Model.Pol
  Spec.Terminates Spec.AngleSpec Spec.MosaicSpec Spec.StokesSpec Spec.SumSpec Spec.DemodSpec Spec.FloatSpec Spec.ExposureSpec
  Proofs.FloatFacts Proofs.MosaicFacts Proofs.MosaicProps Proofs.DemosaicFacts Proofs.DemodFacts Proofs.ExactFacts Proofs.RoundFacts Proofs.RoundImages Proofs.RoundPol Proofs.CorrectFloatFacts.
Local Open Scope R_scope.

#[local] Existing Instance Hprec.
#[local] Existing Instance Hmax.
#[local] Existing Instance fexp64_valid.
#[local] Existing Instance fexp64_mono.

Lemma fexp_is e : fexp64 e = Z.max (e - 53) (-1074).
Proof. reflexivity. Qed.

(** Rounding and powers of two *)
Lemma rnd_scale k x : (0 <= k)%Z -> x = 0 \/ bpow radix2 (-1022) <= Rabs x -> rnd (bpow radix2 k * x) = bpow radix2 k * rnd x.
Proof.
  intros Hk [->|Hx]; [rewrite Rmult_0_r, round_0 by typeclasses eauto; lra|].
  assert (X0 : x <> 0) by (intros ->; rewrite Rabs_R0 in Hx; pose proof (bpow_gt_0 radix2 (-1022)); lra).
  assert (M : (-1021 <= mag radix2 x)%Z) by (apply (mag_ge_bpow radix2 x (-1021)); exact Hx).
  assert (C : cexp radix2 fexp64 (bpow radix2 k * x) = (cexp radix2 fexp64 x + k)%Z).
  { unfold cexp. rewrite Rmult_comm, mag_mult_bpow by exact X0. rewrite !fexp_is. lia. }
  unfold round, F2R, scaled_mantissa. cbn [Fnum Fexp]. rewrite C.
  replace (bpow radix2 k * x * bpow radix2 (- (cexp radix2 fexp64 x + k))) with (x * bpow radix2 (- cexp radix2 fexp64 x)).
  - rewrite bpow_plus. ring.
  - replace (- (cexp radix2 fexp64 x + k))%Z with (- cexp radix2 fexp64 x + - k)%Z by lia. rewrite bpow_plus.
    assert (K : bpow radix2 k * bpow radix2 (- k) = 1) by (rewrite <- bpow_plus, Z.add_opp_diag_r; reflexivity).
    transitivity (x * bpow radix2 (- cexp radix2 fexp64 x) * (bpow radix2 k * bpow radix2 (- k))); [rewrite K; ring|ring].
Qed.

(** Multiples of 2^g *)
Definition on_grid (g : Z) (v : R) : Prop := exists m, v = IZR m * bpow radix2 g.
Lemma grid_finer g h v : on_grid h v -> (g <= h)%Z -> on_grid g v.
Proof.
  intros (m & ->) Hg. exists (m * 2 ^ (h - g))%Z. rewrite mult_IZR, Rmult_assoc. f_equal.
  change 2%Z with (radix_val radix2). rewrite IZR_Zpower by lia. rewrite <- bpow_plus. f_equal. lia.
Qed.
Lemma grid_rnd g v : on_grid g v -> on_grid g (rnd v).
Proof.
  intros (m & E). destruct (Z_le_gt_dec (cexp radix2 fexp64 v) g) as [L|L].
  - rewrite round_generic; [exists m; exact E|typeclasses eauto|]. rewrite E. apply (generic_format_F2R radix2 fexp64 m g).
    intros _. change (F2R (Float radix2 m g)) with (IZR m * bpow radix2 g). rewrite <- E. exact L.
  - apply (grid_finer g (cexp radix2 fexp64 v)); [|lia]. eexists. unfold round, F2R. cbn [Fnum Fexp]. reflexivity.
Qed.
Lemma grid_add g a b : on_grid g a -> on_grid g b -> on_grid g (a + b).
Proof. intros (m & ->) (n & ->). exists (m + n)%Z. rewrite plus_IZR. ring. Qed.
Lemma grid_sub g a b : on_grid g a -> on_grid g b -> on_grid g (a - b).
Proof. intros (m & ->) (n & ->). exists (m - n)%Z. rewrite minus_IZR. ring. Qed.
Lemma grid_mul g h a b : on_grid g a -> on_grid h b -> on_grid (g + h) (a * b).
Proof. intros (m & ->) (n & ->). exists (m * n)%Z. rewrite mult_IZR, bpow_plus. ring. Qed.
Lemma grid_size g v : on_grid g v -> v = 0 \/ bpow radix2 g <= Rabs v.
Proof.
  intros (m & ->). destruct (Z.eq_dec m 0) as [->|N]; [left; ring|right].
  rewrite Rabs_mult, (Rabs_pos_eq (bpow radix2 g)) by apply bpow_ge_0. rewrite <- abs_IZR.
  pose proof (IZR_le 1 (Z.abs m) ltac:(lia)) as L. pose proof (Rmult_le_compat_r _ _ _ (bpow_ge_0 radix2 g) L). lra.
Qed.
Lemma grid_normal g v : on_grid g v -> (-1022 <= g)%Z -> v = 0 \/ bpow radix2 (-1022) <= Rabs v.
Proof.
  intros G Hg. destruct (grid_size g v G) as [E|L]; [left; exact E|right]. apply Rle_trans with (2 := L). apply bpow_le. exact Hg.
Qed.

(** [y] is 2^k times [x], a multiple of 2^g, and at most 2^t. *)
Definition sc (g t k : Z) (x y : b64) (v : R) : Prop :=
  is_value x v /\ is_value y (bpow radix2 k * v) /\ on_grid g v /\ Rabs (bpow radix2 k * v) <= bpow radix2 t.

Lemma scale_small k v t : (0 <= k)%Z -> Rabs (bpow radix2 k * v) <= bpow radix2 t -> Rabs v <= bpow radix2 t.
Proof.
  intros Hk H. apply Rle_trans with (2 := H). rewrite Rabs_mult, (Rabs_pos_eq (bpow radix2 k)) by apply bpow_ge_0.
  pose proof (bpow_le radix2 0 k Hk) as K. change (bpow radix2 0) with 1 in K. pose proof (Rmult_le_compat_r _ _ _ (Rabs_pos v) K). lra.
Qed.
Lemma rnd_bpow x t : (-1022 <= t <= 1023)%Z -> Rabs x <= bpow radix2 t -> Rabs (rnd x) <= bpow radix2 t.
Proof. intros Ht H. apply abs_round_le_generic; [typeclasses eauto|typeclasses eauto|apply generic_format_bpow; rewrite fexp_is; lia|exact H]. Qed.
Lemma bpow_top t : (t <= 1023)%Z -> bpow radix2 t < top.
Proof. intros Ht. apply bpow_lt. lia. Qed.

(** What an operation does, once the exact result is known to scale *)
Lemma sc_round g t k x y v : (0 <= k)%Z -> (-1022 <= g)%Z -> (-1022 <= t <= 1023)%Z -> on_grid g v -> Rabs (bpow radix2 k * v) <= bpow radix2 t ->
  (Rabs (rnd v) < top -> is_value x (rnd v)) -> (Rabs (rnd (bpow radix2 k * v)) < top -> is_value y (rnd (bpow radix2 k * v))) ->
  sc g t k x y (rnd v).
Proof.
  intros Hk Hg Ht G B Vx Vy. pose proof (grid_normal g v G Hg) as N. pose proof (rnd_scale k v Hk N) as E. pose proof (rnd_bpow _ t Ht B) as B2.
  pose proof (bpow_top t (proj2 Ht)) as T. pose proof (rnd_bpow _ t Ht (scale_small k v t Hk B)) as B1.
  split; [apply Vx; lra|]. split; [rewrite <- E; apply Vy; lra|]. split; [apply grid_rnd, G|]. rewrite <- E. exact B2.
Qed.
Lemma twice t : bpow radix2 t + bpow radix2 t = bpow radix2 (t + 1).
Proof. rewrite bpow_plus. change (bpow radix2 1) with 2. ring. Qed.
Lemma sc_add g t k a b c d v w : (0 <= k)%Z -> (-1022 <= g)%Z -> (-1022 <= t <= 1022)%Z -> sc g t k a b v -> sc g t k c d w ->
  sc g (t + 1) k (a +! c) (b +! d) (rnd (v + w)).
Proof.
  intros Hk Hg Ht (V1 & V2 & G1 & B1) (W1 & W2 & G2 & B2). apply sc_round; [exact Hk|exact Hg|lia|apply grid_add; assumption| | |].
  - rewrite <- twice, Rmult_plus_distr_l. apply Rle_trans with (1 := Rabs_triang _ _). lra.
  - apply add_value; assumption.
  - rewrite Rmult_plus_distr_l. apply add_value; assumption.
Qed.
Lemma sc_sub g t k a b c d v w : (0 <= k)%Z -> (-1022 <= g)%Z -> (-1022 <= t <= 1022)%Z -> sc g t k a b v -> sc g t k c d w ->
  sc g (t + 1) k (a -! c) (b -! d) (rnd (v - w)).
Proof.
  intros Hk Hg Ht (V1 & V2 & G1 & B1) (W1 & W2 & G2 & B2). apply sc_round; [exact Hk|exact Hg|lia|apply grid_sub; assumption| | |].
  - rewrite <- twice, Rmult_minus_distr_l. unfold Rminus. apply Rle_trans with (1 := Rabs_triang _ _). rewrite Rabs_Ropp. lra.
  - apply sub_value; assumption.
  - rewrite Rmult_minus_distr_l. apply sub_value; assumption.
Qed.
Lemma sc_mul g h t t' k l a b c d v w : (0 <= k)%Z -> (0 <= l)%Z -> (-1022 <= g + h)%Z -> (-1022 <= t + t' <= 1023)%Z ->
  sc g t k a b v -> sc h t' l c d w -> sc (g + h) (t + t') (k + l) (a *! c) (b *! d) (rnd (v * w)).
Proof.
  intros Hk Hl Hg Ht (V1 & V2 & G1 & B1) (W1 & W2 & G2 & B2).
  assert (E : bpow radix2 (k + l) * (v * w) = (bpow radix2 k * v) * (bpow radix2 l * w)) by (rewrite bpow_plus; ring).
  apply sc_round; [lia|exact Hg|exact Ht|apply grid_mul; assumption| | |].
  - rewrite E, Rabs_mult, bpow_plus. apply Rmult_le_compat; [apply Rabs_pos|apply Rabs_pos|exact B1|exact B2].
  - apply mul_value; assumption.
  - rewrite E. apply mul_value; assumption.
Qed.
Lemma sc_sqrt g t k a b v : (0 <= k)%Z -> (-1022 <= g)%Z -> 0 <= v -> sc g t (k + k) a b v ->
  is_value (nsqrt a) (rnd (sqrt v)) /\ is_value (nsqrt b) (bpow radix2 k * rnd (sqrt v)).
Proof.
  intros Hk Hg V0 (V1 & V2 & G & _). split; [apply sqrt_value; assumption|].
  assert (K0 : 0 <= bpow radix2 (k + k) * v) by (apply Rmult_le_pos; [apply bpow_ge_0|exact V0]).
  pose proof (sqrt_value _ _ V2 K0) as S.
  assert (E : sqrt (bpow radix2 (k + k) * v) = bpow radix2 k * sqrt v).
  { rewrite sqrt_mult by (try apply bpow_ge_0; exact V0). f_equal. rewrite bpow_plus. apply sqrt_square, bpow_ge_0. }
  rewrite E, rnd_scale in S; [exact S|exact Hk|].
  destruct (grid_normal g v G Hg) as [->|L]; [left; apply sqrt_0|right]. rewrite Rabs_pos_eq in L by exact V0.
  rewrite Rabs_pos_eq by apply sqrt_pos. apply Rle_trans with (bpow radix2 (-511)); [apply bpow_le; lia|]. apply (sqrt_ge_bpow v 511). exact L.
Qed.
Lemma sc_half : sc (-1) (-1) 0 nhalf nhalf (1 / 2).
Proof.
  assert (E : bpow radix2 0 * (1 / 2) = 1 / 2) by (change (bpow radix2 0) with 1; lra).
  assert (H : 1 / 2 = bpow radix2 (-1)) by (change (bpow radix2 (-1)) with (/ 2); lra).
  split; [exact half_value|]. split; [rewrite E; exact half_value|]. split.
  - exists 1%Z. rewrite H. ring.
  - rewrite E, H, Rabs_pos_eq by apply bpow_ge_0. apply Rle_refl.
Qed.

(** Ordinary pixels *)
Lemma ordinary_grid x v : is_value x v -> v = 0 \/ bpow radix2 (-400) <= v -> on_grid (-452) v.
Proof.
  intros V [->|L]; [exists 0%Z; ring|]. destruct (B_value x v V) as (bx & _ & _ & E).
  assert (F : generic_format radix2 fexp64 v) by (rewrite <- E; apply fmt).
  assert (M : (-399 <= mag radix2 v)%Z).
  { apply (mag_ge_bpow radix2 v (-399)). rewrite Rabs_pos_eq; [exact L|]. pose proof (bpow_ge_0 radix2 (-400)). lra. }
  apply (grid_finer _ (cexp radix2 fexp64 v)); [|unfold cexp; rewrite fexp_is; lia].
  exists (Ztrunc (scaled_mantissa radix2 fexp64 v)). exact F.
Qed.
Lemma ordinary_sc k x y : (0 <= k)%Z -> ordinary_value x -> ordinary_value y -> rescaled k x y -> exists v, sc (-452) 400 k x y v.
Proof.
  intros Hk (_ & _ & Bx) (_ & _ & By) (v & V & W). rewrite power2 in W. exists v. pose proof (value_val _ _ V) as Ev. pose proof (value_val _ _ W) as Ew.
  rewrite Ev in Bx. rewrite Ew in By. split; [exact V|]. split; [exact W|]. split.
  - apply (ordinary_grid x v V). destruct Bx as [E|(L & _)]; [left; exact E|right; exact L].
  - destruct By as [E|(L & M)]; [rewrite E, Rabs_R0; apply bpow_ge_0|]. rewrite Rabs_pos_eq; [exact M|]. pose proof (bpow_ge_0 radix2 (-400)). lra.
Qed.

(** Parameters of one superpixel *)
Lemma pb_scaled g t k a b c d v w : (0 <= k)%Z -> (-511 <= g)%Z -> (-510 <= t <= 510)%Z -> sc g t k a b v -> sc g t k c d w ->
  exists p, is_value (nsqrt ((a *! a) +! (c *! c))) p /\ is_value (nsqrt ((b *! b) +! (d *! d))) (bpow radix2 k * p) /\ Rabs p <= bpow radix2 (t + 1).
Proof.
  intros Hk Hg Ht H1 H2.
  pose proof (sc_mul g g t t k k _ _ _ _ _ _ Hk Hk ltac:(lia) ltac:(lia) H1 H1) as S1.
  pose proof (sc_mul g g t t k k _ _ _ _ _ _ Hk Hk ltac:(lia) ltac:(lia) H2 H2) as S2.
  pose proof (sc_add (g + g) (t + t) (k + k) _ _ _ _ _ _ ltac:(lia) ltac:(lia) ltac:(lia) S1 S2) as S3.
  assert (P : 0 <= rnd (rnd (v * v) + rnd (w * w))).
  { assert (Q : forall r, 0 <= rnd (r * r)).
    { intros r. rewrite <- (round_0 radix2 fexp64 ZnearestE). apply round_le; [typeclasses eauto|typeclasses eauto|]. apply Rle_0_sqr. }
    rewrite <- (round_0 radix2 fexp64 ZnearestE). apply round_le; [typeclasses eauto|typeclasses eauto|]. pose proof (Q v). pose proof (Q w). lra. }
  set (z := rnd (rnd (v * v) + rnd (w * w))) in *. destruct (sc_sqrt (g + g) (t + t + 1) k _ _ _ Hk ltac:(lia) P S3) as (R1 & R2).
  exists (rnd (sqrt z)). split; [exact R1|]. split; [exact R2|]. destruct S3 as (_ & _ & _ & B). apply scale_small in B; [|lia].
  rewrite Rabs_pos_eq in B by exact P. apply rnd_bpow; [lia|]. rewrite Rabs_pos_eq by apply sqrt_pos.
  rewrite <- (sqrt_square (bpow radix2 (t + 1))) by apply bpow_ge_0. apply sqrt_le_1_alt. apply Rle_trans with (1 := B).
  rewrite <- bpow_plus. apply bpow_le. lia.
Qed.
Lemma quotient_scaled g t k p p' i i' v w : (0 <= k)%Z -> (t - g <= 1023)%Z ->
  is_value p v -> is_value p' (bpow radix2 k * v) -> Rabs v <= bpow radix2 t ->
  is_value i w -> is_value i' (bpow radix2 k * w) -> on_grid g w ->
  exists q, is_value (if negb (neqb i n0) then p /! i else n0) q /\ is_value (if negb (neqb i' n0) then p' /! i' else n0) q.
Proof.
  intros Hk Ht Vp Vp' B Vi Vi' G. pose proof (bpow_gt_0 radix2 k) as K0. pose proof (neqb_zero i w Vi) as Z. pose proof (neqb_zero i' _ Vi') as Z'.
  destruct (Req_dec w 0) as [E|N].
  - assert (Z1 : neqb i n0 = true) by (apply Z; exact E). assert (Z2 : neqb i' n0 = true) by (apply Z'; rewrite E; ring).
    rewrite Z1, Z2. cbn [negb]. exists 0. split; exact zero_value.
  - destruct (neqb i n0) eqn:Z1; [exfalso; apply N, Z; reflexivity|]. destruct (neqb i' n0) eqn:Z2.
    { exfalso. assert (K : bpow radix2 k * w = 0) by (apply Z'; reflexivity). apply Rmult_integral in K. destruct K; lra. }
    cbn [negb]. destruct (grid_size g w G) as [E|L]; [lra|].
    assert (S : Rabs (v / w) <= huge).
    { unfold Rdiv. rewrite Rabs_mult, Rabs_inv. apply Rle_trans with (bpow radix2 t * bpow radix2 (- g)).
      - apply Rmult_le_compat; [apply Rabs_pos|apply Rlt_le, Rinv_0_lt_compat, Rabs_pos_lt; exact N|exact B|].
        rewrite bpow_opp. apply Rinv_le_contravar; [apply bpow_gt_0|exact L].
      - rewrite <- bpow_plus. apply bpow_le. lia. }
    pose proof (rnd_huge _ S) as T. exists (rnd (v / w)). split; [apply div_value; assumption|].
    assert (E : (bpow radix2 k * v) / (bpow radix2 k * w) = v / w) by (field; split; lra).
    rewrite <- E. apply div_value; [exact Vp'|exact Vi'| |rewrite E; exact T].
    intros C. apply Rmult_integral in C. destruct C; lra.
Qed.

Lemma rescaled_sc g t k x y v : sc g t k x y v -> rescaled k x y.
Proof. intros (V & W & _). exists v. rewrite power2. split; assumption. Qed.
Lemma rescaled_back k x y : rescaled k x y -> rescaled (- k) y x.
Proof.
  intros (v & V & W). exists (powerRZ 2 k * v). split; [exact W|]. rewrite !power2 in *. rewrite <- Rmult_assoc, <- bpow_plus, Z.add_opp_diag_l.
  change (bpow radix2 0) with 1. rewrite Rmult_1_l. exact V.
Qed.

Definition all_scaled (k : Z) (s s' : stokes b64) (y x : Z) : Prop :=
  rescaled k (cell (sI s) y x) (cell (sI s') y x) /\ rescaled k (cell (sQ s) y x) (cell (sQ s') y x) /\
  rescaled k (cell (sU s) y x) (cell (sU s') y x) /\ rescaled k (cell (pB s) y x) (cell (pB s') y x) /\
  rescaled 0 (cell (DoLP s) y x) (cell (DoLP s') y x).
Lemma forwards k (d d' : arr b64) dic s : (0 <= k)%Z -> ordinary d -> ordinary d' -> mosaic d -> exposed k d d' -> data_stokes dic d = Ok s ->
  exists s', data_stokes dic d' = Ok s' /\ forall y x, (0 <= y < rows d / 2)%Z -> (0 <= x < cols d / 2)%Z -> all_scaled k s s' y x.
Proof.
  intros Hk Hd Hd' Hm (R1 & R2 & Hs) E. unfold data_stokes in E. apply bind_ok in E as (q & Eq & Es).
  assert (Hm' : mosaic d') by (unfold mosaic in *; rewrite R1, R2; exact Hm).
  destruct (c01_split d') as (S1 & _); [apply Hm'..|]. destruct (S1 Hm') as (q' & Eq' & Q').
  destruct (c01_split d) as (S2 & _); [apply Hm..|]. destruct (S2 Hm) as (q2' & Eq2 & Q). assert (q2' = q) by congruence. subst q2'.
  destruct (theo_ok dic q s Es) as (i & j & m & l & Hi & Hj & Hm4 & Hl & -> & G).
  eexists. split; [unfold data_stokes; rewrite Eq'; cbn [bind]; apply G|]. intros y x Hy Hx.
  assert (Va : forall p, (0 <= p < 4)%Z -> exists v, sc (-452) 400 k (cell (qnth q p) y x) (cell (qnth q' p) y x) v).
  { intros p Hp. destruct (Q p Hp) as (_ & _ & A). destruct (Q' p Hp) as (_ & _ & A'). rewrite A by assumption.
    rewrite A' by (rewrite ?R1, ?R2; assumption). apply ordinary_sc; [exact Hk| | |].
    - apply (ordinary_sample d p y x); assumption.
    - apply (ordinary_sample d' p y x); rewrite ?R1, ?R2; assumption.
    - unfold sample. apply Hs.
      + destruct Hm as (_ & _ & M1 & _). pose proof (Z.div_mod (rows d) 2 ltac:(lia)). pose proof (Z.mod_pos_bound p 2 ltac:(lia)).
        assert (0 <= p / 2 < 2)%Z by (split; [apply Z.div_pos; lia|apply Z.div_lt_upper_bound; lia]). lia.
      + destruct Hm as (_ & _ & _ & M2). pose proof (Z.div_mod (cols d) 2 ltac:(lia)). pose proof (Z.mod_pos_bound p 2 ltac:(lia)). lia. }
  destruct (Va i Hi) as (vi & Oi). destruct (Va j Hj) as (vj & Oj). destruct (Va m Hm4) as (vm & Om). destruct (Va l Hl) as (vl & Ol).
  destruct (Va 0%Z ltac:(lia)) as (v0 & O0). destruct (Va 1%Z ltac:(lia)) as (v1 & O1). destruct (Va 2%Z ltac:(lia)) as (v2 & O2). destruct (Va 3%Z ltac:(lia)) as (v3 & O3).
  assert (Up : forall g t t' a b v, sc g t k a b v -> (t <= t')%Z -> sc g t' k a b v).
  { intros g t t' a b v (A1 & A2 & A3 & A4) L. split; [exact A1|]. split; [exact A2|]. split; [exact A3|]. apply Rle_trans with (1 := A4). apply bpow_le, L. }
  pose proof (sc_sub (-452) 400 k _ _ _ _ _ _ Hk ltac:(lia) ltac:(lia) Oi Oj) as SQ. pose proof (sc_sub (-452) 400 k _ _ _ _ _ _ Hk ltac:(lia) ltac:(lia) Om Ol) as SU.
  pose proof (sc_add (-452) 400 k _ _ _ _ _ _ Hk ltac:(lia) ltac:(lia) O0 O1) as A1.
  pose proof (sc_add (-452) (400 + 1) k _ _ _ _ _ _ Hk ltac:(lia) ltac:(lia) A1 (Up _ _ (400 + 1)%Z _ _ _ O2 ltac:(lia))) as A2.
  pose proof (sc_add (-452) (400 + 1 + 1) k _ _ _ _ _ _ Hk ltac:(lia) ltac:(lia) A2 (Up _ _ (400 + 1 + 1)%Z _ _ _ O3 ltac:(lia))) as A3.
  pose proof (sc_mul (-1) (-452) (-1) (400 + 1 + 1 + 1) 0 k _ _ _ _ _ _ ltac:(lia) Hk ltac:(lia) ltac:(lia) sc_half A3) as SI. rewrite Z.add_0_l in SI.
  destruct (pb_scaled (-452) (400 + 1) k _ _ _ _ _ _ Hk ltac:(lia) ltac:(lia) SQ SU) as (p & P1 & P2 & P3).
  split; [exact (rescaled_sc _ _ _ _ _ _ SI)|]. split; [exact (rescaled_sc _ _ _ _ _ _ SQ)|]. split; [exact (rescaled_sc _ _ _ _ _ _ SU)|].
  split; [exists p; rewrite power2; split; [exact P1|exact P2]|]. destruct SI as (I1 & I2 & I3 & _).
  destruct (quotient_scaled (-1 + -452) (400 + 1 + 1) k _ _ _ _ _ _ Hk ltac:(lia) P1 P2 P3 I1 I2 I3) as (z & Z1 & Z2).
  exists z. split; [exact Z1|]. rewrite power2. change (bpow radix2 0) with 1. rewrite Rmult_1_l. exact Z2.
Qed.

(** Shorter exposures are longer ones read backwards. *)
Lemma exposed_back k d d' : exposed k d d' -> exposed (- k) d' d.
Proof.
  intros (R1 & R2 & H). split; [symmetry; exact R1|]. split; [symmetry; exact R2|]. intros y x Hy Hx. apply rescaled_back, H; [rewrite <- R1; exact Hy|rewrite <- R2; exact Hx].
Qed.
Lemma stokes_too (d d' : arr b64) dic s : mosaic d -> rows d' = rows d -> cols d' = cols d -> data_stokes dic d = Ok s -> exists s', data_stokes dic d' = Ok s'.
Proof.
  intros Hm R1 R2 E. unfold data_stokes in E. apply bind_ok in E as (q & Eq & Es). assert (Hm' : mosaic d') by (unfold mosaic in *; rewrite R1, R2; exact Hm).
  destruct (c01_split d') as (S1 & _); [apply Hm'..|]. destruct (S1 Hm') as (q' & Eq' & _).
  destruct (theo_ok dic q s Es) as (i & j & m & l & _ & _ & _ & _ & _ & G). eexists. unfold data_stokes. rewrite Eq'. cbn [bind]. apply G.
Qed.
Lemma c156_stokes k (d d' : arr b64) dic s : ordinary d -> ordinary d' -> mosaic d -> exposed k d d' -> data_stokes dic d = Ok s ->
  exists s', data_stokes dic d' = Ok s' /\ forall y x, (0 <= y < rows d / 2)%Z -> (0 <= x < cols d / 2)%Z ->
    rescaled k (cell (sI s) y x) (cell (sI s') y x) /\ rescaled k (cell (sQ s) y x) (cell (sQ s') y x) /\
    rescaled k (cell (sU s) y x) (cell (sU s') y x) /\ rescaled k (cell (pB s) y x) (cell (pB s') y x) /\
    rescaled 0 (cell (DoLP s) y x) (cell (DoLP s') y x).
Proof.
  intros Hd Hd' Hm He E. destruct (Z_le_gt_dec 0 k) as [K|K]; [exact (forwards k d d' dic s K Hd Hd' Hm He E)|].
  pose proof He as (R1 & R2 & _). destruct (stokes_too d d' dic s Hm R1 R2 E) as (s' & E').
  assert (Hm' : mosaic d') by (unfold mosaic in *; rewrite R1, R2; exact Hm).
  destruct (forwards (- k) d' d dic s' ltac:(lia) Hd' Hd Hm' (exposed_back k d d' He) E') as (t & Et & H). assert (t = s) by congruence. subst t.
  exists s'. split; [exact E'|]. intros y x Hy Hx. rewrite R1, R2 in H. destruct (H y x Hy Hx) as (A1 & A2 & A3 & A4 & A5).
  apply rescaled_back in A1, A2, A3, A4, A5. rewrite Z.opp_involutive in A1, A2, A3, A4. split; [exact A1|]. split; [exact A2|]. split; [exact A3|]. split; [exact A4|exact A5].
Qed.

Lemma c156_three : exists s s', data_stokes polarcam_angles (two_rows 1 3) = Ok s /\ data_stokes polarcam_angles (two_rows 3 9) = Ok s' /\
  cell (DoLP s) 0 0 = S754_finite false 6369051672525773 (-53) /\ cell (DoLP s') 0 0 = S754_finite false 6369051672525772 (-53).
Proof. eexists. eexists. split; [reflexivity|]. split; [reflexivity|]. split; vm_compute; reflexivity. Qed.

Lemma rows_ordinary a b : (1 <= a < 100)%Z -> (1 <= b < 100)%Z -> ordinary (two_rows a b).
Proof.
  intros Ha Hb y x Hy Hx. rewrite !power2. cbn [two_rows rows cols cell] in *.
  assert (G : forall c, (1 <= c < 100)%Z -> is_binary64 (nofZ c) /\ finite64 (nofZ c) /\ (fval (nofZ c) = 0 \/ bpow radix2 (-400) <= fval (nofZ c) <= bpow radix2 400)).
  { intros c Hc. destruct (ofZ_value c ltac:(lia)) as (V & F & E). split; [exact V|]. split; [exact F|]. right.
    assert (E' : fval (nofZ c) = IZR c) by exact E. rewrite E'.
    pose proof (IZR_le 1 c ltac:(lia)). pose proof (IZR_le c 128 ltac:(lia)). pose proof (bpow_le radix2 (-400) 0 ltac:(lia)) as L. pose proof (bpow_le radix2 7 400 ltac:(lia)) as M.
    change (bpow radix2 0) with 1 in L. change (bpow radix2 7) with 128 in M. lra. }
  destruct (y =? 0)%Z; apply G; assumption.
Qed.
Lemma c156_case : ordinary (two_rows 1 3) /\ ordinary (two_rows 8 24) /\ mosaic (two_rows 1 3) /\ exposed 3 (two_rows 1 3) (two_rows 8 24) /\
  exists s, data_stokes polarcam_angles (two_rows 1 3) = Ok s.
Proof.
  split; [apply rows_ordinary; lia|]. split; [apply rows_ordinary; lia|]. split; [repeat split; vm_compute; congruence|]. split; [|eexists; reflexivity].
  split; [reflexivity|]. split; [reflexivity|]. intros y x _ _. cbn [two_rows cell].
  assert (G : forall c, (1 <= c < 100)%Z -> rescaled 3 (nofZ c) (nofZ (8 * c))).
  { intros c Hc. exists (IZR c). split; [apply ofZ_value; lia|]. rewrite power2. change (bpow radix2 3) with 8. rewrite <- mult_IZR. apply ofZ_value. lia. }
  destruct (y =? 0)%Z; [apply (G 1%Z); lia|apply (G 3%Z); lia].
Qed.

(** ** Demodulated images *)
Lemma moderate_grid x v : is_value x v -> v = 0 \/ bpow radix2 (-200) <= Rabs v -> on_grid (-252) v.
Proof.
  intros V [->|L]; [exists 0%Z; ring|]. destruct (B_value x v V) as (bx & _ & _ & E).
  assert (F : generic_format radix2 fexp64 v) by (rewrite <- E; apply fmt).
  assert (M : (-199 <= mag radix2 v)%Z) by (apply (mag_ge_bpow radix2 v (-199)); exact L).
  apply (grid_finer _ (cexp radix2 fexp64 v)); [|unfold cexp; rewrite fexp_is; lia].
  exists (Ztrunc (scaled_mantissa radix2 fexp64 v)). exact F.
Qed.
Lemma moderate_sc k x y : moderate x -> moderate y -> rescaled k x y -> exists v, sc (-252) 200 k x y v.
Proof.
  intros (_ & _ & Bx) (_ & _ & By) (v & V & W). rewrite power2 in W. exists v. pose proof (value_val _ _ V) as Ev. pose proof (value_val _ _ W) as Ew.
  rewrite Ev in Bx. rewrite Ew in By. rewrite !power2 in Bx, By. split; [exact V|]. split; [exact W|]. split.
  - apply (moderate_grid x v V). destruct Bx as [E|(L & _)]; [left; exact E|right; exact L].
  - destruct By as [E|(L & M)]; [rewrite E, Rabs_R0; apply bpow_ge_0|exact M].
Qed.
Lemma moderate_same x : moderate x -> exists v, sc (-252) 200 0 x x v.
Proof.
  intros H. apply moderate_sc; [exact H|exact H|]. destruct H as (B & F & _). exists (fval x).
  rewrite power2. change (bpow radix2 0) with 1. rewrite Rmult_1_l. split; split; auto.
Qed.
Lemma sc_up g t t' k a b v : sc g t k a b v -> (t <= t')%Z -> sc g t' k a b v.
Proof. intros (A1 & A2 & A3 & A4) L. split; [exact A1|]. split; [exact A2|]. split; [exact A3|]. apply Rle_trans with (1 := A4). apply bpow_le, L. Qed.
Lemma row_scaled k m p p' i : (0 <= k)%Z -> (forall j, (0 <= j < 4)%Z -> moderate (m i j)) ->
  (forall j, (0 <= j < 4)%Z -> exists v, sc (-252) 200 k (p j) (p' j) v) ->
  exists v, sc (-504) 403 k (row_product m p i) (row_product m p' i) v.
Proof.
  intros Hk Hm Hp.
  assert (T : forall j, (0 <= j < 4)%Z -> exists v, sc (-504) 400 k (m i j *! p j) (m i j *! p' j) v).
  { intros j Hj. destruct (moderate_same _ (Hm j Hj)) as (v & V). destruct (Hp j Hj) as (w & W). exists (rnd (v * w)).
    pose proof (sc_mul (-252) (-252) 200 200 0 k _ _ _ _ _ _ ltac:(lia) Hk ltac:(lia) ltac:(lia) V W) as S. exact S. }
  destruct (T 0%Z ltac:(lia)) as (v0 & S0). destruct (T 1%Z ltac:(lia)) as (v1 & S1). destruct (T 2%Z ltac:(lia)) as (v2 & S2). destruct (T 3%Z ltac:(lia)) as (v3 & S3).
  pose proof (sc_add (-504) 400 k _ _ _ _ _ _ Hk ltac:(lia) ltac:(lia) S0 S1) as A1.
  pose proof (sc_add (-504) 401 k _ _ _ _ _ _ Hk ltac:(lia) ltac:(lia) A1 (sc_up _ _ 401 _ _ _ _ S2 ltac:(lia))) as A2.
  pose proof (sc_add (-504) 402 k _ _ _ _ _ _ Hk ltac:(lia) ltac:(lia) A2 (sc_up _ _ 402 _ _ _ _ S3 ltac:(lia))) as A3.
  eexists. exact A3.
Qed.
Lemma sample_inside {A} (d : arr A) p y x : mosaic d -> (0 <= p < 4)%Z -> (0 <= y < rows d / 2)%Z -> (0 <= x < cols d / 2)%Z ->
  (0 <= 2 * y + p / 2 < rows d)%Z /\ (0 <= 2 * x + p mod 2 < cols d)%Z.
Proof.
  intros (_ & _ & M1 & M2) Hp Hy Hx. pose proof (Z.div_mod (rows d) 2 ltac:(lia)). pose proof (Z.div_mod (cols d) 2 ltac:(lia)).
  pose proof (Z.mod_pos_bound p 2 ltac:(lia)). assert (0 <= p / 2 < 2)%Z by (split; [apply Z.div_pos; lia|apply Z.div_lt_upper_bound; lia]). lia.
Qed.
Definition found_at (d : demodulator b64) (Y X : Z) : Prop := forall f, fit_found_flags d = Some f -> neqb (cell f Y X) n1 = true.
Lemma demod_forwards k (d : demodulator b64) data data' old old' h w : (0 <= k)%Z ->
  moderate_image data -> moderate_image data' -> moderate_matrices (mij d) -> mosaic data -> exposed k data data' ->
  h = (rows data / 2)%Z -> w = (cols data / 2)%Z -> t_rows (mij d) = h -> t_cols (mij d) = w -> flags_fit d old h w -> flags_fit d old' h w ->
  exists s s', demod_raw d data old = Ok s /\ demod_raw d data' old' = Ok s' /\
    forall Y X, (0 <= Y < h)%Z -> (0 <= X < w)%Z -> found_at d Y X -> all_scaled k s s' Y X.
Proof.
  intros Hk Hd Hd' Ht Hm (R1 & R2 & Hs) Eh Ew T1 T2 Hf Hf'. assert (Hm' : mosaic data') by (unfold mosaic in *; rewrite R1, R2; exact Hm).
  destruct (c24_product d data old h w Hm Eh Ew T1 T2 Hf) as (s & Es & (_ & _ & _ & V)).
  destruct (c24_product d data' old' h w Hm' ltac:(rewrite R1; exact Eh) ltac:(rewrite R2; exact Ew) T1 T2 Hf') as (s' & Es' & (_ & _ & _ & V')).
  exists s, s'. split; [exact Es|]. split; [exact Es'|]. intros Y X HY HX Hfound.
  destruct (V Y X HY HX) as (E1 & E2 & E3). destruct (V' Y X HY HX) as (F1 & F2 & F3). clear V V'.
  assert (Fd : match fit_found_flags d with None => true | Some f => neqb (cell f Y X) n1 end = true) by (destruct (fit_found_flags d) as [f|] eqn:Ef; [exact (Hfound f Ef)|reflexivity]).
  cbv beta in E1, E2, E3, F1, F2, F3. rewrite Fd in E1, E2, E3, F1, F2, F3.
  assert (Va : forall p, (0 <= p < 4)%Z -> exists v, sc (-252) 200 k (sample data p Y X) (sample data' p Y X) v).
  { intros p Hp. destruct (sample_inside data p Y X Hm Hp ltac:(lia) ltac:(lia)) as (I1 & I2). unfold sample.
    apply moderate_sc; [apply Hd; assumption|apply Hd'; rewrite ?R1, ?R2; assumption|apply Hs; assumption]. }
  assert (P : forall i, (0 <= i < 3)%Z -> exists v, sc (-504) 403 k (row_product (fun i j => t_cell (mij d) i j Y X) (fun k => sample data k Y X) i)
                (row_product (fun i j => t_cell (mij d) i j Y X) (fun k => sample data' k Y X) i) v).
  { intros i Hi. apply row_scaled; [exact Hk| |exact Va]. intros j Hj. apply Ht; [exact Hi|exact Hj|rewrite T1; exact HY|rewrite T2; exact HX]. }
  destruct (P 0%Z ltac:(lia)) as (v0 & SI). destruct (P 1%Z ltac:(lia)) as (v1 & SQ). destruct (P 2%Z ltac:(lia)) as (v2 & SU). clear P Va.
  rewrite <- E1, <- F1 in SI. rewrite <- E2, <- F2 in SQ. rewrite <- E3, <- F3 in SU. clear E1 E2 E3 F1 F2 F3.
  destruct (pb_scaled (-504) 403 k _ _ _ _ _ _ Hk ltac:(lia) ltac:(lia) SQ SU) as (p & P1 & P2 & P3).
  split; [exact (rescaled_sc _ _ _ _ _ _ SI)|]. split; [exact (rescaled_sc _ _ _ _ _ _ SQ)|]. split; [exact (rescaled_sc _ _ _ _ _ _ SU)|].
  split; [exists p; rewrite power2; split; [exact P1|exact P2]|]. destruct SI as (I1 & I2 & I3 & _).
  destruct (quotient_scaled (-504) (403 + 1) k _ _ _ _ _ _ Hk ltac:(lia) P1 P2 P3 I1 I2 I3) as (z & Z1 & Z2).
  exists z. split; [exact Z1|]. rewrite power2. change (bpow radix2 0) with 1. rewrite Rmult_1_l. exact Z2.
Qed.
Lemma c156_demodulated k (d : demodulator b64) data data' old old' h w :
  moderate_image data -> moderate_image data' -> moderate_matrices (mij d) -> mosaic data -> exposed k data data' ->
  h = (rows data / 2)%Z -> w = (cols data / 2)%Z -> t_rows (mij d) = h -> t_cols (mij d) = w -> flags_fit d old h w -> flags_fit d old' h w ->
  exists s s', demod_raw d data old = Ok s /\ demod_raw d data' old' = Ok s' /\
    forall Y X, (0 <= Y < h)%Z -> (0 <= X < w)%Z -> (forall f, fit_found_flags d = Some f -> neqb (cell f Y X) n1 = true) ->
      rescaled k (cell (sI s) Y X) (cell (sI s') Y X) /\ rescaled k (cell (sQ s) Y X) (cell (sQ s') Y X) /\
      rescaled k (cell (sU s) Y X) (cell (sU s') Y X) /\ rescaled k (cell (pB s) Y X) (cell (pB s') Y X) /\
      rescaled 0 (cell (DoLP s) Y X) (cell (DoLP s') Y X).
Proof.
  intros Hd Hd' Ht Hm He Eh Ew T1 T2 Hf Hf'. destruct (Z_le_gt_dec 0 k) as [K|K]; [exact (demod_forwards k d data data' old old' h w K Hd Hd' Ht Hm He Eh Ew T1 T2 Hf Hf')|].
  pose proof He as (R1 & R2 & _). assert (Hm' : mosaic data') by (unfold mosaic in *; rewrite R1, R2; exact Hm).
  destruct (demod_forwards (- k) d data' data old' old h w ltac:(lia) Hd' Hd Ht Hm' (exposed_back k data data' He) ltac:(rewrite R1; exact Eh) ltac:(rewrite R2; exact Ew) T1 T2 Hf' Hf) as (s' & s & E' & E & H).
  exists s, s'. split; [exact E|]. split; [exact E'|]. intros Y X HY HX Hfound. destruct (H Y X HY HX Hfound) as (A1 & A2 & A3 & A4 & A5).
  apply rescaled_back in A1, A2, A3, A4, A5. rewrite Z.opp_involutive in A1, A2, A3, A4. split; [exact A1|]. split; [exact A2|]. split; [exact A3|]. split; [exact A4|exact A5].
Qed.
Lemma moderate_at x v : is_value x v -> / 2 <= v <= 128 -> moderate x.
Proof.
  intros (V & F & E) Hv. split; [exact V|]. split; [exact F|]. right. rewrite !power2, E, Rabs_pos_eq by lra.
  pose proof (bpow_le radix2 (-200) (-1) ltac:(lia)) as L. pose proof (bpow_le radix2 7 200 ltac:(lia)) as M.
  change (bpow radix2 (-1)) with (/ 2) in L. change (bpow radix2 7) with 128 in M. lra.
Qed.
Lemma rows_moderate a b : (1 <= a < 100)%Z -> (1 <= b < 100)%Z -> moderate_image (two_rows a b).
Proof.
  intros Ha Hb y x _ _. cbn [two_rows cell].
  assert (G : forall c, (1 <= c < 100)%Z -> moderate (nofZ c)).
  { intros c Hc. apply (moderate_at _ (IZR c)); [apply ofZ_value; lia|]. pose proof (IZR_le 1 c ltac:(lia)). pose proof (IZR_le c 128 ltac:(lia)). lra. }
  destruct (y =? 0)%Z; apply G; assumption.
Qed.
Lemma c156_demod_case old : let d := mkdemodulator (mktensor 1 1 (fun _ _ _ _ => nhalf)) None in
  moderate_image (two_rows 1 3) /\ moderate_image (two_rows 8 24) /\ moderate_matrices (mij d) /\ mosaic (two_rows 1 3) /\
  exposed 3 (two_rows 1 3) (two_rows 8 24) /\ flags_fit d old 1 1.
Proof.
  split; [apply rows_moderate; lia|]. split; [apply rows_moderate; lia|]. split.
  { intros i j Y X _ _ _ _. apply (moderate_at _ (1 / 2)); [exact half_value|lra]. }
  destruct c156_case as (_ & _ & M & E & _). split; [exact M|]. split; [exact E|]. intros f Hf. discriminate Hf.
Qed.
