(** Rounding errors of pB and DoLP for any non-negative pixels. *)
From Coq Require Import ZArith Reals Lra Lia Floats.SpecFloat String.
From Flocq Require Import Core Relative BinarySingleNaN.
From Verif Require Import Base.Base Base.Num Base.BaseFacts Model.Demosaic Model.Rebin Model.Ifov Model.Stokes Model.Pol
  Spec.Terminates Spec.AngleSpec Spec.MosaicSpec Spec.StokesSpec Spec.SumSpec Spec.FloatSpec
  Proofs.FloatFacts Proofs.MosaicFacts Proofs.MosaicProps Proofs.DemosaicFacts Proofs.ExactFacts Proofs.RoundFacts Proofs.RoundImages.
Local Open Scope R_scope.

#[local] Existing Instance Hprec.
#[local] Existing Instance Hmax.
#[local] Existing Instance fexp64_valid.
#[local] Existing Instance fexp64_mono.

(** ** Relative errors *)
Lemma rnd_relative v : v = 0 \/ bpow radix2 (-1022) <= Rabs v -> Rabs (rnd v - v) <= u * Rabs v.
Proof.
  intros [->|Hv].
  - rewrite round_0 by typeclasses eauto. rewrite Rminus_eq_0, Rabs_R0. lra.
  - destruct (rnd_rel v Hv) as (e & He & ->). replace (v * (1 + e) - v) with (e * v) by ring. rewrite Rabs_mult.
    apply Rmult_le_compat_r; [apply Rabs_pos|exact He].
Qed.
Lemma shrink_pos n : 0 <= (1 - u) ^ n <= 1.
Proof.
  pose proof u_half. split; [apply pow_le; lra|]. induction n as [|n IH]; cbn [pow]; [lra|].
  pose proof (Rmult_le_compat (1 - u) 1 ((1 - u) ^ n) 1 ltac:(lra) ltac:(apply pow_le; lra) ltac:(lra) IH). lra.
Qed.
(** [x] is [r] after [n] roundings, each with a relative error of at most 2^-53. *)
Definition band (n : nat) (x : b64) (r : R) : Prop :=
  is_value x (fval x) /\ 0 <= r /\ (1 - u) ^ n * r <= fval x <= (1 + u) ^ n * r.
Lemma band_pos n x r : band n x r -> 0 <= fval x.
Proof. intros (_ & R0 & (L & _)). pose proof (shrink_pos n) as (P & _). pose proof (Rmult_le_pos _ _ P R0). lra. Qed.
Lemma band_value x r : is_value x r -> 0 <= r -> band 0 x r.
Proof. intros V R0. pose proof (value_val _ _ V) as E. split; [rewrite E; exact V|]. split; [exact R0|]. rewrite E. cbn [pow]. lra. Qed.
Lemma band_mono n m x r : band n x r -> (n <= m)%nat -> band m x r.
Proof.
  intros (V & R0 & (L & M)) Hn. split; [exact V|]. split; [exact R0|]. split.
  - apply Rle_trans with (2 := L). apply Rmult_le_compat_r; [exact R0|]. replace m with (n + (m - n))%nat by lia. rewrite pow_add.
    pose proof (shrink_pos n) as (A & _). pose proof (shrink_pos (m - n)) as (_ & B). pose proof (Rmult_le_compat_l _ _ _ A B). lra.
  - apply Rle_trans with (1 := M). apply Rmult_le_compat_r; [exact R0|]. apply growth_mono. exact Hn.
Qed.
(** One more rounding *)
Lemma band_round n v r : 0 <= r -> (1 - u) ^ n * r <= v <= (1 + u) ^ n * r -> Rabs (rnd v - v) <= u * Rabs v ->
  (1 - u) ^ S n * r <= rnd v <= (1 + u) ^ S n * r.
Proof.
  intros R0 (L & M) E. pose proof (shrink_pos n) as (P & _). pose proof (Rmult_le_pos _ _ P R0) as V0.
  rewrite (Rabs_pos_eq v) in E by lra. apply Rabs_le_inv in E. pose proof u_half as U. cbn [pow].
  pose proof (Rmult_le_compat_l (1 - u) _ _ ltac:(lra) L). pose proof (Rmult_le_compat_l (1 + u) _ _ ltac:(lra) M). lra.
Qed.
Lemma band_add n x y r s : band n x r -> band n y s -> fval x + fval y <= huge -> band (S n) (x +! y) (r + s).
Proof.
  intros Hx Hy Hb. pose proof (band_pos _ _ _ Hx) as X0. pose proof (band_pos _ _ _ Hy) as Y0.
  destruct Hx as (Vx & R0 & (Lx & Mx)), Hy as (Vy & S0 & (Ly & My)).
  assert (Hv : Rabs (fval x + fval y) <= huge) by (rewrite Rabs_pos_eq; lra).
  pose proof (add_value x y _ _ Vx Vy (rnd_huge _ Hv)) as V. pose proof (value_val _ _ V) as Ev.
  split; [rewrite Ev; exact V|]. split; [lra|]. rewrite Ev. apply band_round; [lra|lra|].
  apply rnd_sum; eapply value_fmt; eassumption.
Qed.
Lemma band_sqrt n x r : band (n + n) x r -> (fval x = 0 \/ bpow radix2 (-2000) <= fval x) -> band (S n) (nsqrt x) (sqrt r).
Proof.
  intros Hx Hz. pose proof (band_pos _ _ _ Hx) as X0. destruct Hx as (Vx & R0 & (L & M)).
  pose proof (sqrt_value x _ Vx X0) as V. pose proof (value_val _ _ V) as Ev. split; [rewrite Ev; exact V|]. split; [apply sqrt_pos|]. rewrite Ev.
  apply band_round; [apply sqrt_pos| |].
  - assert (E1 : (1 - u) ^ n * sqrt r = sqrt ((1 - u) ^ (n + n) * r)).
    { rewrite sqrt_mult, pow_add, sqrt_square; [reflexivity|apply shrink_pos|apply shrink_pos|exact R0]. }
    assert (E2 : (1 + u) ^ n * sqrt r = sqrt ((1 + u) ^ (n + n) * r)).
    { pose proof (growth_pos n). pose proof (growth_pos (n + n)). rewrite sqrt_mult, pow_add, sqrt_square; [reflexivity|lra|lra|exact R0]. }
    rewrite E1, E2. split; apply sqrt_le_1_alt; assumption.
  - apply rnd_relative. destruct Hz as [->|Hz]; [left; apply sqrt_0|right]. rewrite Rabs_pos_eq by apply sqrt_pos.
    apply Rle_trans with (bpow radix2 (-1000)); [apply bpow_le; lia|]. replace (bpow radix2 (-1000)) with (sqrt (bpow radix2 (-2000))); [apply sqrt_le_1_alt, Hz|].
    replace (bpow radix2 (-2000)) with (bpow radix2 (-1000) * bpow radix2 (-1000)) by (rewrite <- bpow_plus; reflexivity). apply sqrt_square, bpow_ge_0.
Qed.
(** The square of a difference *)
Lemma band_square x v w : is_value x w -> w = rnd v -> Rabs (w - v) <= u * Rabs v -> w = 0 \/ bpow radix2 (-500) <= Rabs w -> Rabs w <= bpow radix2 500 ->
  band 3 (x *! x) (v * v).
Proof.
  intros V -> E Hz Hb. set (w := rnd v) in *. pose proof u_half as U.
  assert (L : (1 - u) * Rabs v <= Rabs w) by (pose proof (Rabs_triang_inv v w) as T; rewrite Rabs_minus_sym in E; lra).
  assert (M : Rabs w <= (1 + u) * Rabs v) by (pose proof (Rabs_triang_inv w v) as T; lra).
  assert (Sq : w * w = Rabs w * Rabs w) by (rewrite <- Rabs_mult, Rabs_pos_eq; [reflexivity|apply Rle_0_sqr]).
  assert (Sv : v * v = Rabs v * Rabs v) by (rewrite <- Rabs_mult, Rabs_pos_eq; [reflexivity|apply Rle_0_sqr]).
  pose proof (Rabs_pos w) as W0. pose proof (Rabs_pos v) as V0.
  assert (B : Rabs (w * w) <= huge).
  { rewrite Sq, Rabs_mult, !Rabs_Rabsolu. apply Rle_trans with (bpow radix2 500 * bpow radix2 500); [apply Rmult_le_compat; assumption|].
    rewrite <- bpow_plus. apply bpow_le. lia. }
  pose proof (mul_value x x w w V V (rnd_huge _ B)) as Vm. pose proof (value_val _ _ Vm) as Ev. split; [rewrite Ev; exact Vm|].
  split; [apply Rle_0_sqr|]. rewrite Ev. apply band_round; [apply Rle_0_sqr| |].
  - rewrite Sq, Sv. cbn [pow]. split.
    + pose proof (Rmult_le_compat ((1 - u) * Rabs v) (Rabs w) ((1 - u) * Rabs v) (Rabs w) ltac:(apply Rmult_le_pos; lra) ltac:(apply Rmult_le_pos; lra) L L). lra.
    + pose proof (Rmult_le_compat (Rabs w) ((1 + u) * Rabs v) (Rabs w) ((1 + u) * Rabs v) W0 W0 M M). lra.
  - apply rnd_relative. destruct Hz as [->|Hz]; [left; ring|right]. rewrite Rabs_mult.
    apply Rle_trans with (bpow radix2 (-500) * bpow radix2 (-500)); [rewrite <- bpow_plus; apply bpow_le; lia|].
    apply Rmult_le_compat; try apply bpow_ge_0; exact Hz.
Qed.
(** A quotient *)
Lemma cube_hi : (1 + u) ^ 3 <= 1 + 4 * u.
Proof. pose proof u_half as U. pose proof u_small. cbn [pow]. pose proof (Rmult_le_compat_r u u (/ 256) ltac:(lra) ltac:(lra)). pose proof (Rmult_le_compat_r (u * u) u (/ 256) ltac:(apply Rmult_le_pos; lra) ltac:(lra)). lra. Qed.
Lemma fourth_hi : (1 + u) ^ 4 <= 1 + 5 * u.
Proof.
  pose proof u_half as U. pose proof u_small. change ((1 + u) ^ 4) with ((1 + u) * (1 + u) ^ 3). pose proof (Rmult_le_compat_l (1 + u) _ _ ltac:(lra) cube_hi).
  assert (Q : (1 + u) ^ 3 <= 1 + 3 * u + u / 4).
  { cbn [pow]. pose proof (Rmult_le_compat_r u u (/ 256) ltac:(lra) ltac:(lra)). pose proof (Rmult_le_compat_r (u * u) u (/ 256) ltac:(apply Rmult_le_pos; lra) ltac:(lra)). lra. }
  pose proof (Rmult_le_compat_l (1 + u) _ _ ltac:(lra) Q). pose proof (Rmult_le_compat_r u u (/ 256) ltac:(lra) ltac:(lra)). lra.
Qed.
Lemma shrink_lo n : 1 - INR n * u <= (1 - u) ^ n.
Proof.
  pose proof u_half as U. induction n as [|n IH]; [cbn; lra|]. rewrite S_INR. cbn [pow]. pose proof (Rmult_le_compat_l (1 - u) _ _ ltac:(lra) IH).
  pose proof (Rmult_le_pos _ _ (pos_INR n) (Rmult_le_pos u u ltac:(lra) ltac:(lra))). lra.
Qed.

(** ** Pixels on a grid *)
Definition ordinary_value (x : b64) : Prop :=
  is_binary64 x /\ finite64 x /\ (fval x = 0 \/ bpow radix2 (-400) <= fval x <= bpow radix2 400).
Lemma on_grid r : generic_format radix2 fexp64 r -> r = 0 \/ bpow radix2 (-400) <= r -> exists k : Z, r = IZR k * bpow radix2 (-452).
Proof.
  intros F [->|Hr]; [exists 0%Z; ring|]. pose proof (bpow_gt_0 radix2 (-400)) as P0.
  assert (Hm : (-400 < mag radix2 r)%Z) by (apply mag_gt_bpow; rewrite Rabs_pos_eq; lra).
  assert (Hc : (-452 <= cexp radix2 fexp64 r)%Z) by (unfold cexp, SpecFloat.fexp, SpecFloat.emin; lia).
  exists (Ztrunc (scaled_mantissa radix2 fexp64 r) * 2 ^ (cexp radix2 fexp64 r + 452))%Z.
  rewrite F at 1. unfold F2R. cbn [Fnum Fexp]. rewrite mult_IZR, Rmult_assoc. f_equal.
  replace (IZR (2 ^ (cexp radix2 fexp64 r + 452))) with (bpow radix2 (cexp radix2 fexp64 r + 452)) by (rewrite <- IZR_Zpower by lia; reflexivity).
  rewrite <- bpow_plus. f_equal. lia.
Qed.
Lemma grid_gap x y : ordinary_value x -> ordinary_value y -> fval x - fval y = 0 \/ bpow radix2 (-452) <= Rabs (fval x - fval y).
Proof.
  intros (Vx & Fx & Ox) (Vy & Fy & Oy).
  destruct (on_grid (fval x)) as (k & Ek); [apply (value_fmt x); repeat split; assumption|tauto|].
  destruct (on_grid (fval y)) as (l & El); [apply (value_fmt y); repeat split; assumption|tauto|].
  rewrite Ek, El. replace (IZR k * bpow radix2 (-452) - IZR l * bpow radix2 (-452)) with (IZR (k - l) * bpow radix2 (-452)) by (rewrite minus_IZR; ring).
  destruct (Z.eq_dec (k - l) 0) as [->|Hz]; [left; ring|right].
  rewrite Rabs_mult, (Rabs_pos_eq (bpow _ _)) by apply bpow_ge_0. rewrite <- abs_IZR.
  pose proof (IZR_le 1 (Z.abs (k - l)) ltac:(lia)) as H1. pose proof (Rmult_le_compat_r _ _ _ (bpow_ge_0 radix2 (-452)) H1). lra.
Qed.
Lemma diff_square x y : ordinary_value x -> ordinary_value y ->
  let v := fval x - fval y in
  band 3 ((x -! y) *! (x -! y)) (v * v) /\ (v = 0 \/ bpow radix2 (-452) <= Rabs v) /\ Rabs v <= bpow radix2 401.
Proof.
  intros Ox Oy v. pose proof (grid_gap x y Ox Oy) as G. fold v in G. destruct Ox as (Vx & Fx & Ox), Oy as (Vy & Fy & Oy).
  pose proof (bpow_gt_0 radix2 (-400)) as P0. pose proof (bpow_gt_0 radix2 400) as P1.
  assert (Bv : Rabs v <= bpow radix2 401).
  { apply Rle_trans with (bpow radix2 400); [|apply bpow_le; lia]. apply Rabs_le. unfold v. lra. }
  split; [|split; [exact G|exact Bv]].
  assert (Hb : Rabs v <= huge) by (apply Rle_trans with (1 := Bv); apply bpow_le; lia).
  assert (V : is_value (x -! y) (rnd v)) by (apply (sub_value x y (fval x) (fval y)); [repeat split; assumption|repeat split; assumption|apply rnd_huge, Hb]).
  pose proof u_half as U. pose proof u_small as U'.
  assert (E : Rabs (rnd v - v) <= u * Rabs v).
  { apply rnd_relative. destruct G as [G|G]; [left; exact G|right]. apply Rle_trans with (2 := G). apply bpow_le. lia. }
  apply band_square with (rnd v); [exact V|reflexivity|exact E| |].
  - destruct G as [G|G]; [left; rewrite G; apply round_0; typeclasses eauto|right].
    pose proof (Rabs_triang_inv v (rnd v)) as T. rewrite Rabs_minus_sym in E.
    apply Rle_trans with (bpow radix2 (-1) * bpow radix2 (-452)); [rewrite <- bpow_plus; apply bpow_le; lia|]. change (bpow radix2 (-1)) with (/ 2).
    pose proof (Rabs_pos v). pose proof (Rmult_le_compat_r (Rabs v) u (/ 256) ltac:(lra) ltac:(lra)). lra.
  - pose proof (Rabs_triang_inv (rnd v) v) as T. pose proof (Rabs_pos v). pose proof (Rmult_le_compat_r (Rabs v) u (/ 256) ltac:(lra) ltac:(lra)).
    apply Rle_trans with (bpow radix2 1 * bpow radix2 401); [change (bpow radix2 1) with 2; lra|]. rewrite <- bpow_plus. apply bpow_le. lia.
Qed.

(** ** One pixel *)
Section Pixel.
  Variables a b c d x0 x1 x2 x3 : b64.
  Hypothesis Oa : ordinary_value a.
  Hypothesis Ob : ordinary_value b.
  Hypothesis Oc : ordinary_value c.
  Hypothesis Od : ordinary_value d.
  Hypothesis O0 : ordinary_value x0.
  Hypothesis O1 : ordinary_value x1.
  Hypothesis O2 : ordinary_value x2.
  Hypothesis O3 : ordinary_value x3.
  Let q := fval a - fval b.
  Let w := fval c - fval d.
  Let pb := nsqrt (((a -! b) *! (a -! b)) +! ((c -! d) *! (c -! d))).
  Lemma pb_band : band 3 pb (sqrt (q * q + w * w)) /\ (fval pb = 0 \/ bpow radix2 (-470) <= fval pb) /\ fval pb <= bpow radix2 420.
  Proof using Oa Ob Oc Od.
    destruct (diff_square a b Oa Ob) as (B1 & G1 & M1). destruct (diff_square c d Oc Od) as (B2 & G2 & M2). fold q in B1, G1, M1. fold w in B2, G2, M2.
    pose proof u_half as U. pose proof u_small as U'. pose proof cube_hi as C3.
    assert (Qb : q * q <= bpow radix2 802).
    { replace (q * q) with (Rabs q * Rabs q) by (rewrite <- Rabs_mult; apply Rabs_pos_eq, Rle_0_sqr). replace (bpow radix2 802) with (bpow radix2 401 * bpow radix2 401) by (rewrite <- bpow_plus; reflexivity).
      apply Rmult_le_compat; try apply Rabs_pos; assumption. }
    assert (Wb : w * w <= bpow radix2 802).
    { replace (w * w) with (Rabs w * Rabs w) by (rewrite <- Rabs_mult; apply Rabs_pos_eq, Rle_0_sqr). replace (bpow radix2 802) with (bpow radix2 401 * bpow radix2 401) by (rewrite <- bpow_plus; reflexivity).
      apply Rmult_le_compat; try apply Rabs_pos; assumption. }
    assert (Q0 : 0 <= q * q) by apply Rle_0_sqr. assert (W0 : 0 <= w * w) by apply Rle_0_sqr.
    assert (F1 : fval ((a -! b) *! (a -! b)) <= 2 * bpow radix2 802).
    { destruct B1 as (_ & _ & (_ & M)). pose proof (Rmult_le_compat ((1 + u) ^ 3) 2 (q * q) _ ltac:(apply pow_le; lra) Q0 ltac:(lra) Qb). lra. }
    assert (F2 : fval ((c -! d) *! (c -! d)) <= 2 * bpow radix2 802).
    { destruct B2 as (_ & _ & (_ & M)). pose proof (Rmult_le_compat ((1 + u) ^ 3) 2 (w * w) _ ltac:(apply pow_le; lra) W0 ltac:(lra) Wb). lra. }
    assert (F3 : 8 * bpow radix2 802 <= huge) by (change 8 with (bpow radix2 3); rewrite <- bpow_plus; apply bpow_le; lia).
    pose proof (bpow_gt_0 radix2 802) as P802.
    pose proof (band_add 3 _ _ _ _ B1 B2 ltac:(lra)) as B4. set (sum := ((a -! b) *! (a -! b)) +! ((c -! d) *! (c -! d))) in *.
    assert (Z : q * q + w * w = 0 \/ bpow radix2 (-904) <= q * q + w * w).
    { assert (Sq : forall v, bpow radix2 (-452) <= Rabs v -> bpow radix2 (-904) <= v * v).
      { intros v Hv. replace (v * v) with (Rabs v * Rabs v) by (rewrite <- Rabs_mult; apply Rabs_pos_eq, Rle_0_sqr).
        replace (bpow radix2 (-904)) with (bpow radix2 (-452) * bpow radix2 (-452)) by (rewrite <- bpow_plus; reflexivity). apply Rmult_le_compat; try apply bpow_ge_0; exact Hv. }
      destruct G1 as [->|G1]; [|right; pose proof (Sq q G1); lra]. destruct G2 as [->|G2]; [left; ring|right; pose proof (Sq w G2); lra]. }
    pose proof (shrink_lo 4) as L4. replace (INR 4) with 4 in L4 by (cbn; lra).
    assert (Zs : fval sum = 0 \/ bpow radix2 (-905) <= fval sum).
    { destruct B4 as (_ & _ & (L & M)). destruct Z as [Z|Z]; [left; rewrite Z in L, M; lra|right].
      replace (bpow radix2 (-905)) with (/ 2 * bpow radix2 (-904)) by (change (/ 2) with (bpow radix2 (-1)); rewrite <- bpow_plus; reflexivity).
      pose proof (bpow_gt_0 radix2 (-904)). pose proof (Rmult_le_compat (/ 2) ((1 - u) ^ 4) (bpow radix2 (-904)) _ ltac:(lra) ltac:(lra) ltac:(lra) Z). lra. }
    assert (B5 : band 3 (nsqrt sum) (sqrt (q * q + w * w))).
    { apply (band_sqrt 2); [exact B4|]. destruct Zs as [Zs|Zs]; [left; exact Zs|right]. apply Rle_trans with (2 := Zs). apply bpow_le. lia. }
    split; [exact B5|]. destruct B5 as (_ & _ & (L & M)). pose proof (shrink_lo 3) as L3. replace (INR 3) with 3 in L3 by (cbn; lra).
    pose proof (sqrt_pos (q * q + w * w)) as S0. split.
    - destruct Z as [Z|Z]; [left|right].
      + rewrite Z, sqrt_0 in L, M. unfold pb. fold sum. lra.
      + assert (Sl : bpow radix2 (-452) <= sqrt (q * q + w * w)).
        { replace (bpow radix2 (-452)) with (sqrt (bpow radix2 (-904))); [apply sqrt_le_1_alt, Z|].
          replace (bpow radix2 (-904)) with (bpow radix2 (-452) * bpow radix2 (-452)) by (rewrite <- bpow_plus; reflexivity). apply sqrt_square, bpow_ge_0. }
        apply Rle_trans with (/ 2 * bpow radix2 (-452)).
        * change (/ 2) with (bpow radix2 (-1)). rewrite <- bpow_plus. apply bpow_le. lia.
        * pose proof (bpow_gt_0 radix2 (-452)). pose proof (Rmult_le_compat (/ 2) ((1 - u) ^ 3) (bpow radix2 (-452)) _ ltac:(lra) ltac:(lra) ltac:(lra) Sl). unfold pb. fold sum. lra.
    - assert (Su : sqrt (q * q + w * w) <= bpow radix2 402).
      { replace (bpow radix2 402) with (sqrt (bpow radix2 804)).
        - apply sqrt_le_1_alt. replace (bpow radix2 804) with (4 * bpow radix2 802) by (change 4 with (bpow radix2 2); rewrite <- bpow_plus; reflexivity). lra.
        - replace (bpow radix2 804) with (bpow radix2 402 * bpow radix2 402) by (rewrite <- bpow_plus; reflexivity). apply sqrt_square, bpow_ge_0. }
      apply Rle_trans with (2 * bpow radix2 402).
      + pose proof (Rmult_le_compat ((1 + u) ^ 3) 2 _ _ ltac:(apply pow_le; lra) S0 ltac:(lra) Su). unfold pb. fold sum. lra.
      + change 2 with (bpow radix2 1). rewrite <- bpow_plus. apply bpow_le. lia.
  Qed.

  Let r := fval x0 + fval x1 + fval x2 + fval x3.
  Let i := nhalf *! (((x0 +! x1) +! x2) +! x3).
  Lemma i_band : band 4 i (1 / 2 * r) /\ (r = 0 \/ bpow radix2 (-400) <= r) /\ fval i <= bpow radix2 420.
  Proof using O0 O1 O2 O3.
    destruct O0 as (V0 & F0 & R0), O1 as (V1 & F1 & R1), O2 as (V2 & F2 & R2), O3 as (V3 & F3 & R3).
    pose proof (bpow_gt_0 radix2 (-400)) as P0. pose proof (bpow_gt_0 radix2 400) as P1. pose proof u_half as U. pose proof u_small as U'.
    assert (K : 100 * bpow radix2 400 <= huge).
    { apply Rle_trans with (128 * bpow radix2 400); [lra|]. change 128 with (bpow radix2 7). rewrite <- bpow_plus. apply bpow_le. lia. }
    assert (B0 : band 0 x0 (fval x0)) by (apply band_value; [repeat split; assumption|lra]).
    assert (B1 : band 0 x1 (fval x1)) by (apply band_value; [repeat split; assumption|lra]).
    assert (B2 : band 1 x2 (fval x2)) by (apply (band_mono 0); [apply band_value; [repeat split; assumption|lra]|lia]).
    assert (B3 : band 2 x3 (fval x3)) by (apply (band_mono 0); [apply band_value; [repeat split; assumption|lra]|lia]).
    pose proof cube_hi as C3. pose proof (growth_mono 1 3 ltac:(lia)). pose proof (growth_mono 2 3 ltac:(lia)).
    assert (H01 : fval x0 + fval x1 <= huge) by lra.
    pose proof (band_add 0 _ _ _ _ B0 B1 H01) as S1.
    assert (T1 : fval (x0 +! x1) <= 2 * (fval x0 + fval x1)) by (destruct S1 as (_ & _ & (_ & M)); pose proof (Rmult_le_compat_r (fval x0 + fval x1) ((1 + u) ^ 1) 2 ltac:(lra) ltac:(lra)); lra).
    assert (H12 : fval (x0 +! x1) + fval x2 <= huge) by lra.
    pose proof (band_add 1 _ _ _ _ S1 B2 H12) as S2.
    assert (T2 : fval ((x0 +! x1) +! x2) <= 2 * (fval x0 + fval x1 + fval x2)) by (destruct S2 as (_ & _ & (_ & M)); pose proof (Rmult_le_compat_r (fval x0 + fval x1 + fval x2) ((1 + u) ^ 2) 2 ltac:(lra) ltac:(lra)); lra).
    assert (H23 : fval ((x0 +! x1) +! x2) + fval x3 <= huge) by lra.
    pose proof (band_add 2 _ _ _ _ S2 B3 H23) as S3. set (s := ((x0 +! x1) +! x2) +! x3) in *. fold r in S3.
    assert (R : 0 <= r <= 4 * bpow radix2 400) by (unfold r; lra).
    assert (Z : r = 0 \/ bpow radix2 (-400) <= r) by (unfold r; lra).
    pose proof (band_pos _ _ _ S3) as P3. destruct S3 as (Vs & _ & (L & M)).
    pose proof (Rmult_le_compat_r r ((1 + u) ^ 3) 2 ltac:(lra) ltac:(lra)) as M'.
    assert (Hh : Rabs (1 / 2 * fval s) <= huge) by (rewrite Rabs_pos_eq; lra).
    pose proof (mul_value nhalf s _ _ half_value Vs (rnd_huge _ Hh)) as V. pose proof (value_val _ _ V) as Ev.
    assert (B : (1 - u) ^ 4 * (1 / 2 * r) <= rnd (1 / 2 * fval s) <= (1 + u) ^ 4 * (1 / 2 * r)).
    { apply band_round; [lra|lra|]. apply rnd_relative. destruct Z as [Z|Z].
      - left. rewrite Z in L, M. lra.
      - right. rewrite Rabs_pos_eq by lra. pose proof (shrink_lo 3) as L3. replace (INR 3) with 3 in L3 by (cbn; lra).
        pose proof (Rmult_le_compat (/ 2) ((1 - u) ^ 3) (bpow radix2 (-400)) r ltac:(lra) ltac:(lra) ltac:(lra) Z).
        apply Rle_trans with (/ 4 * bpow radix2 (-400)); [change (/ 4) with (bpow radix2 (-2)); rewrite <- bpow_plus; apply bpow_le; lia|lra]. }
    split; [|split; [exact Z|]].
    - split; [unfold i; fold s; rewrite Ev; exact V|]. split; [lra|]. unfold i. fold s. rewrite Ev. exact B.
    - unfold i. fold s. rewrite Ev. pose proof fourth_hi as C4.
      pose proof (Rmult_le_compat_r (1 / 2 * r) ((1 + u) ^ 4) 2 ltac:(lra) ltac:(lra)).
      apply Rle_trans with (4 * bpow radix2 400); [lra|]. change 4 with (bpow radix2 2). rewrite <- bpow_plus. apply bpow_le. lia.
  Qed.
  Lemma pb_within : FloatSpec.within (bpow radix2 (-51)) pb (sqrt (q * q + w * w)).
  Proof using Oa Ob Oc Od.
    destruct pb_band as (((V & F & _) & S0 & (L & M)) & _). split; [exact V|]. split; [exact F|]. rewrite (Rabs_pos_eq (sqrt _)) by exact S0.
    pose proof cube_hi as C3. pose proof (shrink_lo 3) as L3. replace (INR 3) with 3 in L3 by (cbn; lra). pose proof u_half as U.
    replace (bpow radix2 (-51)) with (4 * u) by (change 4 with (bpow radix2 2); rewrite <- bpow_plus; reflexivity).
    pose proof (Rmult_le_compat_r _ _ _ S0 C3). pose proof (Rmult_le_compat_r _ _ _ S0 L3). pose proof (Rmult_le_pos u _ ltac:(lra) S0). apply Rabs_le. lra.
  Qed.
  Lemma dolp_within : FloatSpec.within (bpow radix2 (-49)) (if negb (neqb i n0) then pb /! i else n0)
    (if negb (neqb (1 / 2 * r) (@n0 R Num_R)) then sqrt (q * q + w * w) / (1 / 2 * r) else 0).
  Proof.
    destruct pb_band as (Bp & Gp & Mp). destruct i_band as (Bi & Gi & Mi). set (P := sqrt (q * q + w * w)) in *. set (I := 1 / 2 * r) in *.
    pose proof (band_pos _ _ _ Bp) as P0. pose proof (band_pos _ _ _ Bi) as I0. pose proof u_half as U. pose proof u_small as U'.
    destruct Bp as (Vp & PP & (Lp & Up)), Bi as (Vi & II & (Li & Ui)).
    pose proof cube_hi as C3. pose proof fourth_hi as C4. pose proof (shrink_lo 3) as L3. replace (INR 3) with 3 in L3 by (cbn; lra).
    pose proof (shrink_lo 4) as L4. replace (INR 4) with 4 in L4 by (cbn; lra).
    pose proof (neqb_zero i _ Vi) as Z1.
    destruct Gi as [Gi|Gi].
    - assert (EI : I = 0) by (unfold I; lra).
      assert (Ei : fval i = 0) by (rewrite EI in Li, Ui; lra).
      apply Z1 in Ei. rewrite Ei. cbn [negb]. assert (Er : neqb I (@n0 R Num_R) = true) by (rewrite EI; cbn; unfold Reqb; destruct (Req_EM_T 0 0); congruence).
      rewrite Er. cbn [negb]. split; [reflexivity|]. split; [exact Logic.I|]. cbn [fval]. rewrite Rminus_eq_0, Rabs_R0. lra.
    - pose proof (bpow_gt_0 radix2 (-400)) as P400.
      assert (Ipos : 0 < I) by (unfold I; lra).
      assert (ipos : / 4 * bpow radix2 (-400) <= fval i).
      { pose proof (Rmult_le_compat (/ 2) ((1 - u) ^ 4) (/ 2 * bpow radix2 (-400)) I ltac:(lra) ltac:(lra) ltac:(lra) ltac:(unfold I; lra)). lra. }
      assert (Ei : neqb i n0 = false) by (destruct (neqb i n0); [destruct Z1 as (Z1 & _); specialize (Z1 eq_refl); lra|reflexivity]).
      assert (Er : neqb I (@n0 R Num_R) = false) by (cbn; unfold Reqb; destruct (Req_EM_T I 0) as [E|E]; [lra|reflexivity]).
      rewrite Ei, Er. cbn [negb]. set (v := fval pb / fval i). set (D := P / I).
      assert (Hi : 0 < fval i) by lra.
      assert (D0 : 0 <= D) by (apply Rmult_le_pos; [exact PP|left; apply Rinv_0_lt_compat; exact Ipos]).
      assert (ED : D * I = P) by (unfold D; field; lra). assert (Ev : v * fval i = fval pb) by (unfold v; field; lra).
      assert (v0 : 0 <= v) by (apply Rmult_le_pos; [exact P0|left; apply Rinv_0_lt_compat; exact Hi]).
      pose proof (Rmult_le_pos u u ltac:(lra) ltac:(lra)) as UU. pose proof (Rmult_le_compat_r u u (/ 256) ltac:(lra) ltac:(lra)) as UU'.
      assert (Vhi : v <= (1 + 9 * u) * D).
      { apply Rmult_le_reg_r with (fval i); [exact Hi|]. rewrite Ev. apply Rle_trans with (1 := Up).
        assert (Li' : (1 - 4 * u) * I <= fval i) by (pose proof (Rmult_le_compat_r I _ _ II L4); lra).
        pose proof (Rmult_le_compat_l ((1 + 9 * u) * D) _ _ ltac:(apply Rmult_le_pos; lra) Li') as Q1.
        replace ((1 + 9 * u) * D * ((1 - 4 * u) * I)) with ((1 + 5 * u - 36 * (u * u)) * P) in Q1 by (rewrite <- ED; ring).
        pose proof (Rmult_le_compat_r P _ _ PP C3) as Q2.
        assert (Q3 : (1 + 4 * u) * P <= (1 + 5 * u - 36 * (u * u)) * P) by (apply Rmult_le_compat_r; lra). lra. }
      assert (Vlo : (1 - 8 * u) * D <= v).
      { apply Rmult_le_reg_r with (fval i); [exact Hi|]. rewrite Ev. apply Rle_trans with (2 := Lp).
        assert (Ui' : fval i <= (1 + 5 * u) * I) by (pose proof (Rmult_le_compat_r I _ _ II C4); lra).
        pose proof (Rmult_le_compat_l ((1 - 8 * u) * D) _ _ ltac:(apply Rmult_le_pos; lra) Ui') as Q1.
        replace ((1 - 8 * u) * D * ((1 + 5 * u) * I)) with ((1 - 3 * u - 40 * (u * u)) * P) in Q1 by (rewrite <- ED; ring).
        pose proof (Rmult_le_compat_r P _ _ PP L3) as Q2.
        assert (Q3 : (1 - 3 * u - 40 * (u * u)) * P <= (1 - 3 * u) * P) by (apply Rmult_le_compat_r; lra). lra. }
      assert (Hv : Rabs v <= huge).
      { rewrite Rabs_pos_eq by exact v0. apply Rmult_le_reg_r with (fval i); [exact Hi|]. rewrite Ev. apply Rle_trans with (1 := Mp).
        apply Rle_trans with (huge * (/ 4 * bpow radix2 (-400))); [|apply Rmult_le_compat_l; [apply bpow_ge_0|exact ipos]].
        change (/ 4) with (bpow radix2 (-2)). rewrite <- !bpow_plus. apply bpow_le. lia. }
      assert (Er' : Rabs (rnd v - v) <= u * Rabs v).
      { apply rnd_relative. destruct Gp as [Gp|Gp]; [left; unfold v; rewrite Gp; field; lra|right]. rewrite Rabs_pos_eq by exact v0.
        apply Rmult_le_reg_r with (fval i); [exact Hi|]. rewrite Ev. apply Rle_trans with (2 := Gp).
        apply Rle_trans with (bpow radix2 (-1022) * bpow radix2 420); [apply Rmult_le_compat_l; [apply bpow_ge_0|exact Mi]|]. rewrite <- bpow_plus. apply bpow_le. lia. }
      destruct (div_value pb i _ _ Vp Vi ltac:(lra) (rnd_huge _ Hv)) as (V1 & V2 & V3). split; [exact V1|]. split; [exact V2|]. fold v in V3. rewrite V3.
      rewrite (Rabs_pos_eq D) by exact D0. rewrite (Rabs_pos_eq v) in Er' by exact v0. apply Rabs_le_inv in Er'.
      replace (bpow radix2 (-49)) with (16 * u) by (change 16 with (bpow radix2 4); rewrite <- bpow_plus; reflexivity).
      pose proof (Rmult_le_pos u D ltac:(lra) D0) as UD. pose proof (Rmult_le_compat_l u _ _ ltac:(lra) Vhi) as Q1.
      pose proof (Rmult_le_compat_r D _ _ D0 UU') as Q2. apply Rabs_le. lra.
  Qed.
End Pixel.

(** ** Raw images *)
Lemma ordinary_sample d i y x : ordinary d -> mosaic d -> (0 <= i < 4)%Z -> (0 <= y < rows d / 2)%Z -> (0 <= x < cols d / 2)%Z ->
  ordinary_value (sample d i y x) /\ sample (values d) i y x = fval (sample d i y x).
Proof.
  intros Hd Hm Hi Hy Hx. split; [|reflexivity]. unfold sample. unfold ordinary in Hd. rewrite !power2 in Hd. apply Hd.
  - destruct Hm as (_ & _ & M1 & _). pose proof (Z.div_mod (rows d) 2 ltac:(lia)).
    assert (0 <= i / 2 < 2)%Z by (split; [apply Z.div_pos; lia|apply Z.div_lt_upper_bound; lia]). lia.
  - destruct Hm as (_ & _ & _ & M2). pose proof (Z.div_mod (cols d) 2 ltac:(lia)). pose proof (Z.mod_pos_bound i 2 ltac:(lia)). lia.
Qed.
Lemma c104_raw d dic s : ordinary d -> mosaic d -> data_stokes dic d = Ok s ->
  exists r, data_stokes dic (values d) = Ok r /\
    forall y x, (0 <= y < rows d / 2)%Z -> (0 <= x < cols d / 2)%Z ->
      FloatSpec.within (powerRZ 2 (-51)) (cell (pB s) y x) (cell (pB r) y x) /\
      FloatSpec.within (powerRZ 2 (-49)) (cell (DoLP s) y x) (cell (DoLP r) y x).
Proof.
  rewrite !power2. intros Hd Hm E. unfold data_stokes in E. apply bind_ok in E as (q & Eq & Es).
  destruct (c01_split (values d)) as (S1 & _); [apply Hm..|]. destruct (S1 Hm) as (q' & Eq' & Q').
  destruct (c01_split d) as (S2 & _); [apply Hm..|]. destruct (S2 Hm) as (q2' & Eq2 & Q). assert (q2' = q) by congruence. subst q2'.
  destruct (theo_ok dic q s Es) as (i & j & k & l & Hi & Hj & Hk & Hl & -> & G).
  eexists. split; [unfold data_stokes; rewrite Eq'; cbn [bind]; apply G|]. intros y x Hy Hx.
  assert (Va : forall p, (0 <= p < 4)%Z -> ordinary_value (cell (qnth q p) y x) /\ cell (qnth q' p) y x = fval (cell (qnth q p) y x)).
  { intros p Hp. destruct (Q p Hp) as (_ & _ & A). destruct (Q' p Hp) as (_ & _ & A'). rewrite A, A' by assumption. apply ordinary_sample; assumption. }
  destruct (Va i Hi) as (Oi & Ei). destruct (Va j Hj) as (Oj & Ej). destruct (Va k Hk) as (Ok & Ek). destruct (Va l Hl) as (Ol & El).
  destruct (Va 0%Z ltac:(lia)) as (O0 & E0). destruct (Va 1%Z ltac:(lia)) as (O1 & E1). destruct (Va 2%Z ltac:(lia)) as (O2 & E2). destruct (Va 3%Z ltac:(lia)) as (O3 & E3).
  pose proof (pb_within _ _ _ _ Oi Oj Ok Ol) as W1. pose proof (dolp_within _ _ _ _ _ _ _ _ Oi Oj Ok Ol O0 O1 O2 O3) as W2.
  rewrite <- Ei, <- Ej, <- Ek, <- El in W1, W2. rewrite <- E0, <- E1, <- E2, <- E3 in W2. split; [exact W1|exact W2].
Qed.

(** ** After binning and demosaicing *)
Lemma norm_triangle a b c d : sqrt (a * a + b * b) <= sqrt (c * c + d * d) + (Rabs (a - c) + Rabs (b - d)).
Proof.
  set (N := sqrt (c * c + d * d)). set (e := Rabs (a - c)). set (f := Rabs (b - d)).
  assert (N0 : 0 <= N) by apply sqrt_pos. assert (E0 : 0 <= e) by apply Rabs_pos. assert (F0 : 0 <= f) by apply Rabs_pos.
  pose proof (Rle_0_sqr c) as C0. pose proof (Rle_0_sqr d) as D0. unfold Rsqr in *.
  assert (NN : N * N = c * c + d * d) by (apply sqrt_def; lra).
  assert (Cn : Rabs c <= N) by (unfold N; rewrite <- sqrt_Rsqr_abs; apply sqrt_le_1_alt; unfold Rsqr; lra).
  assert (Dn : Rabs d <= N) by (unfold N; rewrite <- sqrt_Rsqr_abs; apply sqrt_le_1_alt; unfold Rsqr; lra).
  rewrite <- (sqrt_square (N + (e + f))) by lra. apply sqrt_le_1_alt.
  assert (P : forall g h t, Rabs h <= N -> t = Rabs (g - h) -> g * g <= h * h + 2 * N * t + t * t).
  { intros g h t Hh ->. set (t := Rabs (g - h)). assert (T0 : 0 <= t) by apply Rabs_pos.
    assert (TT : t * t = (g - h) * (g - h)) by (unfold t; rewrite <- Rabs_mult; apply Rabs_pos_eq, Rle_0_sqr).
    assert (HT : h * (g - h) <= N * t).
    { apply Rle_trans with (Rabs (h * (g - h))); [apply Rle_abs|]. rewrite Rabs_mult. apply Rmult_le_compat_r; [exact T0|exact Hh]. }
    lra. }
  pose proof (P a c e Cn eq_refl). pose proof (P b d f Dn eq_refl). pose proof (Rmult_le_pos e f E0 F0). lra.
Qed.
Lemma sqrt_between S N e z : 0 <= e <= / 4 -> 0 <= z -> 0 <= N -> (1 - e) * (N * N) - 4 * (z * z) <= S <= (1 + e) * (N * N) + 4 * (z * z) -> 0 <= S ->
  (1 - e) * N - 2 * z <= sqrt S <= (1 + e) * N + 2 * z.
Proof.
  intros He Hz HN (L & M) S0. pose proof (Rmult_le_pos N N HN HN) as NN. pose proof (Rmult_le_pos e _ ltac:(lra) NN) as EN.
  pose proof (Rmult_le_pos e (e * (N * N)) ltac:(lra) EN) as EEN. pose proof (Rmult_le_pos N z HN Hz) as NZ. pose proof (Rmult_le_pos z z Hz Hz) as ZZ.
  pose proof (Rmult_le_compat_r (e * (N * N)) e (/ 4) EN ltac:(lra)) as EE. split.
  - destruct (Rle_or_lt ((1 - e) * N - 2 * z) 0) as [Hn|Hn]; [pose proof (sqrt_pos S); lra|].
    rewrite <- (sqrt_square ((1 - e) * N - 2 * z)) by lra. apply sqrt_le_1_alt. apply Rle_trans with (2 := L).
    pose proof (Rmult_le_pos z ((1 - e) * N - 2 * z) Hz ltac:(lra)) as K. lra.
  - rewrite <- (sqrt_square ((1 + e) * N + 2 * z)) by (pose proof (Rmult_le_pos e N ltac:(lra) HN); lra). apply sqrt_le_1_alt. apply Rle_trans with (1 := M).
    pose proof (Rmult_le_pos e (N * z) ltac:(lra) NZ). lra.
Qed.
Notation z530 := (bpow radix2 (-530)).
Lemma tiny : eta <= z530 * z530 /\ eta <= z530 /\ 0 < eta /\ 0 < z530.
Proof.
  split; [rewrite <- bpow_plus; apply bpow_le; lia|]. split; [apply bpow_le; lia|]. split; apply bpow_gt_0.
Qed.
Lemma pb_computed x y : is_value x (fval x) -> is_value y (fval y) -> Rabs (fval x) <= bpow radix2 460 -> Rabs (fval y) <= bpow radix2 460 ->
  let p := nsqrt ((x *! x) +! (y *! y)) in let N := sqrt (fval x * fval x + fval y * fval y) in
  is_value p (fval p) /\ Rabs (fval p - N) <= 5 * u * N + 4 * z530.
Proof.
  intros Vx Vy Bx By p N. set (v := fval x) in *. set (w := fval y) in *. pose proof u_half as U. pose proof u_small as U'. pose proof tiny as (T1 & T2 & T3 & T4).
  assert (Sq : forall a, a * a = Rabs a * Rabs a) by (intros a; rewrite <- Rabs_mult; symmetry; apply Rabs_pos_eq, Rle_0_sqr).
  assert (Bb : forall a, Rabs a <= bpow radix2 460 -> 0 <= a * a <= bpow radix2 920).
  { intros a Ha. split; [apply Rle_0_sqr|]. rewrite Sq. replace (bpow radix2 920) with (bpow radix2 460 * bpow radix2 460) by (rewrite <- bpow_plus; reflexivity). apply Rmult_le_compat; try apply Rabs_pos; exact Ha. }
  pose proof (Bb v Bx) as Bv. pose proof (Bb w By) as Bw. clear Bb.
  assert (K : 100 * bpow radix2 920 <= huge).
  { pose proof (bpow_gt_0 radix2 920). apply Rle_trans with (128 * bpow radix2 920); [lra|]. change 128 with (bpow radix2 7). rewrite <- bpow_plus. apply bpow_le. lia. }
  assert (Hv : Rabs (v * v) <= huge) by (rewrite Rabs_pos_eq; lra). assert (Hw : Rabs (w * w) <= huge) by (rewrite Rabs_pos_eq; lra).
  pose proof (mul_value x x v v Vx Vx (rnd_huge _ Hv)) as V1. pose proof (mul_value y y w w Vy Vy (rnd_huge _ Hw)) as V2.
  set (A := rnd (v * v)) in *. set (B := rnd (w * w)) in *.
  assert (EA : Rabs (A - v * v) <= u * (v * v) + eta) by (pose proof (rnd_err (v * v)) as E; rewrite (Rabs_pos_eq (v * v)) in E by lra; exact E).
  assert (EB : Rabs (B - w * w) <= u * (w * w) + eta) by (pose proof (rnd_err (w * w)) as E; rewrite (Rabs_pos_eq (w * w)) in E by lra; exact E).
  assert (A0 : 0 <= A) by (unfold A; rewrite <- (round_0 radix2 fexp64 ZnearestE); apply rnd_mono; lra).
  assert (B0 : 0 <= B) by (unfold B; rewrite <- (round_0 radix2 fexp64 ZnearestE); apply rnd_mono; lra).
  apply Rabs_le_inv in EA, EB. pose proof (Rmult_le_compat_r (v * v) u (/ 256) ltac:(lra) ltac:(lra)) as UV. pose proof (Rmult_le_compat_r (w * w) u (/ 256) ltac:(lra) ltac:(lra)) as UW.
  assert (T5 : eta <= bpow radix2 920) by (apply bpow_le; lia).
  assert (HAB : Rabs (A + B) <= huge) by (rewrite Rabs_pos_eq; lra).
  pose proof (add_value _ _ A B V1 V2 (rnd_huge _ HAB)) as V3. set (S := rnd (A + B)) in *.
  assert (ES : Rabs (S - (A + B)) <= u * (A + B)).
  { pose proof (rnd_sum A B (value_fmt _ _ V1) (value_fmt _ _ V2)) as E. rewrite (Rabs_pos_eq (A + B)) in E by lra. exact E. }
  assert (S0 : 0 <= S) by (unfold S; rewrite <- (round_0 radix2 fexp64 ZnearestE); apply rnd_mono; lra).
  apply Rabs_le_inv in ES. assert (N0 : 0 <= N) by apply sqrt_pos. assert (NN : N * N = v * v + w * w) by (apply sqrt_def; lra).
  pose proof (Rmult_le_pos u (N * N) ltac:(lra) ltac:(lra)) as UN. pose proof (Rmult_le_compat_r (u * (N * N)) u (/ 256) UN ltac:(lra)) as UUN.
  pose proof (Rmult_le_pos u eta ltac:(lra) ltac:(lra)) as UE. pose proof (Rmult_le_compat_r eta u (/ 256) ltac:(lra) ltac:(lra)) as UE'.
  assert (AB1 : A + B <= (1 + u) * (N * N) + 2 * eta) by (rewrite NN; lra). assert (AB2 : (1 - u) * (N * N) - 2 * eta <= A + B) by (rewrite NN; lra).
  pose proof (Rmult_le_compat_l (1 + u) _ _ ltac:(lra) AB1) as Q1. pose proof (Rmult_le_compat_l (1 - u) _ _ ltac:(lra) AB2) as Q2.
  assert (SB : (1 - 3 * u) * (N * N) - 4 * (z530 * z530) <= S <= (1 + 3 * u) * (N * N) + 4 * (z530 * z530)) by lra.
  pose proof (sqrt_between S N (3 * u) z530 ltac:(lra) ltac:(lra) N0 SB S0) as (L & M).
  pose proof (sqrt_value _ _ V3 S0) as V4. pose proof (value_val _ _ V4) as Ev. change (fval p = rnd (sqrt S)) in Ev.
  split; [rewrite Ev; exact V4|]. rewrite Ev. pose proof (rnd_err (sqrt S)) as E. pose proof (sqrt_pos S) as R0. rewrite (Rabs_pos_eq (sqrt S)) in E by exact R0.
  apply Rabs_le_inv in E. pose proof (Rmult_le_compat_l u _ _ ltac:(lra) M) as Q3. pose proof (Rmult_le_pos u N ltac:(lra) N0) as UN0.
  pose proof (Rmult_le_compat_r (u * N) u (/ 256) UN0 ltac:(lra)) as UUN0. pose proof (Rmult_le_compat_r z530 u (/ 256) ltac:(lra) ltac:(lra)) as UZ.
  apply Rabs_le. lra.
Qed.

Section Demosaiced.
  Variables (i x y : b64) (I q w G e : R).
  Hypothesis Vi : is_value i (fval i).
  Hypothesis Vx : is_value x (fval x).
  Hypothesis Vy : is_value y (fval y).
  Hypothesis Ei : Rabs (fval i - I) <= G * I + e.
  Hypothesis Ex : Rabs (fval x - q) <= G * I + e.
  Hypothesis Ey : Rabs (fval y - w) <= G * I + e.
  Hypothesis Hq : Rabs q <= 2 * I.
  Hypothesis Hw : Rabs w <= 2 * I.
  Hypothesis HI : bpow radix2 (-400) <= I <= bpow radix2 450.
  Hypothesis HG : 32 * u <= G <= bpow radix2 (-10).
  Hypothesis He : 0 <= e <= bpow radix2 (-1000).
  Let p := nsqrt ((x *! x) +! (y *! y)).
  Let P := sqrt (q * q + w * w).
  Lemma small_parts : 0 < I /\ 4 * z530 <= u * I /\ e <= u * I /\ eta <= u /\ bpow radix2 (-10) <= / 1000.
  Proof using HI He.
    pose proof (bpow_gt_0 radix2 (-400)) as P0. split; [lra|].
    assert (K : bpow radix2 (-453) <= u * I).
    { apply Rle_trans with (u * bpow radix2 (-400)); [rewrite <- bpow_plus; apply bpow_le; lia|]. apply Rmult_le_compat_l; [apply bpow_ge_0|apply HI]. }
    split; [apply Rle_trans with (2 := K); change 4 with (bpow radix2 2); rewrite <- bpow_plus; apply bpow_le; lia|].
    split; [apply Rle_trans with (1 := proj2 He); apply Rle_trans with (2 := K); apply bpow_le; lia|].
    split; [apply bpow_le; lia|]. cbn. lra.
  Qed.
  Lemma pb_off : is_value p (fval p) /\ Rabs (fval p - P) <= 3 * G * I /\ P <= 3 * I.
  Proof using Vx Vy Ex Ey Hq Hw HI HG He.
    destruct small_parts as (I0 & Z1 & Z2 & Z3 & Z4). pose proof u_half as U. pose proof u_small as U'. pose proof tiny as (T1 & T2 & T3 & T4).
    assert (GI : G * I <= / 1000 * I) by (apply Rmult_le_compat_r; lra).
    assert (UI : u * I <= / 32 * (G * I)) by (pose proof (Rmult_le_compat_r I _ _ (Rlt_le _ _ I0) (proj1 HG)); lra).
    assert (Bx : Rabs (fval x) <= bpow radix2 460).
    { pose proof (Rabs_triang (fval x - q) q) as T. replace (fval x - q + q) with (fval x) in T by ring.
      apply Rle_trans with (4 * bpow radix2 450); [lra|]. change 4 with (bpow radix2 2). rewrite <- bpow_plus. apply bpow_le. lia. }
    assert (By : Rabs (fval y) <= bpow radix2 460).
    { pose proof (Rabs_triang (fval y - w) w) as T. replace (fval y - w + w) with (fval y) in T by ring.
      apply Rle_trans with (4 * bpow radix2 450); [lra|]. change 4 with (bpow radix2 2). rewrite <- bpow_plus. apply bpow_le. lia. }
    destruct (pb_computed x y Vx Vy Bx By) as (Vp & E). fold p in Vp, E. set (N := sqrt (fval x * fval x + fval y * fval y)) in *.
    pose proof (norm_triangle (fval x) (fval y) q w) as N1. fold N P in N1.
    pose proof (norm_triangle q w (fval x) (fval y)) as N2. fold N P in N2. rewrite (Rabs_minus_sym q), (Rabs_minus_sym w) in N2.
    assert (P3 : P <= 3 * I).
    { unfold P. rewrite <- (sqrt_square (3 * I)) by lra. apply sqrt_le_1_alt.
      assert (Sq : forall a, Rabs a <= 2 * I -> a * a <= 4 * (I * I)).
      { intros a Ha. replace (a * a) with (Rabs a * Rabs a) by (rewrite <- Rabs_mult; apply Rabs_pos_eq, Rle_0_sqr).
        pose proof (Rmult_le_compat (Rabs a) (2 * I) (Rabs a) (2 * I) (Rabs_pos a) (Rabs_pos a) Ha Ha). lra. }
      pose proof (Sq q Hq). pose proof (Sq w Hw). pose proof (Rmult_le_pos I I ltac:(lra) ltac:(lra)). lra. }
    split; [exact Vp|]. split; [|exact P3].
    assert (N4 : N <= 4 * I) by lra. pose proof (Rmult_le_compat_l u _ _ ltac:(lra) N4) as UN.
    replace (fval p - P) with ((fval p - N) + (N - P)) by ring. apply Rle_trans with (1 := Rabs_triang _ _).
    assert (NP : Rabs (N - P) <= 2 * (G * I + e)) by (apply Rabs_le; lra). lra.
  Qed.
  Lemma dolp_off : off_by (16 * G) (if negb (neqb i n0) then p /! i else n0) (if negb (neqb I (@n0 R Num_R)) then P / I else 0).
  Proof.
    destruct small_parts as (I0 & Z1 & Z2 & Z3 & Z4). pose proof u_half as U. pose proof u_small as U'. destruct pb_off as (Vp & Ep & P3).
    assert (GI : G * I <= / 1000 * I) by (apply Rmult_le_compat_r; lra).
    assert (UI : u * I <= / 32 * (G * I)) by (pose proof (Rmult_le_compat_r I _ _ (Rlt_le _ _ I0) (proj1 HG)); lra).
    apply Rabs_le_inv in Ei.
    assert (Ilo : 99 / 100 * I <= fval i) by lra. assert (i0 : 0 < fval i) by lra.
    assert (Nz : neqb i n0 = false) by (destruct (neqb i n0) eqn:En; [apply (neqb_zero i _ Vi) in En; lra|reflexivity]).
    assert (Nr : neqb I (@n0 R Num_R) = false) by (cbn; unfold Reqb; destruct (Req_EM_T I 0) as [E|E]; [lra|reflexivity]).
    rewrite Nz, Nr. cbn [negb]. set (v := fval p / fval i). set (D := P / I).
    assert (P0 : 0 <= P) by apply sqrt_pos.
    assert (ED : D * I = P) by (unfold D; field; lra). assert (Ev : v * fval i = fval p) by (unfold v; field; lra).
    assert (D0 : 0 <= D) by (apply Rmult_le_pos; [exact P0|left; apply Rinv_0_lt_compat; exact I0]).
    assert (D3 : D <= 3) by (apply Rmult_le_reg_r with I; [exact I0|lra]).
    apply Rabs_le_inv in Ep.
    assert (DI : Rabs (D * (I - fval i)) <= 3 * (G * I + e)).
    { rewrite Rabs_mult, (Rabs_pos_eq D) by exact D0. apply Rmult_le_compat; [exact D0|apply Rabs_pos|exact D3|apply Rabs_le; lra]. }
    apply Rabs_le_inv in DI.
    assert (G0 : 0 <= G) by lra. pose proof (Rmult_le_compat_l (8 * G) _ _ ltac:(lra) Ilo) as GIlo.
    assert (VD : Rabs (v - D) <= 8 * G).
    { apply Rmult_le_reg_r with (fval i); [exact i0|]. rewrite <- (Rabs_pos_eq (fval i)) at 1 by lra. rewrite <- Rabs_mult.
      replace ((v - D) * fval i) with ((fval p - P) + D * (I - fval i)) by (rewrite <- Ev; rewrite <- ED at 1; ring).
      apply Rabs_le. lra. }
    assert (V4 : Rabs v <= 4) by (pose proof (Rabs_triang (v - D) D) as T; replace (v - D + D) with v in T by ring; rewrite (Rabs_pos_eq D) in T by exact D0; lra).
    assert (Hv : Rabs v <= huge) by (apply Rle_trans with (1 := V4); change 4 with (bpow radix2 2); apply bpow_le; lia).
    destruct (div_value p i _ _ Vp Vi ltac:(lra) (rnd_huge _ Hv)) as (V1 & V2 & V3). split; [exact V1|]. split; [exact V2|]. fold v in V3. rewrite V3.
    pose proof (rnd_err v) as Er. pose proof (Rmult_le_compat_l u _ _ ltac:(lra) V4) as UV.
    replace (rnd v - D) with ((rnd v - v) + (v - D)) by ring. apply Rle_trans with (1 := Rabs_triang _ _). lra.
  Qed.
End Demosaiced.

Lemma chain_pol n t d r dic o s : nimg n 0 t d r r -> mosaic r -> 4 * INR (n + 8) * u <= bpow radix2 (-10) -> 0 <= t <= bpow radix2 445 ->
  (let* q := demosaic d o in theo_stokes dic q) = Ok s ->
  exists k, (let* q := demosaic r o in theo_stokes dic q) = Ok k /\
    forall y x, (0 <= y < rows r)%Z -> (0 <= x < cols r)%Z -> bpow radix2 (-400) <= cell (sI k) y x ->
      off_by (3 * (4 * INR (n + 8) * u) * cell (sI k) y x) (cell (pB s) y x) (cell (pB k) y x) /\
      off_by (16 * (4 * INR (n + 8) * u)) (cell (DoLP s) y x) (cell (DoLP k) y x).
Proof.
  intros F Hm Hn Ht E. apply bind_ok in E as (q & Eq & Es). set (G := 4 * INR (n + 8) * u) in *.
  pose proof (bpow_gt_0 radix2 (-53)) as U. pose proof (bpow_gt_0 radix2 (-1075)) as Eta.
  assert (H10 : bpow radix2 (-10) <= / 1000) by (cbn; lra).
  assert (Hn' : INR (n + 4 + 4) * u <= / 2) by (replace (n + 4 + 4)%nat with (n + 8)%nat by lia; unfold G in Hn; lra).
  assert (F4 : INR (n + 4) * u <= / 2) by (apply (fewer (n + 4) 4); [exact Hn'|lra]).
  assert (T1 : 100 * bpow radix2 445 <= huge).
  { pose proof (bpow_gt_0 radix2 445). apply Rle_trans with (128 * bpow radix2 445); [lra|]. change 128 with (bpow radix2 7). rewrite <- bpow_plus. apply bpow_le. lia. }
  assert (T2 : eta <= bpow radix2 445) by (apply bpow_le; lia).
  assert (T8 : 8 * t <= huge) by lra.
  destruct (demosaic_nquad n t d r r o q F Hm F4 T8 Eq) as (q' & qm & Eq' & Em & Nq & Sh). assert (qm = q') by congruence. subst qm. clear Em.
  destruct (theo_near (n + 4) eta t dic q q' q' s Nq) as (k & m & Ek & Em & Kr & Kc & NI & NQ); [|exact Hn'|lra|exact Es|].
  { intros p Hp. destruct (Sh p Hp) as (S1 & S2). destruct (Sh 0%Z ltac:(lia)) as (S3 & S4). change (q0 q') with (qnth q' 0). rewrite S1, S2, S3, S4. split; reflexivity. }
  assert (m = k) by congruence. subst m. clear Em. exists k. rewrite Eq'. cbn [bind]. split; [exact Ek|]. intros y x Hy Hx HI.
  destruct (Sh 0%Z ltac:(lia)) as (S3 & S4). change (qnth q' 0) with (q0 q') in S3, S4.
  assert (Hy' : (0 <= y < rows (sI k))%Z) by (rewrite Kr, S3; exact Hy). assert (Hx' : (0 <= x < cols (sI k))%Z) by (rewrite Kc, S4; exact Hx).
  destruct NI as (_ & _ & _ & _ & NI). destruct (NI y x Hy' Hx') as (NI' & It). clear NI.
  destruct (NQ (sQ s) (sQ k) ltac:(left; split; reflexivity)) as (_ & _ & _ & _ & NQ1). specialize (NQ1 y x Hy' Hx').
  destruct (NQ (sU s) (sU k) ltac:(right; split; reflexivity)) as (_ & _ & _ & _ & NU1). specialize (NU1 y x Hy' Hx'). clear NQ.
  set (I := cell (sI k) y x) in *. pose proof (bpow_gt_0 radix2 (-400)) as P400. assert (I0 : 0 < I) by lra.
  pose proof (growth_bound _ Hn') as G1. pose proof (growth_mono (S (n + 4)) (n + 4 + 4) ltac:(lia)) as G2. replace (n + 4 + 4)%nat with (n + 8)%nat in * by lia.
  assert (G1' : (1 + u) ^ (n + 8) - 1 <= / 2 * G) by (unfold G; lra).
  assert (G32 : 32 * u <= G).
  { unfold G. assert (8 <= INR (n + 8)) by (rewrite plus_INR; pose proof (pos_INR n); replace (INR 8) with 8 by (cbn; lra); lra).
    pose proof (Rmult_le_compat_r u _ _ ltac:(lra) H). lra. }
  destruct NI' as (Vi & _ & _ & Ei). destruct NQ1 as (Vx & Bx & _ & Ex). destruct NU1 as (Vy & By & _ & Ey).
  assert (C1 : ((1 + u) ^ (n + 8) - 1) * I <= / 2 * (G * I)) by (pose proof (Rmult_le_compat_r I _ _ (Rlt_le _ _ I0) G1'); lra).
  assert (C2 : ((1 + u) ^ S (n + 4) - 1) * (2 * I) <= G * I) by (pose proof (Rmult_le_compat_r (2 * I) ((1 + u) ^ S (n + 4) - 1) (/ 2 * G) ltac:(lra) ltac:(lra)); lra).
  assert (GI0 : 0 <= G * I) by (apply Rmult_le_pos; lra).
  set (e := 44 * eta + eta) in *. assert (e0 : 4 * eta <= e) by (unfold e; lra).
  assert (He : 0 <= e <= bpow radix2 (-1000)).
  { split; [unfold e; lra|]. apply Rle_trans with (64 * eta); [unfold e; lra|]. change 64 with (bpow radix2 6). rewrite <- bpow_plus. apply bpow_le. lia. }
  assert (HI' : bpow radix2 (-400) <= I <= bpow radix2 450).
  { split; [exact HI|]. apply Rle_trans with (2 * bpow radix2 445); [lra|]. change 2 with (bpow radix2 1). rewrite <- bpow_plus. apply bpow_le. lia. }
  assert (HG : 32 * u <= G <= bpow radix2 (-10)) by (split; [exact G32|exact Hn]).
  assert (Ei' : Rabs (fval (cell (sI s) y x) - I) <= G * I + e) by lra.
  assert (Ex' : Rabs (fval (cell (sQ s) y x) - cell (sQ k) y x) <= G * I + e) by lra.
  assert (Ey' : Rabs (fval (cell (sU s) y x) - cell (sU k) y x) <= G * I + e) by lra.
  destruct (pb_off _ _ _ _ _ _ _ Vx Vy Ex' Ey' Bx By HI' HG He) as ((V1 & V2 & _) & Ep & _).
  split; [split; [exact V1|split; [exact V2|exact Ep]]|].
  exact (dolp_off _ _ _ _ _ _ _ _ Vi Vx Vy Ei' Ex' Ey' Bx By HI' HG He).
Qed.

Lemma ordinary_nimg d : ordinary d -> nimg 0 0 (bpow radix2 400) d (values d) (values d).
Proof.
  unfold ordinary. rewrite !power2. intros Hd. split; [reflexivity|]. split; [reflexivity|]. split; [reflexivity|]. split; [reflexivity|]. intros y x Hy Hx.
  destruct (Hd y x Hy Hx) as (V & F & O). change (cell (values d) y x) with (fval (cell d y x)).
  pose proof (bpow_gt_0 radix2 (-400)). pose proof (bpow_gt_0 radix2 400).
  split; [|lra]. rewrite <- (Rabs_pos_eq (fval (cell d y x))) at 2 by lra. apply near_exact. split; [exact V|]. split; [exact F|reflexivity].
Qed.
Lemma evaluates_unique {A} (f : nat -> result A) r r' : evaluates f r -> evaluates f r' -> r = r'.
Proof. intros (n & Hn) (m & Hm). specialize (Hn (n + m)%nat ltac:(lia)). specialize (Hm (n + m)%nat ltac:(lia)). congruence. Qed.
Lemma gauge c : 4 * c * u = c * bpow radix2 (-51).
Proof. replace (bpow radix2 (-51)) with (bpow radix2 2 * u) by (rewrite <- bpow_plus; reflexivity). change (bpow radix2 2) with 4. ring. Qed.
Lemma c104_demosaiced d dic o s : ordinary d -> mosaic d -> (let* q := demosaic d o in theo_stokes dic q) = Ok s ->
  exists r, (let* q := demosaic (values d) o in theo_stokes dic q) = Ok r /\
    forall y x, (0 <= y < rows d)%Z -> (0 <= x < cols d)%Z -> powerRZ 2 (-400) <= cell (sI r) y x ->
      off_by (powerRZ 2 (-46) * cell (sI r) y x) (cell (pB s) y x) (cell (pB r) y x) /\
      off_by (powerRZ 2 (-44)) (cell (DoLP s) y x) (cell (DoLP r) y x).
Proof.
  rewrite !power2. intros Hd Hm E. pose proof (ordinary_nimg d Hd) as N.
  assert (E8 : 4 * INR (0 + 8) * u = bpow radix2 (-48)).
  { replace (INR (0 + 8)) with 8 by (cbn; lra). replace (4 * 8 * u) with (bpow radix2 5 * u) by (change (bpow radix2 5) with 32; ring). rewrite <- bpow_plus. reflexivity. }
  assert (Hn : 4 * INR (0 + 8) * u <= bpow radix2 (-10)) by (rewrite E8; apply bpow_le; lia).
  destruct (chain_pol 0 _ d (values d) dic o s N Hm Hn) as (r & Er & V); [split; [apply bpow_ge_0|apply bpow_le; lia]|exact E|].
  exists r. split; [exact Er|]. intros y x Hy Hx HI. destruct (V y x Hy Hx HI) as (A & B). rewrite E8 in A, B.
  pose proof (bpow_gt_0 radix2 (-400)). pose proof (bpow_gt_0 radix2 (-48)). set (I := cell (sI r) y x) in *. split.
  - destruct A as (A1 & A2 & A3). split; [exact A1|]. split; [exact A2|]. apply Rle_trans with (1 := A3).
    replace (bpow radix2 (-46)) with (bpow radix2 2 * bpow radix2 (-48)) by (rewrite <- bpow_plus; reflexivity). change (bpow radix2 2) with 4.
    pose proof (Rmult_le_pos (bpow radix2 (-48)) I ltac:(lra) ltac:(lra)). lra.
  - replace (bpow radix2 (-44)) with (16 * bpow radix2 (-48)); [exact B|]. change 16 with (bpow radix2 4). rewrite <- bpow_plus. reflexivity.
Qed.
Lemma c104_binned d b : ordinary d -> mosaic d -> (1 <= b)%Z -> (b * b + 8 <= 2 ^ 41)%Z ->
  exists d' r', evaluates (fun fuel => micropolarray_rebin fuel d b) d' /\ evaluates (fun fuel => micropolarray_rebin fuel (values d) b) r' /\
    forall dic o s, (let* q := demosaic d' o in theo_stokes dic q) = Ok s ->
      exists r, (let* q := demosaic r' o in theo_stokes dic q) = Ok r /\
        forall y x, (0 <= y < rows r')%Z -> (0 <= x < cols r')%Z -> powerRZ 2 (-400) <= cell (sI r) y x ->
          off_by (3 * (IZR (b * b + 8) * powerRZ 2 (-51)) * cell (sI r) y x) (cell (pB s) y x) (cell (pB r) y x) /\
          off_by (16 * (IZR (b * b + 8) * powerRZ 2 (-51))) (cell (DoLP s) y x) (cell (DoLP r) y x).
Proof.
  rewrite !power2. intros Hd Hm Hb Hbb. pose proof (ordinary_nimg d Hd) as N. pose proof (squares b Hb) as Sq.
  pose proof (many b Hb ltac:(apply Z.le_trans with (1 := Hbb); discriminate)) as Hn. pose proof (bpow_gt_0 radix2 (-53)) as U.
  assert (Hb2 : IZR (b * b) * bpow radix2 400 <= bpow radix2 441).
  { replace (bpow radix2 441) with (bpow radix2 41 * bpow radix2 400) by (rewrite <- bpow_plus; reflexivity). apply Rmult_le_compat_r; [apply bpow_ge_0|].
    change (bpow radix2 41) with (IZR (2 ^ 41)). apply IZR_le. clear - Hbb. lia. }
  assert (Hb0 : 0 <= IZR (b * b)) by (apply (IZR_le 0); apply Z.mul_nonneg_nonneg; clear - Hb; lia).
  assert (Hg : IZR (b * b + 8) * bpow radix2 (-51) <= bpow radix2 (-10)).
  { replace (bpow radix2 (-10)) with (bpow radix2 41 * bpow radix2 (-51)) by (rewrite <- bpow_plus; reflexivity). apply Rmult_le_compat_r; [apply bpow_ge_0|].
    change (bpow radix2 41) with (IZR (2 ^ 41)). apply IZR_le. exact Hbb. }
  assert (F0 : INR (0 + Z.to_nat (b * b)) * u <= / 2) by (apply (fewer (Z.to_nat (b * b)) 8 _ Hn); lra).
  assert (T2 : 2 * (IZR (b * b) * bpow radix2 400) <= huge).
  { apply Rle_trans with (2 * bpow radix2 441); [lra|]. change 2 with (bpow radix2 1). rewrite <- bpow_plus. apply bpow_le. clear. lia. }
  destruct (rebin_nimg 0 _ d _ _ b N Hm Hb F0 T2) as (d' & r' & m' & E1 & E2 & E3 & Hm' & N').
  assert (m' = r') by (exact (evaluates_unique _ _ _ E3 E2)). subst m'.
  exists d', r'. split; [exact E1|]. split; [exact E2|]. intros dic o s E.
  assert (Eg : 4 * INR (0 + Z.to_nat (b * b) + 8) * u = IZR (b * b + 8) * bpow radix2 (-51)).
  { rewrite gauge. f_equal. cbn [Nat.add]. rewrite plus_INR, Sq, plus_IZR. f_equal. cbn. lra. }
  destruct (chain_pol (0 + Z.to_nat (b * b)) _ d' r' dic o s N' Hm') as (r & Er & V).
  - rewrite Eg. exact Hg.
  - split; [apply Rmult_le_pos; [exact Hb0|apply bpow_ge_0]|]. apply Rle_trans with (1 := Hb2). apply bpow_le. clear. lia.
  - exact E.
  - exists r. split; [exact Er|]. rewrite Eg in V. exact V.
Qed.

(** A concrete ordinary pixel *)
Lemma ordinary_one m e : valid_binary prec emax (S754_finite false m e) = true -> (1 <= Z.pos m <= 2 ^ 53)%Z -> (-400 <= e <= 300)%Z ->
  let x := S754_finite false m e in is_binary64 x /\ finite64 x /\ (fval x = 0 \/ powerRZ 2 (-400) <= fval x <= powerRZ 2 400).
Proof.
  intros V (Hm & Hm') (He & He') x. split; [exact V|]. split; [exact I|]. right. unfold x. cbn [fval]. rewrite !power2. apply IZR_le in Hm, Hm'. split.
  - rewrite <- (Rmult_1_l (bpow radix2 (-400))). apply Rmult_le_compat; [lra|apply bpow_ge_0|exact Hm|apply bpow_le; exact He].
  - apply Rle_trans with (bpow radix2 53 * bpow radix2 300); [|rewrite <- bpow_plus; apply bpow_le; lia].
    apply Rmult_le_compat; [lra|apply bpow_ge_0|exact Hm'|apply bpow_le; exact He'].
Qed.
