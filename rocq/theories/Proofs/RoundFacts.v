(** Rounding errors of binary64 sums, products and interpolations. *)
From Coq Require Import ZArith Reals Lra Lia Floats.SpecFloat.
From Flocq Require Import Core Relative Plus_error BinarySingleNaN.
From Verif Require Import Base.Base Base.Num Base.BaseFacts Model.Demosaic Model.Rebin Model.Ifov Model.Stokes Model.Pol
  Model.Demodulate Spec.Terminates Spec.AngleSpec Spec.MosaicSpec Spec.StokesSpec Spec.SumSpec Spec.DemodSpec Spec.FloatSpec
  Proofs.FloatFacts Proofs.MosaicFacts Proofs.MosaicProps Proofs.ExactFacts.
Local Open Scope R_scope.

#[local] Existing Instance Hprec.
#[local] Existing Instance Hmax.
#[local] Existing Instance fexp64_valid.
#[local] Existing Instance fexp64_mono.

Notation u := (bpow radix2 (-53)).
Notation eta := (bpow radix2 (-1075)).
Notation huge := (bpow radix2 1023).

(** ** One rounding *)
Lemma rnd_err x : Rabs (rnd x - x) <= u * Rabs x + eta.
Proof.
  destruct (Rle_or_lt (bpow radix2 (-1022)) (Rabs x)) as [Hx|Hx].
  - destruct (rnd_rel x Hx) as (e & He & ->). replace (x * (1 + e) - x) with (e * x) by ring. rewrite Rabs_mult.
    pose proof (bpow_ge_0 radix2 (-1075)). pose proof (Rmult_le_compat_r (Rabs x) _ _ (Rabs_pos x) He). lra.
  - apply Rle_trans with (/ 2 * ulp radix2 fexp64 x); [apply error_le_half_ulp; typeclasses eauto|].
    assert (Hu : ulp radix2 fexp64 x <= bpow radix2 (-1074)).
    { destruct (Req_dec x 0) as [->|Hnz].
      - unfold ulp. rewrite Req_bool_true by reflexivity. destruct (negligible_exp_spec' fexp64) as [[_ H]|(n & H1 & H2)].
        + exfalso. specialize (H (-2000)%Z). unfold SpecFloat.fexp, SpecFloat.emin in H. lia.
        + rewrite H1. apply bpow_le. unfold SpecFloat.fexp, SpecFloat.emin in *. lia.
      - rewrite ulp_neq_0 by exact Hnz. apply bpow_le. unfold cexp.
        assert (Hm : (mag radix2 x <= -1022)%Z) by (apply mag_le_bpow; assumption).
        unfold SpecFloat.fexp, SpecFloat.emin. lia. }
    replace eta with (/ 2 * bpow radix2 (-1074)) by (change (/ 2) with (bpow radix2 (-1)); rewrite <- bpow_plus; reflexivity).
    pose proof (Rmult_le_pos _ _ (bpow_ge_0 radix2 (-53)) (Rabs_pos x)). lra.
Qed.
Lemma u_half : 0 < u <= / 2.
Proof. split; [apply bpow_gt_0|]. change (/ 2) with (bpow radix2 (-1)). apply bpow_le. lia. Qed.
Lemma rnd_sum (x y : R) : generic_format radix2 fexp64 x -> generic_format radix2 fexp64 y ->
  Rabs (rnd (x + y) - (x + y)) <= u * Rabs (x + y).
Proof.
  intros Fx Fy. destruct (FLT_plus_error_N_ex radix2 (-1074) 53 (fun t => negb (Z.even t)) x y Fx Fy) as (e & He & E).
  change (FLT_exp (-1074) 53) with fexp64 in E. rewrite E. replace ((x + y) * (1 + e) - (x + y)) with (e * (x + y)) by ring. rewrite Rabs_mult.
  apply Rmult_le_compat_r; [apply Rabs_pos|]. apply Rle_trans with (1 := He).
  assert (Eu : u_ro radix2 53 = u) by (unfold u_ro; change (/ 2) with (bpow radix2 (-1)); rewrite <- bpow_plus; reflexivity). rewrite Eu.
  pose proof u_half as [U _]. apply Rmult_le_reg_r with (1 + u); [lra|]. unfold Rdiv. rewrite Rmult_assoc, (Rinv_l (1 + u)) by lra.
  pose proof (Rmult_le_pos u u ltac:(lra) ltac:(lra)). lra.
Qed.
Lemma value_fmt x r : is_value x r -> generic_format radix2 fexp64 r.
Proof. intros V. destruct (B_value x r V) as (b & _ & _ & <-). apply fmt. Qed.
Lemma huge_fmt : generic_format radix2 fexp64 huge.
Proof. apply generic_format_bpow. unfold SpecFloat.fexp, SpecFloat.emin. lia. Qed.
Lemma rnd_huge x : Rabs x <= huge -> Rabs (rnd x) < top.
Proof.
  intros Hx. apply Rle_lt_trans with huge; [|apply bpow_lt; lia].
  apply Rabs_le_inv in Hx. pose proof (rnd_mono _ _ (proj1 Hx)) as L. pose proof (rnd_mono _ _ (proj2 Hx)) as M.
  rewrite rnd_opp in L. rewrite (round_generic radix2 fexp64 ZnearestE huge huge_fmt) in L, M. apply Rabs_le. split; assumption.
Qed.

(** ** Growth of relative errors *)
Lemma growth_S n : (1 + u) ^ S n = (1 + u) ^ n * (1 + u).
Proof. cbn [pow]. ring. Qed.
Lemma growth_pos n : 1 <= (1 + u) ^ n.
Proof. apply pow_R1_Rle. pose proof u_half. lra. Qed.
Lemma growth_mono n m : (n <= m)%nat -> (1 + u) ^ n <= (1 + u) ^ m.
Proof. intros H. apply Rle_pow; [pose proof u_half; lra|exact H]. Qed.
Lemma growth_bound n : INR n * u <= / 2 -> (1 + u) ^ n - 1 <= 2 * INR n * u.
Proof.
  pose proof u_half as [U _]. induction n as [|n IH]; intros Hn; [cbn; lra|]. rewrite growth_S. rewrite S_INR in *.
  assert (Hn' : INR n * u <= / 2) by lra. specialize (IH Hn').
  pose proof (Rmult_le_compat_r (1 + u) _ _ ltac:(lra) IH) as P.
  pose proof (Rmult_le_compat_r u (INR n * u) (/ 2) ltac:(lra) Hn') as Q.
  set (v := u) in *. set (g := (1 + v) ^ n) in *. set (m := INR n) in *. clearbody v g m.
  replace (g * (1 + v) - 1) with ((g - 1) * (1 + v) + v) by ring.
  replace (2 * m * v * (1 + v)) with (2 * m * v + 2 * (m * v * v)) in P by ring. lra.
Qed.
Lemma growth_2 n : INR n * u <= / 2 -> (1 + u) ^ n <= 2.
Proof. intros H. pose proof (growth_bound n H). lra. Qed.

(** [x] is what [n] roundings make of [r], a sum of terms of total size [a]; [e] is the part of the error due to underflow. *)
Definition near (n : nat) (e : R) (x : b64) (r a : R) : Prop :=
  is_value x (fval x) /\ Rabs r <= a /\ 0 <= e /\ Rabs (fval x - r) <= ((1 + u) ^ n - 1) * a + e.
Lemma near_exact x r : is_value x r -> near 0 0 x r (Rabs r).
Proof. intros V. pose proof (value_val _ _ V) as E. split; [rewrite E; exact V|]. split; [lra|]. split; [lra|]. rewrite E, Rminus_eq_0, Rabs_R0. cbn. lra. Qed.
Lemma near_weaken n m e f x r a b : near n e x r a -> (n <= m)%nat -> e <= f -> a <= b -> near m f x r b.
Proof.
  intros (V & B & E0 & E) Hn He Ha. split; [exact V|]. split; [lra|]. split; [lra|]. pose proof (growth_mono _ _ Hn). pose proof (growth_pos n). pose proof (Rabs_pos r).
  pose proof (Rmult_le_compat ((1 + u) ^ n - 1) ((1 + u) ^ m - 1) a b ltac:(lra) ltac:(lra) ltac:(lra) Ha). lra.
Qed.
Lemma near_size n e x r a : near n e x r a -> Rabs (fval x) <= (1 + u) ^ n * a + e.
Proof. intros (_ & B & _ & E). pose proof (Rabs_triang (fval x - r) r) as T. replace (fval x - r + r) with (fval x) in T by ring. lra. Qed.
Lemma near_off n e x r a : near n e x r a -> off_by (((1 + u) ^ n - 1) * a + e) x r.
Proof. intros ((V & F & _) & _ & _ & E). split; [exact V|]. split; [exact F|exact E]. Qed.

(** One more rounding *)
Lemma near_round n e v r a : Rabs r <= a -> 0 <= e -> Rabs (v - r) <= ((1 + u) ^ n - 1) * a + e ->
  Rabs (rnd v - v) <= u * Rabs v -> Rabs (rnd v - r) <= ((1 + u) ^ S n - 1) * a + (1 + u) * e.
Proof.
  intros B E0 E R1. pose proof (Rabs_triang (v - r) r) as T. replace (v - r + r) with v in T by ring.
  replace (rnd v - r) with ((rnd v - v) + (v - r)) by ring. apply Rle_trans with (1 := Rabs_triang _ _).
  assert (Sz : Rabs v <= (1 + u) ^ n * a + e) by lra. pose proof u_half as [U _].
  pose proof (Rmult_le_compat_l u _ _ ltac:(lra) Sz) as P. rewrite growth_S. lra.
Qed.
Lemma near_add n e f x y r s a b : near n e x r a -> near n f y s b -> (1 + u) ^ n * (a + b) + (e + f) <= huge ->
  near (S n) ((1 + u) * (e + f)) (x +! y) (r + s) (a + b).
Proof.
  intros Hx Hy Hb. pose proof (near_size _ _ _ _ _ Hx) as Sx. pose proof (near_size _ _ _ _ _ Hy) as Sy.
  destruct Hx as (Vx & Bx & E0 & Ex), Hy as (Vy & By & F0 & Ey). set (v := fval x) in *. set (w := fval y) in *.
  pose proof (Rabs_triang v w) as T.
  assert (Hv : Rabs (v + w) <= huge) by lra. pose proof (add_value x y v w Vx Vy (rnd_huge _ Hv)) as V. pose proof (value_val _ _ V) as Ev. pose proof u_half as [U _].
  split; [rewrite Ev; exact V|]. split; [apply Rle_trans with (1 := Rabs_triang _ _); lra|].
  split; [apply Rmult_le_pos; lra|]. rewrite Ev. apply near_round; [apply Rle_trans with (1 := Rabs_triang _ _); lra|lra| |].
  - replace (v + w - (r + s)) with ((v - r) + (w - s)) by ring. apply Rle_trans with (1 := Rabs_triang _ _). lra.
  - apply rnd_sum; eapply value_fmt; eassumption.
Qed.
Lemma near_sub n e f x y r s a b : near n e x r a -> near n f y s b -> (1 + u) ^ n * (a + b) + (e + f) <= huge ->
  near (S n) ((1 + u) * (e + f)) (x -! y) (r - s) (a + b).
Proof.
  intros Hx Hy Hb. pose proof (near_size _ _ _ _ _ Hx) as Sx. pose proof (near_size _ _ _ _ _ Hy) as Sy.
  destruct Hx as (Vx & Bx & E0 & Ex), Hy as (Vy & By & F0 & Ey). set (v := fval x) in *. set (w := fval y) in *.
  pose proof (Rabs_triang v (- w)) as T. rewrite Rabs_Ropp in T.
  pose proof (Rabs_triang r (- s)) as T'. rewrite Rabs_Ropp in T'.
  assert (Hv : Rabs (v - w) <= huge) by (unfold Rminus; lra). pose proof (sub_value x y v w Vx Vy (rnd_huge _ Hv)) as V. pose proof (value_val _ _ V) as Ev. pose proof u_half as [U _].
  split; [rewrite Ev; exact V|]. split; [unfold Rminus; lra|].
  split; [apply Rmult_le_pos; lra|]. rewrite Ev. apply near_round; [unfold Rminus; lra|lra| |].
  - replace (v - w - (r - s)) with ((v - r) + - (w - s)) by ring. apply Rle_trans with (1 := Rabs_triang _ _). rewrite Rabs_Ropp. lra.
  - apply rnd_sum; [eapply value_fmt; eassumption|]. apply generic_format_opp. eapply value_fmt; eassumption.
Qed.

(** A multiplication by a constant at most 1 *)
Lemma near_scale n e x r a c k : near n e x r a -> is_value c k -> Rabs k <= 1 -> (1 + u) ^ n * a + e <= huge ->
  near (S n) ((1 + u) * e + eta) (c *! x) (k * r) (Rabs k * a) /\ near (S n) ((1 + u) * e + eta) (x *! c) (r * k) (Rabs k * a).
Proof.
  intros Hx Vc Hk Hb. pose proof (near_size _ _ _ _ _ Hx) as Sz. destruct Hx as (Vx & B & E0 & E). set (v := fval x) in *.
  pose proof (Rabs_pos k) as K0. pose proof (Rabs_pos v) as V0. pose proof u_half as [U _]. pose proof (bpow_gt_0 radix2 (-1075)) as U'.
  assert (K : Rabs (k * v) <= huge) by (rewrite Rabs_mult; pose proof (Rmult_le_compat_r (Rabs v) _ _ V0 Hk); lra).
  assert (B' : Rabs (k * r) <= Rabs k * a) by (rewrite Rabs_mult; apply Rmult_le_compat_l; assumption).
  assert (Er : Rabs (rnd (k * v) - k * r) <= ((1 + u) ^ S n - 1) * (Rabs k * a) + ((1 + u) * e + eta)).
  { pose proof (rnd_err (k * v)) as R1. rewrite Rabs_mult in R1.
    replace (rnd (k * v) - k * r) with ((rnd (k * v) - k * v) + k * (v - r)) by ring.
    apply Rle_trans with (1 := Rabs_triang _ _). rewrite (Rabs_mult k (v - r)).
    pose proof (Rmult_le_compat_l (Rabs k) _ _ K0 E) as P1. pose proof (Rmult_le_compat_l (Rabs k) _ _ K0 Sz) as P2.
    pose proof (Rmult_le_compat_l u _ _ ltac:(lra) P2) as P3. pose proof (Rmult_le_compat_r e _ _ E0 Hk) as P4.
    pose proof (Rmult_le_compat_l u _ _ ltac:(lra) P4) as P5. rewrite growth_S. lra. }
  assert (E1 : 0 <= (1 + u) * e + eta) by (pose proof (Rmult_le_pos (1 + u) e ltac:(lra) E0); lra).
  split.
  - pose proof (mul_value c x k v Vc Vx (rnd_huge _ K)) as V. pose proof (value_val _ _ V) as Ev. unfold near. rewrite Ev. tauto.
  - rewrite (Rmult_comm k v) in *. rewrite (Rmult_comm k r) in *. pose proof (mul_value x c v k Vx Vc (rnd_huge _ K)) as V.
    pose proof (value_val _ _ V) as Ev. unfold near. rewrite Ev. tauto.
Qed.
