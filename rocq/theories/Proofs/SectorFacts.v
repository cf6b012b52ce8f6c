(** Sectors of polar regions in binary64 (C143). *)
From Coq Require Import ZArith Reals Lra Lia Floats.SpecFloat.
From Flocq Require Import Core Relative Sterbenz BinarySingleNaN.
From Verif Require Import Base.Base Base.Num Base.Bcast Base.BaseFacts Model.AnglesFloat Model.NrgfFloat Model.Roi Model.Pol Model.PolarFloat
  Spec.AngleSpec Spec.FloatSpec Spec.RoiSpec Spec.SectorSpec Spec.PixelSpec Spec.MosaicSpec
  Proofs.FloatFacts Proofs.ExactFacts Proofs.RoundFacts Proofs.AnglesFloatFacts Proofs.PolFacts Proofs.RoiFacts Proofs.RingFacts Proofs.PiFacts Proofs.AngleErrFacts.
Local Open Scope R_scope.

#[local] Existing Instance Hprec.
#[local] Existing Instance Hmax.
#[local] Existing Instance fexp64_valid.
#[local] Existing Instance fexp64_mono.

(** ** Directions of whole numbers keep away from round angles *)
Definition deg (a : R) : R := a / 180 * PI.

Lemma turn_quarter (dy dx : Z) b (q : nat) : exists a' b' : Z, (a' * a' + b' * b' = dy * dy + dx * dx)%Z /\
  IZR dy * cos (deg (b + 90 * INR q)) - IZR dx * sin (deg (b + 90 * INR q)) = IZR a' * cos (deg b) - IZR b' * sin (deg b) /\
  ((a' = 0 \/ b' = 0 \/ a' = b' \/ a' = - b')%Z -> (dy = 0 \/ dx = 0 \/ dy = dx \/ dy = - dx)%Z).
Proof.
  revert dy dx. induction q as [|q IH]; intros dy dx.
  - exists dy, dx. split; [reflexivity|]. split; [cbn [INR]; rewrite Rmult_0_r, Rplus_0_r; reflexivity|tauto].
  - destruct (IH (- dx)%Z dy) as (a' & b' & N & E & P). exists a', b'. split; [lia|]. split; [|intros K; specialize (P K); lia].
    rewrite <- E. rewrite S_INR. replace (deg (b + 90 * (INR q + 1))) with (PI / 2 + deg (b + 90 * INR q)) by (unfold deg; lra).
    rewrite cos_plus, sin_plus, cos_PI2, sin_PI2, opp_IZR. lra.
Qed.

Lemma three_squares (n : nat) : forall a b : Z, (Z.abs a < Z.of_nat n)%Z -> (3 * (a * a) = b * b)%Z -> a = 0%Z.
Proof.
  induction n as [|n IH]; intros a b Hn E; [lia|].
  assert (B : exists c, b = (3 * c)%Z).
  { exists (b / 3)%Z. pose proof (Z.div_mod b 3 ltac:(lia)) as D. pose proof (Z.mod_pos_bound b 3 ltac:(lia)) as M.
    set (c := (b / 3)%Z) in *. set (r := (b mod 3)%Z) in *. assert (C : r = 0%Z \/ r = 1%Z \/ r = 2%Z) by lia.
    destruct C as [C|[C|C]]; [lia| |]; exfalso; rewrite C in D; rewrite D in E; ring_simplify in E; lia. }
  destruct B as (c & ->). assert (E1 : (a * a = 3 * (c * c))%Z) by lia.
  destruct (Z.eq_dec c 0) as [->|Nc]; [nia|].
  assert (L : (Z.abs c < Z.abs a)%Z) by nia.
  specialize (IH c a ltac:(lia) ltac:(lia)). lia.
Qed.
Lemma no_root3 (a b : Z) : (3 * (a * a) = b * b)%Z -> a = 0%Z /\ b = 0%Z.
Proof.
  intros E. pose proof (three_squares (Z.to_nat (Z.abs a) + 1) a b ltac:(lia) E) as ->. split; [reflexivity|nia].
Qed.

Lemma root3_apart (a b : Z) : (0 < a * a + b * b)%Z -> let r := sqrt (IZR (a * a + b * b)) in / (4 * r) <= Rabs (sqrt 3 * IZR a - IZR b) / 2.
Proof.
  intros Hp r. assert (R0 : 0 < r) by (apply sqrt_lt_R0, IZR_lt; exact Hp).
  assert (RR : r * r = IZR a * IZR a + IZR b * IZR b).
  { unfold r. rewrite sqrt_sqrt by (apply IZR_le; lia). rewrite plus_IZR, !mult_IZR. reflexivity. }
  pose proof (sqrt_sqrt 3 ltac:(lra)) as S3. pose proof (sqrt_lt_R0 3 ltac:(lra)) as S0. set (s := sqrt 3) in *.
  assert (D : 1 <= Rabs (3 * (IZR a * IZR a) - IZR b * IZR b)).
  { rewrite <- !mult_IZR, <- minus_IZR, <- abs_IZR. apply IZR_le. destruct (Z.eq_dec (3 * (a * a)) (b * b)) as [E|N]; [|lia].
    apply no_root3 in E as [-> ->]. lia. }
  replace (3 * (IZR a * IZR a) - IZR b * IZR b) with ((s * IZR a - IZR b) * (s * IZR a + IZR b)) in D by (rewrite <- S3; ring).
  rewrite Rabs_mult in D. assert (C : Rabs (s * IZR a + IZR b) <= 2 * r).
  { apply Rsqr_incr_0_var; [|lra]. rewrite <- Rsqr_abs. unfold Rsqr.
    replace (2 * r * (2 * r)) with (4 * (r * r)) by ring. rewrite RR.
    pose proof (Rle_0_sqr (IZR a - s * IZR b)) as Q. unfold Rsqr in Q. 
    replace ((IZR a - s * IZR b) * (IZR a - s * IZR b)) with (IZR a * IZR a - 2 * s * IZR a * IZR b + s * s * (IZR b * IZR b)) in Q by ring.
    replace ((s * IZR a + IZR b) * (s * IZR a + IZR b)) with (s * s * (IZR a * IZR a) + 2 * s * IZR a * IZR b + IZR b * IZR b) by ring. rewrite S3 in *. lra. }
  set (w := Rabs (s * IZR a - IZR b)) in *. assert (W0 : 0 <= w) by apply Rabs_pos.
  assert (K : 1 <= w * (2 * r)).
  { apply Rle_trans with (1 := D). apply Rmult_le_compat_l; assumption. }
  apply (Rmult_le_reg_l (4 * r)); [lra|]. rewrite Rinv_r by lra. lra.
Qed.

Definition slant (z dy dx : Z) : R := IZR dy * cos (deg (IZR z)) - IZR dx * sin (deg (IZR z)).

Lemma slant_round z dy dx : (0 <= z)%Z -> round_angle z -> (0 < dy * dy + dx * dx)%Z -> ~ (dy = 0 \/ dx = 0 \/ dy = dx \/ dy = - dx)%Z ->
  / (4 * sqrt (IZR (dy * dy + dx * dx))) <= Rabs (slant z dy dx).
Proof.
  intros Hz Hr Hp Hn. unfold slant.
  assert (D : exists q b, z = (b + 90 * q)%Z /\ (0 <= q)%Z /\ (b = 0 \/ b = 30 \/ b = 45 \/ b = 60)%Z).
  { exists (z / 90)%Z, (z mod 90)%Z. destruct Hr as [Hr|Hr]; Z.to_euclidean_division_equations; lia. }
  destruct D as (q & b & -> & Q0 & Hb).
  destruct (turn_quarter dy dx (IZR b) (Z.to_nat q)) as (a' & b' & N & E & P).
  rewrite (plus_IZR b (90 * q)), (mult_IZR 90 q). rewrite INR_IZR_INZ, Z2Nat.id in E by exact Q0. rewrite E. rewrite <- N. rewrite <- N in Hp. clear E.
  assert (NP : ~ (a' = 0 \/ b' = 0 \/ a' = b' \/ a' = - b')%Z) by tauto. clear P.
  set (r := sqrt (IZR (a' * a' + b' * b'))). assert (R1 : 1 <= r).
  { unfold r. rewrite <- sqrt_1 at 1. apply sqrt_le_1; [lra|apply IZR_le; lia|apply IZR_le; lia]. }
  assert (R4 : / (4 * r) <= / 4) by (apply Rinv_le_contravar; lra).
  destruct Hb as [->|[->|[->| ->]]].
  - replace (deg 0) with 0 by (unfold deg; lra). rewrite cos_0, sin_0, Rmult_1_r, Rmult_0_r, Rminus_0_r, <- abs_IZR.
    apply Rle_trans with (1 := R4). apply Rle_trans with 1; [lra|]. apply IZR_le. lia.
  - replace (deg 30) with (PI / 6) by (unfold deg; lra). rewrite cos_PI6, sin_PI6.
    replace (IZR a' * (sqrt 3 / 2) - IZR b' * (1 / 2)) with ((sqrt 3 * IZR a' - IZR b') / 2) by lra.
    unfold Rdiv. rewrite Rabs_mult, (Rabs_pos_eq (/ 2)) by lra. apply root3_apart. exact Hp.
  - replace (deg 45) with (PI / 4) by (unfold deg; lra). rewrite cos_PI4, sin_PI4.
    replace (IZR a' * (1 / sqrt 2) - IZR b' * (1 / sqrt 2)) with (IZR (a' - b') * / sqrt 2) by (rewrite minus_IZR; unfold Rdiv; ring).
    rewrite Rabs_mult. pose proof (sqrt_lt_R0 2 ltac:(lra)) as S0. pose proof (sqrt_sqrt 2 ltac:(lra)) as S2.
    assert (S4 : sqrt 2 <= 4) by nra. assert (I4 : / 4 <= / sqrt 2) by (apply Rinv_le_contravar; lra).
    rewrite (Rabs_pos_eq (/ sqrt 2)) by lra. assert (1 <= Rabs (IZR (a' - b'))) by (rewrite <- abs_IZR; apply IZR_le; lia). nra.
  - replace (deg 60) with (PI / 3) by (unfold deg; lra). rewrite cos_PI3, sin_PI3.
    replace (IZR a' * (1 / 2) - IZR b' * (sqrt 3 / 2)) with (- ((sqrt 3 * IZR b' - IZR a') / 2)) by lra.
    rewrite Rabs_Ropp. unfold Rdiv. rewrite Rabs_mult, (Rabs_pos_eq (/ 2)) by lra. unfold r. rewrite Z.add_comm. apply root3_apart. lia.
Qed.

Lemma sin_abs t : Rabs (sin t) <= Rabs t.
Proof.
  assert (P : forall t, 0 <= t -> Rabs (sin t) <= t).
  { clear. intros t Ht. destruct (Rle_or_lt t 1) as [L|L].
    - destruct (Req_dec t 0) as [->|N]; [rewrite sin_0, Rabs_R0; lra|]. pose proof (sin_lt_x t ltac:(lra)).
      pose proof PI_4. pose proof pi_bounds. rewrite Rabs_pos_eq by (apply sin_ge_0; lra). lra.
    - pose proof (SIN_bound t). apply Rabs_le. lra. }
  destruct (Rle_or_lt 0 t) as [L|L]; [rewrite (Rabs_pos_eq t) by lra; apply P, L|].
  rewrite <- (Ropp_involutive t) at 1. rewrite sin_neg, Rabs_Ropp, (Rabs_left t) by lra. apply P. lra.
Qed.

Notation bound := (bpow radix2 (-42)).
Lemma away z dy dx rho phi : (0 <= z)%Z -> round_angle z -> polar_of (IZR dy) (IZR dx) rho phi ->
  ~ (dy = 0 \/ dx = 0 \/ dy = dx \/ dy = - dx)%Z -> (dy * dy + dx * dx <= 2 ^ 45)%Z -> bound < Rabs (phi - IZR z).
Proof.
  intros Hz Hr (R0 & _ & Ex & Ey & _) Hn Hb.
  assert (Hp : (0 < dy * dy + dx * dx)%Z) by nia.
  assert (RR : rho * rho = IZR (dy * dy + dx * dx)).
  { rewrite plus_IZR, !mult_IZR, Ex, Ey. pose proof (sin2_cos2 (phi / 180 * PI)) as S. unfold Rsqr in S.
    replace (rho * sin (phi / 180 * PI) * (rho * sin (phi / 180 * PI)) + rho * cos (phi / 180 * PI) * (rho * cos (phi / 180 * PI)))
      with (rho * rho * (sin (phi / 180 * PI) * sin (phi / 180 * PI) + cos (phi / 180 * PI) * cos (phi / 180 * PI))) by ring. rewrite S. ring. }
  assert (RS : rho = sqrt (IZR (dy * dy + dx * dx))) by (rewrite <- RR, sqrt_square; [reflexivity|exact R0]).
  pose proof (slant_round z dy dx Hz Hr Hp Hn) as S. rewrite <- RS in S.
  assert (R1 : 0 < rho) by (rewrite RS; apply sqrt_lt_R0, IZR_lt; exact Hp).
  assert (ES : slant z dy dx = rho * sin (deg (phi - IZR z))).
  { unfold slant. rewrite Ex, Ey. replace (deg (phi - IZR z)) with (phi / 180 * PI - deg (IZR z)) by (unfold deg; lra). rewrite sin_minus. ring. }
  rewrite ES, Rabs_mult, (Rabs_pos_eq rho) in S by lra.
  pose proof (sin_abs (deg (phi - IZR z))) as T. set (t := Rabs (sin (deg (phi - IZR z)))) in *. set (w := Rabs (phi - IZR z)) in *.
  assert (W : Rabs (deg (phi - IZR z)) = w * (PI / 180)).
  { unfold deg. replace ((phi - IZR z) / 180 * PI) with ((phi - IZR z) * (PI / 180)) by lra. pose proof PI_RGT_0. rewrite Rabs_mult, (Rabs_pos_eq (PI / 180)) by lra. reflexivity. }
  rewrite W in T. clear W ES. assert (RB : rho * rho <= bpow radix2 45) by (rewrite RR; apply IZR_le in Hb; exact Hb).
  assert (K : 1 <= 4 * (rho * rho) * t).
  { apply (Rmult_le_compat_l (4 * rho)) in S; [|lra]. rewrite Rinv_r in S by lra. lra. }
  assert (T0 : 0 <= t) by apply Rabs_pos.
  assert (K2 : 1 <= 4 * bpow radix2 45 * t).
  { apply Rle_trans with (1 := K). apply Rmult_le_compat_r; [exact T0|]. lra. }
  change (bpow radix2 45) with 35184372088832 in K2. change bound with (/ 4398046511104). pose proof pi_bounds. nra.
Qed.

(** ** Principal directions *)
Lemma principal dy dx : (dy = 0 \/ dx = 0 \/ dy = dx \/ dy = - dx)%Z -> exists k, (-3 <= k <= 4)%Z /\ atan2 (IZR dy) (IZR dx) = IZR k * (PI / 4).
Proof.
  intros H. unfold atan2.
  assert (LT : forall a b : Z, Rltb (IZR a) (IZR b) = (a <? b)%Z).
  { intros a b. destruct (Z.ltb_spec a b) as [L|L]; [apply Rltb_true, IZR_lt, L|apply Rltb_false]. apply IZR_le in L. lra. }
  assert (LE : forall a b : Z, Rleb (IZR a) (IZR b) = (a <=? b)%Z).
  { intros a b. destruct (Z.leb_spec a b) as [L|L]; [apply Rleb_true, IZR_le, L|]. destruct (Rleb (IZR a) (IZR b)) eqn:E; [|reflexivity].
    apply Rleb_true, le_IZR in E. lia. }
  rewrite !LT, LE. clear LT LE.
  destruct (Z.ltb_spec 0 dx) as [L|L].
  - assert (D : IZR dx <> 0) by (apply IZR_neq; lia). destruct H as [->|[->|[->| ->]]].
    + exists 0%Z. split; [lia|]. unfold Rdiv at 1. rewrite Rmult_0_l, atan_0. lra.
    + lia.
    + exists 1%Z. split; [lia|]. replace (IZR dx / IZR dx) with 1 by (field; exact D). rewrite atan_1. lra.
    + exists (-1)%Z. split; [lia|]. rewrite opp_IZR. replace (- IZR dx / IZR dx) with (- (1)) by (field; exact D). rewrite atan_opp, atan_1. lra.
  - destruct (Z.ltb_spec dx 0) as [M|M].
    + assert (D : IZR dx <> 0) by (apply IZR_neq; lia). destruct H as [->|[->|[->| ->]]].
      * exists 4%Z. split; [lia|]. cbn [Z.leb Z.compare]. unfold Rdiv at 1. rewrite Rmult_0_l, atan_0. lra.
      * lia.
      * exists (-3)%Z. split; [lia|]. destruct (Z.leb_spec 0 dx); [lia|]. replace (IZR dx / IZR dx) with 1 by (field; exact D). rewrite atan_1. lra.
      * exists 3%Z. split; [lia|]. destruct (Z.leb_spec 0 (- dx)); [|lia]. rewrite opp_IZR. replace (- IZR dx / IZR dx) with (- (1)) by (field; exact D). rewrite atan_opp, atan_1. lra.
    + destruct (Z.ltb_spec 0 dy); [exists 2%Z; split; [lia|lra]|]. destruct (Z.ltb_spec dy 0); [exists (-2)%Z; split; [lia|lra]|]. exists 0%Z. split; [lia|lra].
Qed.

Lemma fmod360_round (k : Z) : (-3 <= k <= 4)%Z -> fmod360 (IZR k * (PI / 4) * 180 / PI + 360) = IZR (45 * (k mod 8)).
Proof.
  intros Hk. pose proof PI_RGT_0. replace (IZR k * (PI / 4) * 180 / PI + 360) with (IZR (45 * k + 360)) by (rewrite plus_IZR, mult_IZR; field; lra).
  destruct (fmod360_spec (IZR (45 * k + 360))) as (B & j & E). rewrite E in *. rewrite <- mult_IZR, <- minus_IZR in *. f_equal.
  destruct B as (B1 & B2). apply le_IZR in B1. apply lt_IZR in B2. Z.to_euclidean_division_equations. lia.
Qed.

Lemma eighth_phi k : (-3 <= k <= 4)%Z -> remainder360 (((eighth k *! nofZ 180) /! pi64) +! nofZ 360) = nofZ (45 * (k mod 8)).
Proof.
  intros Hk. assert (C : (k = -3 \/ k = -2 \/ k = -1 \/ k = 0 \/ k = 1 \/ k = 2 \/ k = 3 \/ k = 4)%Z) by lia.
  destruct C as [->|[->|[->|[->|[->|[->|[->| ->]]]]]]]; vm_compute; reflexivity.
Qed.
Lemma eighth_turned k : (-3 <= k <= 4)%Z -> (((eighth k *! nofZ 180) /! pi64) +! nofZ 360) = nofZ (45 * k + 360).
Proof.
  intros Hk. assert (C : (k = -3 \/ k = -2 \/ k = -1 \/ k = 0 \/ k = 1 \/ k = 2 \/ k = 3 \/ k = 4)%Z) by lia.
  destruct C as [->|[->|[->|[->|[->|[->|[->| ->]]]]]]]; vm_compute; reflexivity.
Qed.

(** ** Rounding errors *)
Lemma pi_near : Rabs (PI - p) <= bpow radix2 (-52).
Proof. rewrite p_val. change (bpow radix2 (-52)) with (/ 4503599627370496). pose proof pi_bounds. apply Rabs_le. lra. Qed.

Lemma eta_small : eta <= bpow radix2 (-60).
Proof. apply bpow_le. lia. Qed.
Lemma small_top x : Rabs x <= 1000 -> Rabs (rnd x) < top.
Proof.
  intros H. apply rnd_huge. apply Rle_trans with (1 := H). apply Rle_trans with (bpow radix2 10); [cbn; lra|]. apply bpow_le. lia.
Qed.

Lemma turned_near at2 dy dx : usual_arctan2 at2 -> (Z.abs dy < 2 ^ 31)%Z -> (Z.abs dx < 2 ^ 31)%Z -> exists v,
  is_value (turned at2 dy dx) v /\ Rabs (v - (atan2 (IZR dy) (IZR dx) * 180 / PI + 360)) <= bound /\ 0 <= v < 720.
Proof.
  intros Ha Hy Hx. destruct (Ha dy dx Hy Hx) as (V1 & F1 & E1 & _). unfold turned. set (a := at2 (nofZ dy) (nofZ dx)) in *.
  assert (Va : is_value a (fval a)) by (repeat split; assumption). set (s := fval a) in *. clearbody s a.
  destruct (atan2_spec (IZR dy) (IZR dx)) as (B & _). set (A := atan2 (IZR dy) (IZR dx)) in *.
  change (powerRZ 2 (-51)) with (powerRZ (IZR radix2) (-51)) in E1. rewrite <- bpow_powerRZ in E1. change (bpow radix2 (-51)) with (/ 2251799813685248) in E1.
  pose proof pi_bounds as PB. pose proof pi_near as PN. change (bpow radix2 (-52)) with (/ 4503599627370496) in PN.
  set (q := A * 180 / PI). assert (Eq : 180 * A = q * PI) by (unfold q; field; lra).
  assert (Bq : Rabs q <= 180).
  { unfold q. apply Rabs_le. split.
    - apply (Rmult_le_reg_r PI); [lra|]. unfold Rdiv. rewrite Rmult_assoc, Rinv_l by lra. lra.
    - apply (Rmult_le_reg_r PI); [lra|]. unfold Rdiv. rewrite Rmult_assoc, Rinv_l by lra. lra. }
  clearbody q. assert (D1 : Rabs (q * (PI - p)) <= 180 * / 4503599627370496).
  { rewrite Rabs_mult. apply Rmult_le_compat; [apply Rabs_pos|apply Rabs_pos|exact Bq|exact PN]. }
  assert (S1 : Rabs (s * 180 - q * p) <= 180 * / 2251799813685248 + 180 * / 4503599627370496).
  { replace (s * 180 - q * p) with (180 * (s - A) + q * (PI - p)) by (rewrite Rmult_minus_distr_l, Eq; ring).
    apply Rle_trans with (1 := Rabs_triang _ _). apply Rplus_le_compat; [|exact D1]. rewrite Rabs_mult, (Rabs_pos_eq 180) by lra. lra. }
  assert (S2 : Rabs (s * 180) <= 567).
  { apply Rabs_le_inv in E1. apply Rabs_le. lra. }
  pose proof eta_small as ES. change (bpow radix2 (-60)) with (/ 1152921504606846976) in ES.
  assert (V180 : is_value (nofZ 180) 180) by (apply (ofZ_value 180); lia). assert (V360 : is_value (nofZ 360) 360) by (apply (ofZ_value 360); lia).
  assert (Vm : is_value (a *! nofZ 180) (rnd (s * 180))) by (apply mul_value; [exact Va|exact V180|apply small_top; lra]).
  pose proof (rnd_err (s * 180)) as Em. change u with (/ 9007199254740992) in Em. set (m := rnd (s * 180)) in *. 
  assert (Bm : Rabs (m - q * p) <= / 4398046511104 * (7 / 8)).
  { replace (m - q * p) with ((m - s * 180) + (s * 180 - q * p)) by ring. apply Rle_trans with (1 := Rabs_triang _ _). lra. }
  clearbody m. clear Em S1. pose proof p_bounds as PP.
  assert (Bd : Rabs (m / p - q) <= / 4398046511104 * (7 / 24)).
  { replace (m / p - q) with ((m - q * p) * / p) by (field; lra). rewrite Rabs_mult. assert (I : Rabs (/ p) <= / 3) by (rewrite Rabs_pos_eq; [apply Rinv_le_contravar; lra|left; apply Rinv_0_lt_compat; lra]).
    apply Rle_trans with (/ 4398046511104 * (7 / 8) * / 3); [|lra]. apply Rmult_le_compat; [apply Rabs_pos|apply Rabs_pos|exact Bm|exact I]. }
  assert (Sd : Rabs (m / p) <= 181) by (apply Rabs_le_inv in Bd, Bq; apply Rabs_le; lra).
  assert (Vd : is_value ((a *! nofZ 180) /! pi64) (rnd (m / p))) by (apply div_value; [exact Vm|apply pi_value|lra|apply small_top; lra]).
  pose proof (rnd_err (m / p)) as Ed. change u with (/ 9007199254740992) in Ed. set (d := rnd (m / p)) in *.
  assert (Be : Rabs (d - q) <= / 4398046511104 * (13 / 32)).
  { replace (d - q) with ((d - m / p) + (m / p - q)) by ring. apply Rle_trans with (1 := Rabs_triang _ _). lra. }
  clearbody d. clear Ed Bd Sd.
  assert (Sv : Rabs (d + 360) <= 541) by (apply Rabs_le_inv in Be, Bq; apply Rabs_le; lra).
  exists (rnd (d + 360)). split; [apply add_value; [exact Vd|exact V360|apply small_top; lra]|].
  pose proof (rnd_err (d + 360)) as Ev. change u with (/ 9007199254740992) in Ev. set (v := rnd (d + 360)) in *. clearbody v.
  change bound with (/ 4398046511104). apply Rabs_le_inv in Ev, Be, Bq. split; [apply Rabs_le|]; lra.
Qed.

(** ** Angles *)
Lemma phi_near at2 cy cx y x : usual_arctan2 at2 -> ((y - cy) * (y - cy) + (x - cx) * (x - cx) <= 2 ^ 45)%Z ->
  let t := phi_at (IZR cy) (IZR cx) y x in let dy := (y - cy)%Z in let dx := (x - cx)%Z in
  exists f, is_value (phi64 at2 cy cx y x) f /\ 0 <= f < 360 /\ Rabs (f - t) <= bound /\
    ((dy = 0 \/ dx = 0 \/ dy = dx \/ dy = - dx)%Z -> f = t).
Proof.
  intros Ha Hb t dy dx. fold dy dx in Hb. assert (Hy : (Z.abs dy < 2 ^ 31)%Z) by nia. assert (Hx : (Z.abs dx < 2 ^ 31)%Z) by nia.
  pose proof (polar_at (IZR cy) (IZR cx) y x) as Po. fold t in Po. rewrite <- !minus_IZR in Po. fold dy dx in Po.
  assert (Et : t = fmod360 (atan2 (IZR dy) (IZR dx) * 180 / PI + 360)) by (unfold t, phi_at, dy, dx; rewrite !minus_IZR; reflexivity).
  assert (B0 : 0 <= bound) by apply bpow_ge_0.
  unfold phi64. fold dy dx. clearbody t dy dx.
  assert (Dec : (dy = 0 \/ dx = 0 \/ dy = dx \/ dy = - dx)%Z \/ ~ (dy = 0 \/ dx = 0 \/ dy = dx \/ dy = - dx)%Z) by lia.
  destruct Dec as [Pr|Np].
  - destruct (principal dy dx Pr) as (k & Hk & Ek). destruct (Ha dy dx Hy Hx) as (_ & _ & _ & Hp). specialize (Hp k Hk Ek).
    rewrite Ek, fmod360_round in Et by exact Hk. unfold turned. rewrite Hp, eighth_phi by exact Hk. exists t. rewrite Et.
    split; [apply ofZ_value; Z.to_euclidean_division_equations; lia|]. split.
    + split; [apply IZR_le|apply IZR_lt]; Z.to_euclidean_division_equations; lia.
    + split; [rewrite Rminus_eq_0, Rabs_R0; exact B0|reflexivity].
  - destruct (turned_near at2 dy dx Ha Hy Hx) as (v & V & E & R). set (w := atan2 (IZR dy) (IZR dx) * 180 / PI + 360) in *. clearbody w.
    pose proof (away 0 dy dx _ _ ltac:(lia) ltac:(left; reflexivity) Po Np Hb) as A0. pose proof (away 360 dy dx _ _ ltac:(lia) ltac:(left; reflexivity) Po Np Hb) as A1.
    destruct Po as (_ & Rt & _). destruct (fmod360_spec w) as (_ & j & Ej). rewrite <- Et in Ej.
    rewrite Rminus_0_r, Rabs_pos_eq in A0 by lra. rewrite Rabs_left in A1 by lra. apply Rabs_le_inv in E.
    assert (V360 : is_value (nofZ 360) 360) by (apply (ofZ_value 360); lia).
    unfold remainder360. rewrite (ltb_value _ _ _ _ V V360). case Rlt_bool_spec; intros L.
    + assert (J : j = 0%Z).
      { assert (-1 < j < 1)%Z; [|lia]. split; apply lt_IZR; lra. }
      subst j. exists v. split; [exact V|]. split; [lra|]. split; [apply Rabs_le; lra|tauto].
    + assert (J : j = 1%Z).
      { assert (0 < j < 2)%Z; [|lia]. split; apply lt_IZR; lra. }
      subst j. exists (v - 360). assert (G : generic_format radix2 fexp64 (v - 360)).
      { apply sterbenz; [typeclasses eauto|typeclasses eauto|apply (value_fmt _ _ V)|apply (value_fmt _ _ V360)|lra]. }
      split; [|split; [lra|split; [apply Rabs_le; lra|tauto]]].
      rewrite <- (round_generic radix2 fexp64 ZnearestE _ G). apply sub_value; [exact V|exact V360|apply small_top; apply Rabs_le; lra].
Qed.

Lemma angle_decided at2 cy cx y x z : usual_arctan2 at2 -> ((y - cy) * (y - cy) + (x - cx) * (x - cx) <= 2 ^ 45)%Z -> round_angle z -> (Z.abs z < 2 ^ 53)%Z ->
  let t := phi_at (IZR cy) (IZR cx) y x in
  (nleb (nofZ z) (phi64 at2 cy cx y x) = true <-> IZR z <= t) /\ (nltb (phi64 at2 cy cx y x) (nofZ z) = true <-> t < IZR z).
Proof.
  intros Ha Hb Hr Hz t. destruct (phi_near at2 cy cx y x Ha Hb) as (f & V & R & E & Pr). fold t in E, Pr.
  pose proof (polar_at (IZR cy) (IZR cx) y x) as Po. fold t in Po. rewrite <- !minus_IZR in Po.
  assert (Vz : is_value (nofZ z) (IZR z)) by (apply ofZ_value; exact Hz).
  rewrite (leb_value _ _ _ _ Vz V), (ltb_value _ _ _ _ V Vz).
  assert (K : IZR z <= f <-> IZR z <= t).
  { destruct (Z.lt_ge_cases z 0) as [N|N]; [apply IZR_lt in N; destruct Po as (_ & Rt & _); split; intros; lra|].
    assert (Dec : (y - cy = 0 \/ x - cx = 0 \/ y - cy = x - cx \/ y - cy = - (x - cx))%Z \/ ~ (y - cy = 0 \/ x - cx = 0 \/ y - cy = x - cx \/ y - cy = - (x - cx))%Z) by lia.
    destruct Dec as [D|D]; [rewrite (Pr D); reflexivity|].
    pose proof (away z _ _ _ _ N Hr Po D Hb) as A. apply Rabs_le_inv in E. split; intros L.
    - destruct (Rle_or_lt (IZR z) t) as [?|M]; [assumption|exfalso]. rewrite Rabs_left in A by lra. lra.
    - destruct (Rle_or_lt (IZR z) f) as [?|M]; [assumption|exfalso]. rewrite Rabs_pos_eq in A by lra. lra. }
  split; [case Rle_bool_spec|case Rlt_bool_spec]; intros L; split; intros M; try reflexivity; try discriminate; try tauto.
  - exfalso. apply K in M. lra.
  - destruct (Rlt_or_le t (IZR z)) as [?|Q]; [assumption|exfalso]. apply K in Q. lra.
  - exfalso. apply K in L. lra.
Qed.

Lemma distance_decided cy cx r1 r2 y x : (0 <= r1 < 2 ^ 25)%Z -> (0 <= r2 < 2 ^ 25)%Z -> ((y - cy) * (y - cy) + (x - cx) * (x - cx) < 2 ^ 53)%Z ->
  (nltb (nofZ r1) (distance (A := b64) cy cx y x) && nleb (distance (A := b64) cy cx y x) (nofZ r2) = true <-> IZR r1 < rho_at (IZR cy) (IZR cx) y x <= IZR r2).
Proof.
  intros H1 H2 Hq. rewrite rho_at_Z. pose proof (distance_value cy cx y x Hq) as V. unfold dist. set (q := ((y - cy) * (y - cy) + (x - cx) * (x - cx))%Z) in *.
  assert (Q0 : (0 <= q)%Z) by (unfold q; pose proof (Z.square_nonneg (y - cy)); pose proof (Z.square_nonneg (x - cx)); lia). clearbody q.
  rewrite andb_true_iff. assert (V1 : is_value (nofZ r1) (IZR r1)) by (apply ofZ_value; lia). assert (V2 : is_value (nofZ r2) (IZR r2)) by (apply ofZ_value; lia).
  rewrite (ltb_value _ _ _ _ V1 V), (leb_value _ _ _ _ V V2).
  pose proof (rnd_root q r1 H1 Q0) as A1. pose proof (rnd_root q r2 H2 Q0) as A2.
  pose proof (root_floor q r1 ltac:(lia) Q0) as B1. pose proof (root_floor q r2 ltac:(lia) Q0) as B2.
  assert (E1 : Rlt_bool (IZR r1) (rnd (sqrt (IZR q))) = true <-> IZR r1 < sqrt (IZR q)).
  { case Rlt_bool_spec; intros K; split; intros L; try reflexivity; try discriminate.
    - destruct (Rle_or_lt (sqrt (IZR q)) (IZR r1)) as [M|M]; [exfalso|exact M]. apply B1, A1 in M. lra.
    - apply A1, B1 in K. lra. }
  assert (E2 : Rle_bool (rnd (sqrt (IZR q))) (IZR r2) = true <-> sqrt (IZR q) <= IZR r2).
  { case Rle_bool_spec; intros K; split; intros L; try reflexivity; try discriminate.
    - apply B2, A2, K.
    - apply B2, A2 in L. lra. }
  rewrite E1, E2. reflexivity.
Qed.

Lemma selected_iff at2 cy cx r1 r2 t1 t2 y x : (0 <= r1 < 2 ^ 25)%Z -> (0 <= r2 < 2 ^ 25)%Z -> ((y - cy) * (y - cy) + (x - cx) * (x - cx) < 2 ^ 53)%Z ->
  (selected at2 cy cx r1 r2 t1 t2 y x = true <-> IZR r1 < rho_at (IZR cy) (IZR cx) y x <= IZR r2 /\
    nleb t1 (phi64 at2 cy cx y x) = true /\ nltb (phi64 at2 cy cx y x) t2 = true).
Proof.
  intros H1 H2 Hq. rewrite <- (distance_decided cy cx r1 r2 y x H1 H2 Hq). unfold selected. rewrite !andb_true_iff. tauto.
Qed.

Lemma selected_round at2 cy cx r1 r2 z1 z2 y x : usual_arctan2 at2 -> (0 <= r1 < 2 ^ 25)%Z -> (0 <= r2 < 2 ^ 25)%Z ->
  ((y - cy) * (y - cy) + (x - cx) * (x - cx) <= 2 ^ 45)%Z -> round_angle z1 -> round_angle z2 -> (Z.abs z1 < 2 ^ 53)%Z -> (Z.abs z2 < 2 ^ 53)%Z ->
  (selected at2 cy cx r1 r2 (nofZ z1) (nofZ z2) y x = true <-> in_sector (IZR y - IZR cy) (IZR x - IZR cx) (IZR r1) (IZR r2) (IZR z1) (IZR z2)).
Proof.
  intros Ha H1 H2 Hb R1 R2 Z1 Z2. rewrite <- sector_iff, (selected_iff at2 cy cx r1 r2 _ _ y x H1 H2 ltac:(lia)). rewrite !andb_true_iff, !Rltb_true, !Rleb_true.
  destruct (angle_decided at2 cy cx y x z1 Ha Hb R1 Z1) as (D1 & _). destruct (angle_decided at2 cy cx y x z2 Ha Hb R2 Z2) as (_ & D2).
  rewrite D1, D2. tauto.
Qed.

Lemma selected_near at2 cy cx r1 r2 t1 t2 y x : usual_arctan2 at2 -> (0 <= r1 < 2 ^ 25)%Z -> (0 <= r2 < 2 ^ 25)%Z ->
  ((y - cy) * (y - cy) + (x - cx) * (x - cx) <= 2 ^ 45)%Z -> is_binary64 t1 -> finite64 t1 -> is_binary64 t2 -> finite64 t2 ->
  (selected at2 cy cx r1 r2 t1 t2 y x = true -> in_sector (IZR y - IZR cy) (IZR x - IZR cx) (IZR r1) (IZR r2) (fval t1 - bound) (fval t2 + bound)) /\
  (in_sector (IZR y - IZR cy) (IZR x - IZR cx) (IZR r1) (IZR r2) (fval t1 + bound) (fval t2 - bound) -> selected at2 cy cx r1 r2 t1 t2 y x = true).
Proof.
  intros Ha H1 H2 Hb B1 F1 B2 F2. destruct (phi_near at2 cy cx y x Ha Hb) as (f & V & R & E & _). apply Rabs_le_inv in E.
  assert (V1 : is_value t1 (fval t1)) by (repeat split; assumption). assert (V2 : is_value t2 (fval t2)) by (repeat split; assumption).
  rewrite <- !sector_iff, (selected_iff at2 cy cx r1 r2 _ _ y x H1 H2 ltac:(lia)). rewrite !andb_true_iff, !Rltb_true, !Rleb_true.
  rewrite (leb_value _ _ _ _ V1 V), (ltb_value _ _ _ _ V V2). split.
  - intros (D & L1 & L2). split; [exact D|]. revert L1 L2. case Rle_bool_spec; [|discriminate]. intros L1 _. case Rlt_bool_spec; [|discriminate]. intros L2 _. lra.
  - intros (D & L1 & L2). split; [exact D|]. split; [apply Rle_bool_true|apply Rlt_bool_true]; lra.
Qed.

(** ** Images *)
Lemma square_sum a b c d : (0 <= a < 2 ^ 21)%Z -> (Z.abs b <= 2 ^ 21)%Z -> (0 <= c < 2 ^ 21)%Z -> (Z.abs d <= 2 ^ 21)%Z -> ((a - b) * (a - b) + (c - d) * (c - d) <= 2 ^ 45)%Z.
Proof.
  intros Ha Hb Hc Hd. change (2 ^ 45)%Z with (2 ^ 22 * 2 ^ 22 + 2 ^ 22 * 2 ^ 22)%Z.
  assert (G : forall w, (Z.abs w <= 2 ^ 22)%Z -> (w * w <= 2 ^ 22 * 2 ^ 22)%Z) by (intros; nia).
  pose proof (G (a - b)%Z ltac:(lia)). pose proof (G (c - d)%Z ltac:(lia)). lia.
Qed.
Lemma quot_le n : (0 <= n)%Z -> (0 <= Z.quot n 2 <= n)%Z.
Proof. intros. split; [apply Z.quot_pos; lia|apply Z.quot_le_upper_bound; lia]. Qed.
Lemma quot_abs n m : (Z.abs n <= m)%Z -> (Z.abs (Z.quot n 2) <= m)%Z.
Proof. intros H. Z.to_euclidean_division_equations. lia. Qed.

Lemma c143_pixels at2 {A} (data : arr A) cy cx r1 r2 z1 z2 fill : usual_arctan2 at2 ->
  (rows data <= 2 ^ 21)%Z -> (cols data <= 2 ^ 21)%Z -> (Z.abs cy <= 2 ^ 21)%Z -> (Z.abs cx <= 2 ^ 21)%Z ->
  (0 <= r1 < 2 ^ 25)%Z -> (0 <= r2 < 2 ^ 25)%Z -> round_angle z1 -> round_angle z2 -> (Z.abs z1 < 2 ^ 53)%Z -> (Z.abs z2 < 2 ^ 53)%Z ->
  let m := roi_boolean64 at2 data (Some (cy, cx)) r1 r2 (nofZ z1) (nofZ z2) false in
  exists out, roi64 at2 data (Some (cy, cx)) r1 r2 (nofZ z1) (nofZ z2) fill false = Ok out /\ same_shape m data /\
    (forall y x, (0 <= y < rows data)%Z -> (0 <= x < cols data)%Z ->
       (cell m y x = true <-> in_sector (IZR y - IZR cy) (IZR x - IZR cx) (IZR r1) (IZR r2) (IZR z1) (IZR z2))) /\
    holds out data (fun y x => if cell m y x then cell data y x else fill).
Proof.
  intros Ha S1 S2 C1 C2 R1 R2 A1 A2 Z1 Z2 m. assert (Sm : same_shape m data) by (split; reflexivity).
  destruct (where_fill_same m data fill Sm) as (out & Eo & Ho). exists out. split; [exact Eo|]. split; [exact Sm|]. split; [|exact Ho].
  intros y x Hy Hx. apply selected_round; try assumption. apply square_sum; lia.
Qed.

Lemma c143_super at2 {A} (data : arr A) cy cx r1 r2 z1 z2 fill : usual_arctan2 at2 -> mosaic data ->
  (rows data <= 2 ^ 21)%Z -> (cols data <= 2 ^ 21)%Z -> (Z.abs cy <= 2 ^ 21)%Z -> (Z.abs cx <= 2 ^ 21)%Z ->
  (0 <= r1 < 2 ^ 25)%Z -> (0 <= r2 < 2 ^ 25)%Z -> round_angle z1 -> round_angle z2 -> (Z.abs z1 < 2 ^ 53)%Z -> (Z.abs z2 < 2 ^ 53)%Z ->
  let m := roi_boolean64 at2 data (Some (cy, cx)) r1 r2 (nofZ z1) (nofZ z2) true in
  exists out, roi64 at2 data (Some (cy, cx)) r1 r2 (nofZ z1) (nofZ z2) fill true = Ok out /\ same_shape m data /\
    (forall y x, (0 <= y < rows data)%Z -> (0 <= x < cols data)%Z ->
       (cell m y x = true <-> in_sector (IZR (y / 2) - IZR (Z.quot cy 2)) (IZR (x / 2) - IZR (Z.quot cx 2)) (IZR (Z.quot r1 2)) (IZR (Z.quot r2 2)) (IZR z1) (IZR z2))) /\
    holds out data (fun y x => if cell m y x then cell data y x else fill).
Proof.
  intros Ha (M1 & M2 & M3 & M4) S1 S2 C1 C2 R1 R2 A1 A2 Z1 Z2 m.
  assert (Sm : same_shape m data).
  { split; unfold m, roi_boolean64, repeat2; cbn [rows cols]; apply even_quot; assumption. }
  destruct (where_fill_same m data fill Sm) as (out & Eo & Ho). exists out. split; [exact Eo|]. split; [exact Sm|]. split; [|exact Ho].
  intros y x Hy Hx. unfold m, roi_boolean64, repeat2. cbn [cell].
  apply selected_round; try assumption; [pose proof (quot_le r1 ltac:(lia)); lia|pose proof (quot_le r2 ltac:(lia)); lia|].
  apply square_sum; try (apply quot_abs; assumption); Z.to_euclidean_division_equations; lia.
Qed.

Lemma c143_any at2 {A} (data : arr A) cy cx r1 r2 t1 t2 y x : usual_arctan2 at2 ->
  (rows data <= 2 ^ 21)%Z -> (cols data <= 2 ^ 21)%Z -> (Z.abs cy <= 2 ^ 21)%Z -> (Z.abs cx <= 2 ^ 21)%Z ->
  (0 <= r1 < 2 ^ 25)%Z -> (0 <= r2 < 2 ^ 25)%Z -> is_binary64 t1 -> finite64 t1 -> is_binary64 t2 -> finite64 t2 ->
  (0 <= y < rows data)%Z -> (0 <= x < cols data)%Z -> let e := powerRZ 2 (-42) in
  let m := cell (roi_boolean64 at2 data (Some (cy, cx)) r1 r2 t1 t2 false) y x in
  let sector := in_sector (IZR y - IZR cy) (IZR x - IZR cx) (IZR r1) (IZR r2) in
  (m = true -> sector (fval t1 - e) (fval t2 + e)) /\ (sector (fval t1 + e) (fval t2 - e) -> m = true).
Proof.
  intros Ha S1 S2 C1 C2 R1 R2 B1 F1 B2 F2 Hy Hx e m sector. unfold e. change (powerRZ 2 (-42)) with (powerRZ (IZR radix2) (-42)). rewrite <- bpow_powerRZ.
  apply selected_near; try assumption. apply square_sum; lia.
Qed.

Lemma sides a b : (a * a + b * b <= 2 ^ 45)%Z -> (Z.abs a < 2 ^ 31)%Z /\ (Z.abs b < 2 ^ 31)%Z.
Proof. intros. split; nia. Qed.
Lemma c143_angle at2 cy cx y x : usual_arctan2 at2 -> ((y - cy) * (y - cy) + (x - cx) * (x - cx) <= 2 ^ 45)%Z ->
  let before := turned at2 (y - cy) (x - cx) in let f := phi64 at2 cy cx y x in
  is_binary64 before /\ finite64 before /\ 0 <= fval before < 720 /\ is_binary64 f /\ finite64 f /\ 0 <= fval f < 360 /\
  exists rho phi, polar_of (IZR y - IZR cy) (IZR x - IZR cx) rho phi /\ Rabs (fval f - phi) <= powerRZ 2 (-42).
Proof.
  intros Ha Hb before f. change (powerRZ 2 (-42)) with (powerRZ (IZR radix2) (-42)). rewrite <- bpow_powerRZ.
  destruct (sides _ _ Hb) as (Sy & Sx). destruct (turned_near at2 (y - cy) (x - cx) Ha Sy Sx) as (v & (V1 & V2 & V3) & _ & Rv).
  destruct (phi_near at2 cy cx y x Ha Hb) as (g & (G1 & G2 & G3) & Rg & Eg & _).
  split; [exact V1|]. split; [exact V2|]. split; [unfold before; rewrite V3; exact Rv|]. split; [exact G1|]. split; [exact G2|].
  split; [unfold f; rewrite G3; exact Rg|]. eexists _, _. split; [apply polar_at|]. unfold f. rewrite G3. exact Eg.
Qed.

(** A sector across the positive x axis loses its lower part. *)
Lemma c143_across at2 {A} (data : arr A) cy cx : usual_arctan2 at2 -> (rows data <= 2 ^ 21)%Z -> (cols data <= 2 ^ 21)%Z ->
  (1 <= cy < rows data)%Z -> (0 <= cx)%Z -> (cx + 2 < cols data)%Z ->
  cell (roi_boolean64 at2 data (Some (cy, cx)) 0 5 (nofZ (-45)) (nofZ 45) false) (cy - 1) (cx + 2) = false /\
  exists a, -45 <= a < 45 /\ 2 = sqrt 5 * cos (a / 180 * PI) /\ -1 = sqrt 5 * sin (a / 180 * PI).
Proof.
  intros Ha S1 S2 Hy H0 Hx. split.
  - destruct (cell (roi_boolean64 at2 data (Some (cy, cx)) 0 5 (nofZ (-45)) (nofZ 45) false) (cy - 1) (cx + 2)) eqn:E; [exfalso|reflexivity].
    change (selected at2 cy cx 0 5 (nofZ (-45)) (nofZ 45) (cy - 1) (cx + 2) = true) in E.
    apply selected_round in E; [|exact Ha|lia|lia|ring_simplify; lia|right; reflexivity|right; reflexivity|lia|lia].
    destruct E as (rho & phi & (R0 & Rp & _ & Ey & _) & Hr & Ht). rewrite minus_IZR in Ey. ring_simplify (IZR cy - 1 - IZR cy) in Ey.
    pose proof PI_RGT_0. assert (S : 0 <= sin (phi / 180 * PI)) by (apply sin_ge_0; nra). nra.
  - pose proof PI_RGT_0. exists (atan (- / 2) * 180 / PI). replace (atan (- / 2) * 180 / PI / 180 * PI) with (atan (- / 2)) by (field; lra).
    rewrite cos_atan, sin_atan. assert (L : - (PI / 4) < atan (- / 2)) by (rewrite <- atan_1, <- atan_opp; apply atan_increasing; lra).
    assert (U : atan (- / 2) < 0) by (rewrite <- atan_0; apply atan_increasing; lra).
    assert (S5 : sqrt (1 + (- / 2)²) = sqrt 5 / 2).
    { replace (1 + (- / 2)²) with (5 / 4) by (unfold Rsqr; lra). rewrite sqrt_div by lra. f_equal. replace 4 with (2 * 2) by lra. apply sqrt_square. lra. }
    rewrite S5. pose proof (sqrt_lt_R0 5 ltac:(lra)). set (t := atan (- / 2)) in *. split; [|split; field; lra]. split.
    + apply (Rmult_le_reg_r PI); [lra|]. unfold Rdiv. rewrite Rmult_assoc, Rinv_l by lra. lra.
    + apply (Rmult_lt_reg_r PI); [lra|]. unfold Rdiv. rewrite Rmult_assoc, Rinv_l by lra. lra.
Qed.


(** ** There are such library functions *)
Lemma some_near w q : is_binary64 (some_arctan2 w q) /\ finite64 (some_arctan2 w q) /\ Rabs (fval (some_arctan2 w q) - atan2 (fval w) (fval q)) <= bpow radix2 (-51).
Proof.
  unfold some_arctan2. destruct (atan2_spec (fval w) (fval q)) as (B & _). set (t := atan2 (fval w) (fval q)) in *.
  pose proof (Znearest_half (fun _ => true) (t * bpow radix2 50)) as N. set (m := Znearest (fun _ => true) (t * bpow radix2 50)) in *.
  pose proof PI_4 as P4. pose proof PI_RGT_0. pose proof (bpow_gt_0 radix2 50) as B0.
  assert (Hm : (Z.abs m <= 2 ^ 52 + 1)%Z).
  { apply le_IZR. rewrite abs_IZR, plus_IZR. change (IZR (2 ^ 52)) with (bpow radix2 52). change 52%Z with (2 + 50)%Z. rewrite bpow_plus.
    change (bpow radix2 2) with 4. pose proof (Rabs_triang_inv (IZR m) (t * bpow radix2 50)) as T. rewrite Rabs_minus_sym in T.
    assert (K : Rabs (t * bpow radix2 50) <= 4 * bpow radix2 50).
    { rewrite Rabs_mult, (Rabs_pos_eq (bpow radix2 50)) by lra. apply Rmult_le_compat_r; [lra|]. apply Rabs_le. lra. }
    rewrite Rabs_minus_sym in N. rewrite Rabs_minus_sym in T. lra. }
  assert (F : fx (2 ^ 52 + 1) 0 (nofZ m) (IZR m)).
  { exists m. split; [apply ofZ_value; lia|]. split; [symmetry; apply fixed_0|]. lia. }
  destruct (fx_div_pow _ _ 50 _ _ F ltac:(lia) ltac:(lia) ltac:(lia)) as (m' & (V & Fi & E) & _). split; [exact V|]. split; [exact Fi|].
  rewrite E. change (IZR (2 ^ 50)) with (bpow radix2 50).
  replace (IZR m / bpow radix2 50 - t) with ((IZR m - t * bpow radix2 50) * bpow radix2 (-50)).
  - rewrite Rabs_mult, (Rabs_pos_eq (bpow radix2 (-50))) by apply bpow_ge_0. rewrite Rabs_minus_sym.
    replace (bpow radix2 (-51)) with (/ 2 * bpow radix2 (-50)) by (change (/ 2) with (bpow radix2 (-1)); rewrite <- bpow_plus; reflexivity).
    apply Rmult_le_compat_r; [apply bpow_ge_0|]. exact N.
  - change (-50)%Z with (- (50))%Z. rewrite bpow_opp. field. lra.
Qed.
Fixpoint pick (t : R) (l : list Z) (other : b64) : b64 :=
  match l with
  | [] => other
  | k :: l => if Req_EM_T t (IZR k * (PI / 4)) then eighth k else pick t l other
  end.
Definition some_usual (w q : b64) : b64 := pick (atan2 (fval w) (fval q)) [-3; -2; -1; 0; 1; 2; 3; 4]%Z (some_arctan2 w q).
Lemma pick_hit t k l o : In k l -> t = IZR k * (PI / 4) -> pick t l o = eighth k.
Proof.
  intros Hk ->. induction l as [|j l IH]; [destruct Hk|]. cbn [pick]. destruct (Req_EM_T (IZR k * (PI / 4)) (IZR j * (PI / 4))) as [E|N].
  - pose proof PI_RGT_0. f_equal. apply eq_IZR. apply (Rmult_eq_reg_r (PI / 4)); lra.
  - destruct Hk as [->|Hk]; [congruence|apply IH, Hk].
Qed.
Lemma pick_cases t l o : (exists k, In k l /\ t = IZR k * (PI / 4)) \/ pick t l o = o.
Proof.
  induction l as [|j l IH]; [right; reflexivity|]. cbn [pick]. destruct (Req_EM_T t (IZR j * (PI / 4))) as [E|N].
  - left. exists j. split; [left; reflexivity|exact E].
  - destruct IH as [(k & K & E)|E]; [left; exists k; split; [right; exact K|exact E]|right; exact E].
Qed.
Lemma eighth_near k : (-3 <= k <= 4)%Z -> is_binary64 (eighth k) /\ finite64 (eighth k) /\ Rabs (fval (eighth k) - IZR k * (PI / 4)) <= bpow radix2 (-51).
Proof.
  intros Hk. change (bpow radix2 (-51)) with (/ 2251799813685248). pose proof pi_bounds.
  assert (C : (k = -3 \/ k = -2 \/ k = -1 \/ k = 0 \/ k = 1 \/ k = 2 \/ k = 3 \/ k = 4)%Z) by lia.
  destruct C as [->|[->|[->|[->|[->|[->|[->| ->]]]]]]]; (split; [reflexivity|]); (split; [exact I|]); cbn [eighth fval];
    rewrite <- ?(bpow_powerRZ radix2);
    rewrite ?(eq_refl : bpow radix2 (-51) = / 2251799813685248), ?(eq_refl : bpow radix2 (-52) = / 4503599627370496), ?(eq_refl : bpow radix2 (-53) = / 9007199254740992);
    apply Rabs_le; lra.
Qed.
Lemma usual_exists : usual_arctan2 some_usual.
Proof.
  intros dy dx Hy Hx. change (powerRZ 2 (-51)) with (powerRZ (IZR radix2) (-51)). rewrite <- bpow_powerRZ. unfold some_usual.
  assert (Vy : fval (@nofZ b64 _ dy) = IZR dy) by (apply value_val, ofZ_value; lia). assert (Vx : fval (@nofZ b64 _ dx) = IZR dx) by (apply value_val, ofZ_value; lia).
  cbv zeta. rewrite Vy, Vx. set (t := atan2 (IZR dy) (IZR dx)) in *.
  assert (L : forall k, (-3 <= k <= 4)%Z -> In k [-3; -2; -1; 0; 1; 2; 3; 4]%Z) by (intros k Hk; cbn [In]; lia).
  assert (L' : forall k, In k [-3; -2; -1; 0; 1; 2; 3; 4]%Z -> (-3 <= k <= 4)%Z) by (intros k Hk; cbn [In] in Hk; lia).
  set (a := pick t _ _). assert (G : is_binary64 a /\ finite64 a /\ Rabs (fval a - t) <= bpow radix2 (-51)).
  { destruct (pick_cases t [-3; -2; -1; 0; 1; 2; 3; 4]%Z (some_arctan2 (nofZ dy) (nofZ dx))) as [(k & Hk & E)|E].
    - unfold a. rewrite (pick_hit t k _ _ Hk E), E. apply eighth_near, L', Hk.
    - unfold a. rewrite E. pose proof (some_near (nofZ dy) (nofZ dx)) as N. rewrite Vy, Vx in N. exact N. }
  destruct G as (G1 & G2 & G3). split; [exact G1|]. split; [exact G2|]. split; [exact G3|].
  intros k Hk E. apply pick_hit; [apply L, Hk|exact E].
Qed.

Lemma c143_circle at2 {A} (data : arr A) cy cx r1 r2 incl : usual_arctan2 at2 -> mosaic data ->
  (rows data <= 2 ^ 21)%Z -> (cols data <= 2 ^ 21)%Z -> (Z.abs cy <= 2 ^ 21)%Z -> (Z.abs cx <= 2 ^ 21)%Z ->
  (0 <= r1 < 2 ^ 25)%Z -> (0 <= r2 < 2 ^ 25)%Z ->
  let m := roi_boolean64 at2 data (Some (cy, cx)) r1 r2 (nofZ 0) (nofZ 360) incl in
  forall y x, (0 <= y < rows data)%Z -> (0 <= x < cols data)%Z ->
    (cell m y x = true <->
     if incl then IZR (Z.quot r1 2) < dist (y / 2) (x / 2) (Z.quot cy 2) (Z.quot cx 2) <= IZR (Z.quot r2 2)
     else IZR r1 < dist y x cy cx <= IZR r2).
Proof.
  intros Ha Hm S1 S2 C1 C2 R1 R2 m y x Hy Hx. unfold m. destruct incl.
  - destruct (c143_super at2 (amap (fun _ => tt) data) cy cx r1 r2 0 360 tt Ha Hm S1 S2 C1 C2 R1 R2 ltac:(left; reflexivity) ltac:(left; reflexivity) ltac:(lia) ltac:(lia)) as (_ & _ & _ & V & _).
    rewrite <- rho_at_Z, <- sector_full. apply (V y x Hy Hx).
  - destruct (c143_pixels at2 (amap (fun _ => tt) data) cy cx r1 r2 0 360 tt Ha S1 S2 C1 C2 R1 R2 ltac:(left; reflexivity) ltac:(left; reflexivity) ltac:(lia) ltac:(lia)) as (_ & _ & _ & V & _).
    rewrite <- rho_at_Z, <- sector_full. apply (V y x Hy Hx).
Qed.
Lemma c143_centre at2 {A} (data : arr A) r1 r2 t1 t2 fill incl :
  roi64 at2 data None r1 r2 t1 t2 fill incl = roi64 at2 data (Some (Z.quot (rows data) 2, Z.quot (cols data) 2)%Z) r1 r2 t1 t2 fill incl.
Proof. reflexivity. Qed.
Lemma c143_case_sector : in_sector (IZR 3 - IZR 2) (IZR 4 - IZR 2) (IZR 1) (IZR 3) (IZR 0) (IZR 30) /\ ~ in_sector (IZR 4 - IZR 2) (IZR 4 - IZR 2) (IZR 1) (IZR 3) (IZR 0) (IZR 45).
Proof.
  pose proof pi_bounds as PB. split.
  - rewrite <- (sector_iff 2 2 1 3 0 30 3 4). rewrite !andb_true_iff, !Rltb_true, !Rleb_true.
    assert (R5 : rho_at 2 2 3 4 = sqrt 5) by (unfold rho_at; f_equal; lra). rewrite R5.
    pose proof (sqrt_sqrt 5 ltac:(lra)) as Q. pose proof (sqrt_lt_R0 5 ltac:(lra)) as Q0. split; [split; nra|].
    assert (E : phi_at 2 2 3 4 = atan (/ 2) * 180 / PI).
    { destruct (polar_unique 1 2 _ _ (sqrt 5) (atan (/ 2) * 180 / PI) ltac:(pose proof (polar_at 2 2 3 4) as H; replace (IZR 3 - 2) with 1 in H by lra; replace (IZR 4 - 2) with 2 in H by lra; exact H)) as (_ & E); [|exact E].
      unfold polar_of. replace (atan (/ 2) * 180 / PI / 180 * PI) with (atan (/ 2)) by (field; lra). rewrite cos_atan, sin_atan.
      assert (S5 : sqrt (1 + (/ 2)²) = sqrt 5 / 2).
      { replace (1 + (/ 2)²) with (5 / 4) by (unfold Rsqr; lra). rewrite sqrt_div by lra. f_equal. replace 4 with (2 * 2) by lra. apply sqrt_square. lra. }
      rewrite S5. assert (A0 : 0 < atan (/ 2)) by (rewrite <- atan_0; apply atan_increasing; lra).
      assert (A1 : atan (/ 2) < PI / 4) by (rewrite <- atan_1; apply atan_increasing; lra). set (t := atan (/ 2)) in *.
      split; [lra|]. split; [split|].
      - apply (Rmult_le_reg_r PI); [lra|]. unfold Rdiv. rewrite Rmult_assoc, Rinv_l by lra. lra.
      - apply (Rmult_lt_reg_r PI); [lra|]. unfold Rdiv. rewrite Rmult_assoc, Rinv_l by lra. lra.
      - split; [field; lra|]. split; [field; lra|lra]. }
    rewrite E. assert (A0 : 0 < atan (/ 2)) by (rewrite <- atan_0; apply atan_increasing; lra).
    assert (A1 : atan (/ 2) < PI / 6).
    { rewrite <- (atan_tan (PI / 6)) by lra. apply atan_increasing. rewrite tan_PI6. pose proof (sqrt_sqrt 3 ltac:(lra)) as S3. pose proof (sqrt_lt_R0 3 ltac:(lra)) as S0.
      apply (Rmult_lt_reg_r (sqrt 3)); [lra|]. unfold Rdiv. rewrite Rmult_assoc, Rinv_l by lra. nra. }
    split.
    + apply (Rmult_le_reg_r PI); [lra|]. unfold Rdiv. rewrite Rmult_assoc, Rinv_l by lra. lra.
    + apply (Rmult_lt_reg_r PI); [lra|]. unfold Rdiv. rewrite Rmult_assoc, Rinv_l by lra. lra.
  - intros H. pose proof (sector_iff 2 2 1 3 0 45 4 4) as S. apply S in H. rewrite !andb_true_iff, !Rltb_true, !Rleb_true in H. destruct H as (_ & _ & H).
    unfold phi_at in H. destruct (principal 2 2 ltac:(lia)) as (k & Hk & E). replace (IZR 4 - 2) with 2 in H by lra.
    assert (K : k = 1%Z).
    { unfold atan2 in E. assert (T : Rltb 0 2 = true) by (apply Rltb_true; lra). rewrite T in E. replace (2 / 2) with 1 in E by lra. rewrite atan_1 in E.
      apply eq_IZR. apply (Rmult_eq_reg_r (PI / 4)); lra. }
    subst k. rewrite E, fmod360_round in H by lia. change (45 * (1 mod 8))%Z with 45%Z in H. lra.
Qed.

(** ** The same as with exact arithmetic *)
Lemma where_fill_agree {A} (c c' : arr bool) (data : arr A) fill : rows c = rows c' -> cols c = cols c' ->
  (forall y x, (0 <= y < rows c)%Z -> (0 <= x < cols c)%Z -> cell c y x = cell c' y x) -> same_outcome (where_fill c data fill) (where_fill c' data fill).
Proof.
  intros R C V. unfold where_fill, bmap2. rewrite <- R, <- C.
  destruct (bdim (rows c) (rows data)) as [h|] eqn:H; [|reflexivity]. destruct (bdim (cols c) (cols data)) as [w|] eqn:W; [|reflexivity].
  split; [reflexivity|]. split; [reflexivity|]. cbn [rows cols cell]. intros y x Hy Hx.
  assert (E : bcell c y x = bcell c' y x); [|rewrite E; reflexivity]. unfold bcell. rewrite <- R, <- C. unfold bdim in H, W. apply V.
  - destruct (Z.eqb_spec (rows c) 1) as [->|N]; [lia|]. destruct (Z.eqb_spec (rows c) (rows data)); [injection H as <-; lia|]. destruct (Z.eqb_spec (rows data) 1); [injection H as <-; lia|discriminate].
  - destruct (Z.eqb_spec (cols c) 1) as [->|N]; [lia|]. destruct (Z.eqb_spec (cols c) (cols data)); [injection W as <-; lia|]. destruct (Z.eqb_spec (cols data) 1); [injection W as <-; lia|discriminate].
Qed.

Lemma c143_exact at2 {A} (data : arr A) cy cx r1 r2 z1 z2 fill incl : usual_arctan2 at2 ->
  (rows data <= 2 ^ 21)%Z -> (cols data <= 2 ^ 21)%Z -> (Z.abs cy <= 2 ^ 21)%Z -> (Z.abs cx <= 2 ^ 21)%Z ->
  (0 <= r1 < 2 ^ 25)%Z -> (0 <= r2 < 2 ^ 25)%Z -> round_angle z1 -> round_angle z2 -> (Z.abs z1 < 2 ^ 53)%Z -> (Z.abs z2 < 2 ^ 53)%Z ->
  same_outcome (roi64 at2 data (Some (cy, cx)) r1 r2 (nofZ z1) (nofZ z2) fill incl)
    (roi_from_polar data (Some (IZR cy, IZR cx)) (Some (IZR r1, IZR r2)) (IZR z1, IZR z2) fill incl).
Proof.
  intros Ha S1 S2 C1 C2 R1 R2 A1 A2 Z1 Z2. unfold roi64, roi_from_polar.
  assert (Bo : forall (b b' : bool) (P : Prop), (b = true <-> P) -> (b' = true <-> P) -> b = b').
  { intros [] [] P H H'; try reflexivity; [symmetry; apply H', H; reflexivity|apply H, H'; reflexivity]. }
  destruct incl.
  - destruct (roi_cond_super data (IZR cy) (IZR cx) (IZR r1) (IZR r2) (IZR z1) (IZR z2) _ _ _ _ (truncated_half cy) (truncated_half cx) (truncated_half r1) (truncated_half r2))
      as (c & -> & Rc & Cc & Vc). cbn [bind]. apply where_fill_agree; [symmetry; exact Rc|symmetry; exact Cc|].
    intros y x Hy Hx. refine (Bo _ _ _ _ (Vc y x)). unfold roi_boolean64, repeat2 in *. cbn [rows cols cell] in *.
    apply selected_round; try assumption; [pose proof (quot_le r1 ltac:(lia)); lia|pose proof (quot_le r2 ltac:(lia)); lia|].
    apply square_sum; try (apply quot_abs; assumption); Z.to_euclidean_division_equations; lia.
  - destruct (roi_cond_pixel data (IZR cy) (IZR cx) (IZR r1) (IZR r2) (IZR z1) (IZR z2)) as (c & -> & Rc & Cc & Vc).
    cbn [bind]. apply where_fill_agree; [symmetry; exact Rc|symmetry; exact Cc|].
    intros y x Hy Hx. refine (Bo _ _ _ _ (Vc y x)). cbn [roi_boolean64 rows cols cell] in *. apply selected_round; try assumption. apply square_sum; lia.
Qed.
