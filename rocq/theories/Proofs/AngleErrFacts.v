(** Errors of angle and degree of polarization (C118). *)
From Coq Require Import ZArith Reals Lra Lia Floats.SpecFloat String.
From Flocq Require Import Core Relative Mult_error BinarySingleNaN.
From Verif Require Import Base.Base Base.Num Base.BaseFacts Model.Demosaic Model.Stokes Model.Pol Model.PolFloat
  Spec.AngleSpec Spec.MosaicSpec Spec.FloatSpec Spec.AngleErr
  Proofs.FloatFacts Proofs.MosaicFacts Proofs.MosaicProps Proofs.PolFacts Proofs.ExactFacts Proofs.RoundFacts Proofs.RoundImages.
Local Open Scope R_scope.

(** ** Directions *)
Lemma reduce t : exists (n : Z), Rabs (t - IZR n * (2 * PI)) <= PI.
Proof.
  pose proof PI_RGT_0 as P. destruct (archimed ((t - PI) / (2 * PI))) as (A & B).
  exists (up ((t - PI) / (2 * PI))).
  set (n := IZR (up ((t - PI) / (2 * PI)))) in *. set (q := (t - PI) / (2 * PI)) in *.
  assert (E : t = q * (2 * PI) + PI) by (unfold q; field; lra).
  pose proof (Rmult_lt_compat_r (2 * PI) q n ltac:(lra) ltac:(lra)) as L.
  pose proof (Rmult_le_compat_r (2 * PI) (n - q) 1 ltac:(lra) ltac:(lra)) as M.
  apply Rabs_le. lra.
Qed.

Lemma asin_above x s : 0 <= x <= PI / 2 -> 0 <= s <= 1 -> sin x <= s -> x <= asin s.
Proof.
  intros Hx Hs L. pose proof (asin_bound s) as B. destruct (Rle_or_lt x (asin s)) as [?|G]; [assumption|exfalso].
  pose proof (sin_increasing_1 (asin s) x ltac:(lra) ltac:(lra) ltac:(lra) ltac:(lra) G) as I.
  rewrite sin_asin in I by lra. lra.
Qed.

Lemma cos_2kpi t (n : Z) : cos (t - IZR n * (2 * PI)) = cos t /\ sin (t - IZR n * (2 * PI)) = sin t.
Proof.
  rewrite cos_minus, sin_minus.
  assert (S : sin (IZR n * (2 * PI)) = 0) by (apply sin_eq_0_1; exists (2 * n)%Z; rewrite mult_IZR; ring).
  assert (S' : sin (IZR n * PI) = 0) by (apply sin_eq_0_1; exists n; reflexivity).
  assert (C : cos (IZR n * (2 * PI)) = 1).
  { replace (IZR n * (2 * PI)) with (2 * (IZR n * PI)) by ring. rewrite cos_2a_sin, S'. ring. }
  rewrite S, C. split; ring.
Qed.

Lemma directions P P' a b e : 0 <= P' -> 0 <= e < P ->
  Rsqr (P' * cos b - P * cos a) + Rsqr (P' * sin b - P * sin a) <= Rsqr e ->
  close_angle (2 * PI) (asin (e / P)) b a.
Proof.
  intros HP' He HE. destruct (reduce (b - a)) as (n & Hn). exists n. set (d := b - a - IZR n * (2 * PI)) in *.
  destruct (cos_2kpi (b - a) n) as (Cd & Sd). fold d in Cd, Sd. rewrite cos_minus in Cd. rewrite sin_minus in Sd.
  pose proof (sin2_cos2 a) as Ta. pose proof (sin2_cos2 b) as Tb. pose proof (sin2_cos2 d) as Td. unfold Rsqr in *.
  assert (EQ : (P' * cos b - P * cos a) * (P' * cos b - P * cos a) + (P' * sin b - P * sin a) * (P' * sin b - P * sin a)
    = (P' - P * cos d) * (P' - P * cos d) + P * P * (sin d * sin d)).
  { rewrite Cd. replace (sin d * sin d) with (1 - cos d * cos d) by lra. rewrite Cd.
    transitivity (P' * P' * (sin b * sin b + cos b * cos b) + P * P * (sin a * sin a + cos a * cos a) - 2 * P * P' * (cos b * cos a + sin b * sin a)); [ring|].
    rewrite Ta, Tb. ring. }
  rewrite EQ in HE. clear EQ. set (c := cos d) in *. set (s := sin d) in *.
  assert (C0 : 0 <= c).
  { destruct (Rle_or_lt 0 c) as [?|N]; [assumption|exfalso].
    pose proof (Rmult_le_pos P' (P * - c) HP' ltac:(apply Rmult_le_pos; lra)) as K. pose proof (Rmult_le_pos P' P' HP' HP').
    pose proof (Rmult_le_0_lt_compat e P e P ltac:(lra) ltac:(lra) ltac:(lra) ltac:(lra)).
    assert (X : (P' - P * c) * (P' - P * c) + P * P * (s * s) = P' * P' + 2 * (P' * (P * - c)) + P * P * (s * s + c * c)) by ring.
    rewrite Td in X. lra. }
  assert (S1 : P * P * (s * s) <= e * e) by (pose proof (Rle_0_sqr (P' - P * c)) as K; unfold Rsqr in K; lra).
  assert (S2 : Rabs s <= e / P).
  { apply Rmult_le_reg_l with P; [lra|]. replace (P * (e / P)) with e by (field; lra).
    destruct (Rle_or_lt (P * Rabs s) e) as [?|G]; [assumption|exfalso].
    pose proof (Rmult_le_0_lt_compat e _ e _ ltac:(lra) ltac:(lra) G G) as K.
    replace (P * Rabs s * (P * Rabs s)) with (P * P * (Rabs s * Rabs s)) in K by ring. rewrite <- Rabs_mult, Rabs_pos_eq in K by apply Rle_0_sqr. lra. }
  assert (Q1 : e / P <= 1) by (apply Rmult_le_reg_r with P; [lra|]; replace (e / P * P) with e by (field; lra); lra).
  assert (Q0 : 0 <= e / P) by (apply Rmult_le_pos; [lra|left; apply Rinv_0_lt_compat; lra]).
  pose proof PI_RGT_0 as Pi.
  apply asin_above; [|split; assumption|].
  - split; [apply Rabs_pos|]. destruct (Rle_or_lt (Rabs d) (PI / 2)) as [?|G]; [assumption|exfalso].
    pose proof (cos_lt_0 (Rabs d) G ltac:(lra)) as K.
    assert (cos (Rabs d) = c) as E by (unfold c, Rabs; destruct (Rcase_abs d); [apply cos_neg|reflexivity]). lra.
  - assert (E : sin (Rabs d) = Rabs s).
    { unfold s. destruct (Rle_or_lt 0 d) as [D|D].
      - rewrite (Rabs_pos_eq d D). rewrite Rabs_pos_eq; [reflexivity|]. apply sin_ge_0; [lra|]. rewrite Rabs_pos_eq in Hn by exact D. exact Hn.
      - rewrite (Rabs_left d D). rewrite sin_neg, Rabs_left1; [reflexivity|]. rewrite Rabs_left in Hn by exact D.
        pose proof (sin_ge_0 (- d) ltac:(lra) ltac:(lra)) as K. rewrite sin_neg in K. lra. }
    rewrite E. exact S2.
Qed.

Lemma halve_angle e a b : close_angle (2 * PI) e (2 * a) (2 * b) -> close_angle PI (e / 2) a b.
Proof. intros (n & Hn). exists n. apply Rabs_le_inv in Hn. apply Rabs_le. lra. Qed.

(** ** Real errors *)
Lemma norm_close a b c d e : 0 <= e -> Rsqr (a - c) + Rsqr (b - d) <= Rsqr e ->
  Rabs (sqrt (a * a + b * b) - sqrt (c * c + d * d)) <= e.
Proof.
  assert (G : forall a b c d, 0 <= e -> Rsqr (a - c) + Rsqr (b - d) <= Rsqr e -> sqrt (a * a + b * b) <= sqrt (c * c + d * d) + e).
  { clear. intros a b c d He HE. pose proof (sqrt_pos (c * c + d * d)) as N0.
    pose proof (sqrt_sqrt (c * c + d * d) ltac:(pose proof (Rle_0_sqr c); pose proof (Rle_0_sqr d); unfold Rsqr in *; lra)) as NN.
    set (N := sqrt (c * c + d * d)) in *.
    apply sqrt_le_of_sq; [pose proof (Rle_0_sqr a); pose proof (Rle_0_sqr b); unfold Rsqr in *; lra|lra|].
    unfold Rsqr in HE. set (p := a - c) in *. set (r := b - d) in *. replace a with (c + p) by (unfold p; ring). replace b with (d + r) by (unfold r; ring).
    assert (K : c * p + d * r <= N * e).
    { destruct (Rle_or_lt (c * p + d * r) (N * e)) as [?|L]; [assumption|exfalso].
      pose proof (Rmult_le_pos N e N0 He) as NE. pose proof (Rmult_le_0_lt_compat _ _ _ _ NE NE L L) as M.
      replace (N * e * (N * e)) with (N * N * (e * e)) in M by ring. rewrite NN in M.
      pose proof (Rle_0_sqr (c * r - d * p)) as S. unfold Rsqr in S.
      pose proof (Rle_0_sqr c) as c0. pose proof (Rle_0_sqr d) as d0. unfold Rsqr in c0, d0.
      pose proof (Rmult_le_compat_l (c * c + d * d) _ _ ltac:(lra) HE). lra. }
    lra. }
  intros He HE. pose proof (G a b c d He HE). pose proof (G c d a b He) as G2. apply Rabs_le.
  assert (E : Rsqr (c - a) + Rsqr (d - b) = Rsqr (a - c) + Rsqr (b - d)) by (unfold Rsqr; ring). rewrite E in G2. specialize (G2 HE). lra.
Qed.

Lemma c118_errors (s s' : stokes R) y x e : 0 <= e -> moved e s s' y x ->
  Rabs (cell (pB s') y x - cell (pB s) y x) <= e /\
  (e < cell (pB s) y x -> close_angle PI (asin (e / cell (pB s) y x) / 2) (cell (AoLP s') y x) (cell (AoLP s) y x)) /\
  forall f, Rabs (cell (sI s') y x - cell (sI s) y x) <= f -> 0 < cell (sI s) y x -> 0 < cell (sI s') y x ->
    Rabs (cell (DoLP s') y x - cell (DoLP s) y x) <= (e + cell (DoLP s) y x * f) / cell (sI s') y x.
Proof.
  intros He HM. unfold moved in HM.
  assert (N : Rabs (cell (pB s') y x - cell (pB s) y x) <= e).
  { unfold pB, amap2. cbn [cell]. apply norm_close; assumption. }
  split; [exact N|]. split.
  - intros HP. apply halve_angle. destruct (c19_polar s y x) as (P0 & _ & Q & U & _). destruct (c19_polar s' y x) as (P0' & _ & Q' & U' & _).
    apply (directions (cell (pB s) y x) (cell (pB s') y x)); [exact P0'|lra|]. rewrite <- Q, <- U, <- Q', <- U'. exact HM.
  - intros f Hf I0 I0'. destruct (c20_def s y x) as (D & _). destruct (c20_def s' y x) as (D' & _). cbv zeta in D, D'.
    rewrite (D ltac:(lra)), (D' ltac:(lra)). destruct (c19_polar s y x) as (P0 & _).
    set (P := cell (pB s) y x) in *. set (P' := cell (pB s') y x) in *. set (I := cell (sI s) y x) in *. set (I' := cell (sI s') y x) in *.
    replace (P' / I' - P / I) with (((P' - P) - P / I * (I' - I)) / I') by (field; lra).
    unfold Rdiv at 1. rewrite Rabs_mult, (Rabs_pos_eq (/ I')) by (left; apply Rinv_0_lt_compat; lra).
    apply Rmult_le_compat_r; [left; apply Rinv_0_lt_compat; lra|].
    pose proof (Rabs_triang (P' - P) (- (P / I * (I' - I)))) as T. rewrite Rabs_Ropp, Rabs_mult in T.
    assert (DP : 0 <= P / I) by (apply Rmult_le_pos; [exact P0|left; apply Rinv_0_lt_compat; lra]).
    rewrite (Rabs_pos_eq (P / I) DP) in T. pose proof (Rmult_le_compat_l _ _ _ DP Hf). unfold Rminus at 1. lra.
Qed.

(** ** Binary64 *)
#[local] Existing Instance Hprec.
#[local] Existing Instance Hmax.
#[local] Existing Instance fexp64_valid.
#[local] Existing Instance fexp64_mono.

Lemma fexp_flt : fexp64 = FLT_exp (-1074) 53.
Proof. reflexivity. Qed.

Lemma half_value : is_value nhalf (/ 2).
Proof. destruct half_fx as (k & V & _). replace (/ 2) with (1 / 2) by lra. exact V. Qed.

Lemma half_err a : generic_format radix2 fexp64 a -> Rabs (rnd (/ 2 * a) - / 2 * a) <= bpow radix2 (-1074).
Proof.
  intros Fa. destruct (Req_dec a 0) as [->|Na].
  { rewrite Rmult_0_r, round_0 by typeclasses eauto. rewrite Rminus_eq_0, Rabs_R0. apply bpow_ge_0. }
  destruct (Rle_or_lt (bpow radix2 (-1021)) (Rabs a)) as [Ha|Ha].
  - assert (Hm : (-1020 <= mag radix2 a)%Z) by (apply mag_ge_bpow; exact Ha).
    assert (Fh : generic_format radix2 fexp64 (/ 2 * a)).
    { rewrite Rmult_comm. change (/ 2) with (bpow radix2 (-1)). rewrite fexp_flt.
      apply mult_bpow_exact_FLT; [exact Fa|lia]. }
    rewrite (round_generic radix2 fexp64 ZnearestE _ Fh), Rminus_eq_0, Rabs_R0. apply bpow_ge_0.
  - pose proof (rnd_err (/ 2 * a)) as E. rewrite Rabs_mult, (Rabs_pos_eq (/ 2)) in E by lra.
    replace (bpow radix2 (-1074)) with (bpow radix2 (-1075) + bpow radix2 (-1075)) by
      (replace (bpow radix2 (-1074)) with (bpow radix2 1 * bpow radix2 (-1075)) by (rewrite <- bpow_plus; reflexivity); change (bpow radix2 1) with 2; ring).
    assert (K : u * (/ 2 * Rabs a) <= bpow radix2 (-1075)).
    { replace (bpow radix2 (-1075)) with (u * bpow radix2 (-1022)) by (rewrite <- bpow_plus; reflexivity).
      apply Rmult_le_compat_l; [apply bpow_ge_0|].
      replace (bpow radix2 (-1022)) with (/ 2 * bpow radix2 (-1021)) by (change (/ 2) with (bpow radix2 (-1)); rewrite <- bpow_plus; reflexivity). lra. }
    lra.
Qed.

Lemma one_times (x : b64) : is_binary64 x -> finite64 x -> is_value (n1 *! x) (fval x).
Proof.
  intros V F. assert (Vx : is_value x (fval x)) by (repeat split; assumption).
  assert (V1 : is_value (n1 : b64) 1).
  { exact (ofZ_value 1 ltac:(lia)). }
  pose proof (value_fmt _ _ Vx) as Fm.
  assert (E : rnd (1 * fval x) = fval x) by (rewrite Rmult_1_l; apply round_generic; [typeclasses eauto|exact Fm]).
  pose proof (mul_value n1 x 1 (fval x) V1 Vx) as M. rewrite E in M. apply M.
  destruct (B_value x _ Vx) as (b & _ & _ & Eb). rewrite <- Eb. apply abs_B2R_lt_emax.
Qed.

Lemma c118_float eps at2 (s : stokes b64) (r : stokes R) y x e : accurate_arctan2 eps at2 ->
  is_binary64 (cell (sQ s) y x) -> finite64 (cell (sQ s) y x) -> is_binary64 (cell (sU s) y x) -> finite64 (cell (sU s) y x) ->
  0 <= e -> Rsqr (fval (cell (sQ s) y x) - cell (sQ r) y x) + Rsqr (fval (cell (sU s) y x) - cell (sU r) y x) <= Rsqr e ->
  e < cell (pB r) y x ->
  let a := cell (AoLP64 at2 s) y x in
  is_binary64 a /\ finite64 a /\
  close_angle PI (eps / 2 + asin (e / cell (pB r) y x) / 2 + bpow radix2 (-1074)) (fval a) (cell (AoLP r) y x).
Proof.
  intros Ha Vq Fq Vu Fu He HM HP. set (v := mkstokes (sI r) (amap fval (sQ s)) (amap fval (sU s))).
  destruct (c118_errors r v y x e He HM) as (HB & HA & _). specialize (HA HP).
  cbv zeta. unfold AoLP64, amap2. cbn [cell].
  set (q := cell (sQ s) y x) in *. set (w := cell (sU s) y x) in *.
  destruct (one_times q Vq Fq) as (Vq1 & Fq1 & Eq1). destruct (one_times w Vu Fu) as (Vw1 & Fw1 & Ew1).
  set (q1 := n1 *! q) in *. set (w1 := n1 *! w) in *.
  assert (NZ : fval w1 <> 0 \/ fval q1 <> 0).
  { rewrite Eq1, Ew1. destruct (Req_dec (fval w) 0) as [Zw|]; [|left; assumption]. destruct (Req_dec (fval q) 0) as [Zq|]; [|right; assumption].
    exfalso. assert (Z : cell (pB v) y x = 0).
    { change (cell (pB v) y x) with (sqrt (fval q * fval q + fval w * fval w)). rewrite Zw, Zq, Rmult_0_l, Rplus_0_l. apply sqrt_0. }
    rewrite Z in HB. apply Rabs_le_inv in HB. lra. }
  destruct (Ha w1 q1 Vw1 Fw1 Vq1 Fq1 NZ) as (Vt & Ft & (n & Hn)). rewrite Eq1, Ew1 in Hn. set (t := at2 w1 q1) in *.
  assert (Vt' : is_value t (fval t)) by (repeat split; assumption). pose proof (value_fmt _ _ Vt') as Fm.
  assert (Small : Rabs (rnd (/ 2 * fval t)) < top).
  { apply rnd_huge. destruct (B_value t _ Vt') as (b & _ & _ & Eb). pose proof (abs_B2R_lt_emax prec emax b) as Bt. rewrite Eb in Bt.
    rewrite Rabs_mult, (Rabs_pos_eq (/ 2)) by lra. replace huge with (/ 2 * bpow radix2 emax) by (change (/ 2) with (bpow radix2 (-1)); rewrite <- bpow_plus; reflexivity). lra. }
  pose proof (mul_value nhalf t (/ 2) (fval t) half_value Vt' Small) as (V & F & E). split; [exact V|]. split; [exact F|]. rewrite E.
  pose proof (half_err (fval t) Fm) as HH. destruct HA as (m & Hm). change (cell (AoLP v) y x) with (1 / 2 * atan2 (1 * fval w) (1 * fval q)) in Hm.
  exists (n + m)%Z. rewrite plus_IZR. rewrite !Rmult_1_l in Hm.
  apply Rabs_le_inv in HH, Hm, Hn. apply Rabs_le. lra.
Qed.

Lemma c118_stokes eps at2 g e (s : stokes b64) r m y x : accurate_arctan2 eps at2 -> off_stokes g e s r m ->
  rows (sQ r) = rows (sI r) -> cols (sQ r) = cols (sI r) -> rows (sU r) = rows (sI r) -> cols (sU r) = cols (sI r) ->
  (0 <= y < rows (sI r))%Z -> (0 <= x < cols (sI r))%Z ->
  2 * (g * cell (sI m) y x + e) < cell (pB r) y x ->
  let a := cell (AoLP64 at2 s) y x in
  is_binary64 a /\ finite64 a /\
  close_angle PI (eps / 2 + asin (2 * (g * cell (sI m) y x + e) / cell (pB r) y x) / 2 + powerRZ 2 (-1074)) (fval a) (cell (AoLP r) y x).
Proof.
  intros Ha (_ & (_ & _ & _ & _ & HQ) & (_ & _ & _ & _ & HU)) R1 R2 R3 R4 Hy Hx HP.
  destruct (HQ y x ltac:(lia) ltac:(lia)) as (VQ & FQ & EQ). destruct (HU y x ltac:(lia) ltac:(lia)) as (VU & FU & EU).
  set (k := g * cell (sI m) y x + e) in *. rewrite (power2 (-1074)).
  assert (K0 : 0 <= k) by (pose proof (Rabs_pos (fval (cell (sQ s) y x) - cell (sQ r) y x)); lra).
  apply c118_float; try assumption; [lra|].
  pose proof (Rsqr_le_abs_1 _ _ (Rle_trans _ _ _ EQ (RRle_abs k))) as S1. pose proof (Rsqr_le_abs_1 _ _ (Rle_trans _ _ _ EU (RRle_abs k))) as S2.
  pose proof (Rle_0_sqr k). unfold Rsqr in *. lra.
Qed.

Lemma asin_small e : 0 <= e <= / 2 -> asin e <= 2 * e.
Proof.
  intros He. pose proof (asin_bound e) as B. pose proof (sin_asin e ltac:(lra)) as S. set (t := asin e) in *. pose proof PI_RGT_0 as Pi.
  destruct (Rle_or_lt t 0) as [?|T]; [lra|].
  assert (T3 : t <= PI / 3).
  { destruct (Rle_or_lt t (PI / 3)) as [?|G]; [assumption|exfalso]. pose proof (sin_increasing_1 (PI / 6) t ltac:(lra) ltac:(lra) ltac:(lra) ltac:(lra) ltac:(lra)) as K.
    rewrite sin_PI6 in K. lra. }
  destruct (MVT_cor2 sin cos 0 t T) as (c & E & Hc). { intros c _. apply derivable_pt_lim_sin. }
  rewrite sin_0, !Rminus_0_r in E. rewrite E in S.
  pose proof (cos_decr_1 c (PI / 3) ltac:(lra) ltac:(lra) ltac:(lra) ltac:(lra) ltac:(lra)) as C. rewrite cos_PI3 in C.
  pose proof (Rmult_le_compat_r t (1 / 2) (cos c) ltac:(lra) ltac:(lra)). lra.
Qed.

Lemma relative_norm e a b p q : 0 <= e -> Rabs (a - p) <= e * Rabs p -> Rabs (b - q) <= e * Rabs q ->
  Rsqr (a - p) + Rsqr (b - q) <= Rsqr (e * sqrt (p * p + q * q)).
Proof.
  intros He H1 H2. rewrite Rsqr_mult, Rsqr_sqrt by (pose proof (Rle_0_sqr p); pose proof (Rle_0_sqr q); unfold Rsqr in *; lra).
  assert (K : forall u v, Rabs u <= e * Rabs v -> Rsqr u <= Rsqr e * (v * v)).
  { intros u v L. replace (Rsqr e * (v * v)) with (Rsqr (e * Rabs v)) by (rewrite Rsqr_mult, <- Rsqr_abs; reflexivity).
    apply Rsqr_le_abs_1. rewrite (Rabs_pos_eq (e * Rabs v)); [exact L|apply Rmult_le_pos; [exact He|apply Rabs_pos]]. }
  pose proof (K _ _ H1). pose proof (K _ _ H2). lra.
Qed.

Lemma diff_relative t x y a b : is_value x a -> is_value y b -> Rabs a <= t -> Rabs b <= t -> 2 * t <= huge ->
  is_binary64 (x -! y) /\ finite64 (x -! y) /\ Rabs (fval (x -! y) - (a - b)) <= u * Rabs (a - b).
Proof.
  intros Vx Vy Bx By Ht. pose proof (Rabs_triang a (- b)) as T. rewrite Rabs_Ropp in T.
  pose proof (sub_value x y a b Vx Vy (rnd_huge (a - b) ltac:(unfold Rminus; lra))) as (V & F & E). split; [exact V|]. split; [exact F|]. rewrite E.
  apply (rnd_sum a (- b)); [apply (value_fmt x a Vx)|]. apply generic_format_opp. apply (value_fmt y b Vy).
Qed.

Lemma c118_raw eps at2 t d dic s : accurate_arctan2 eps at2 -> bounded t d -> mosaic d -> t <= powerRZ 2 1019 -> data_stokes dic d = Ok s ->
  exists r, data_stokes dic (values d) = Ok r /\
    forall y x, (0 <= y < rows d / 2)%Z -> (0 <= x < cols d / 2)%Z -> 0 < cell (pB r) y x ->
      let a := cell (AoLP64 at2 s) y x in
      is_binary64 a /\ finite64 a /\ close_angle PI (eps / 2 + powerRZ 2 (-52)) (fval a) (cell (AoLP r) y x).
Proof.
  rewrite !power2. intros Ha Hd Hm Ht E. pose proof (sixteen t Ht) as S16. unfold data_stokes in E. apply bind_ok in E as (q & Eq & Es).
  destruct (c01_split (values d)) as (S1 & _); [apply Hm..|]. destruct (S1 Hm) as (q' & Eq' & Q').
  destruct (c01_split d) as (S2 & _); [apply Hm..|]. destruct (S2 Hm) as (q2' & Eq2 & Q). assert (q2' = q) by congruence. subst q2'.
  destruct (theo_ok dic q s Es) as (i & j & k & l & Hi & Hj & Hk & Hl & -> & G).
  eexists. split; [unfold data_stokes; rewrite Eq'; cbn [bind]; apply G|]. intros y x Hy Hx HP.
  assert (Va : forall p, (0 <= p < 4)%Z -> is_value (cell (qnth q p) y x) (cell (qnth q' p) y x) /\ Rabs (cell (qnth q' p) y x) <= t).
  { intros p Hp. destruct (Q p Hp) as (_ & _ & A). destruct (Q' p Hp) as (_ & _ & A'). rewrite A, A' by assumption.
    unfold sample. change (cell (values d) (2 * y + p / 2) (2 * x + p mod 2)) with (fval (cell d (2 * y + p / 2) (2 * x + p mod 2))).
    destruct (Hd (2 * y + p / 2) (2 * x + p mod 2))%Z as (V1 & V2 & V3).
    - destruct Hm as (_ & _ & M1 & _). pose proof (Z.div_mod (rows d) 2 ltac:(lia)).
      assert (0 <= p / 2 < 2)%Z by (split; [apply Z.div_pos; lia|apply Z.div_lt_upper_bound; lia]). lia.
    - destruct Hm as (_ & _ & _ & M2). pose proof (Z.div_mod (cols d) 2 ltac:(lia)). pose proof (Z.mod_pos_bound p 2 ltac:(lia)). lia.
    - split; [|exact V3]. split; [exact V1|]. split; [exact V2|reflexivity]. }
  destruct (Va i Hi) as (Vi & Bi). destruct (Va j Hj) as (Vj & Bj). destruct (Va k Hk) as (Vk & Bk). destruct (Va l Hl) as (Vl & Bl).
  assert (T2 : 2 * t <= huge) by (pose proof (bpow_ge_0 radix2 1023); destruct (Rle_or_lt 0 t); lra).
  destruct (diff_relative t _ _ _ _ Vi Vj Bi Bj T2) as (V1 & F1 & D1). destruct (diff_relative t _ _ _ _ Vk Vl Bk Bl T2) as (V2 & F2 & D2).
  pose proof u_half as U. set (P := cell (pB _) y x) in *.
  match type of G with _ => idtac end.
  match goal with |- context [AoLP64 at2 ?s0] => set (sb := s0) end. match goal with |- context [cell (AoLP ?r0) y x] => set (sr := r0) in * end.
  assert (UP : 0 <= u * P < P). { split; [apply Rmult_le_pos; lra|]. pose proof (Rmult_le_compat_r P u (/ 2) ltac:(lra) ltac:(lra)). lra. }
  pose proof (c118_float eps at2 sb sr y x (u * P) Ha V1 F1 V2 F2 ltac:(lra)
    (relative_norm u _ _ _ _ ltac:(lra) D1 D2) ltac:(exact (proj2 UP))) as (A1 & A2 & (n & A3)).
  split; [exact A1|]. split; [exact A2|]. exists n. apply Rle_trans with (1 := A3). fold P.
  replace (u * P / P) with u by (field; lra). pose proof (asin_small u ltac:(lra)) as AS.
  assert (K : bpow radix2 (-1074) <= u) by (apply bpow_le; lia).
  replace (bpow radix2 (-52)) with (2 * u) by (change 2 with (bpow radix2 1); rewrite <- bpow_plus; reflexivity). lra.
Qed.

(** ** There are such library functions *)
Definition some_arctan2 (u q : b64) : b64 := nofZ (Znearest (fun _ => true) (atan2 (fval u) (fval q) * bpow radix2 50)) /! nofZ (2 ^ 50).
Lemma some_accurate : accurate_arctan2 (powerRZ 2 (-51)) some_arctan2.
Proof.
  rewrite power2. intros w q _ _ _ _ _. unfold some_arctan2. destruct (atan2_spec (fval w) (fval q)) as (B & _). set (t := atan2 (fval w) (fval q)) in *.
  pose proof (Znearest_half (fun _ => true) (t * bpow radix2 50)) as N. set (m := Znearest (fun _ => true) (t * bpow radix2 50)) in *.
  pose proof PI_4 as P4. pose proof PI_RGT_0. pose proof (bpow_gt_0 radix2 50) as B0.
  assert (Hm : (Z.abs m <= 2 ^ 52 + 1)%Z).
  { apply le_IZR. rewrite abs_IZR, plus_IZR. change (IZR (2 ^ 52)) with (bpow radix2 52). change 52%Z with (2 + 50)%Z. rewrite bpow_plus.
    change (bpow radix2 2) with 4. pose proof (Rabs_triang_inv (IZR m) (t * bpow radix2 50)) as T. rewrite Rabs_minus_sym in T.
    assert (K : Rabs (t * bpow radix2 50) <= 4 * bpow radix2 50).
    { rewrite Rabs_mult, (Rabs_pos_eq (bpow radix2 50)) by lra. apply Rmult_le_compat_r; [lra|]. apply Rabs_le. lra. }
    rewrite Rabs_minus_sym in N. rewrite Rabs_minus_sym in T. lra. }
  assert (F : fx (2 ^ 52 + 1) 0 (nofZ m) (IZR m)).
  { exists m. split; [apply ofZ_value; lia|]. split; [symmetry; apply fixed_0|]. lia. }
  destruct (fx_div_pow _ _ 50 _ _ F ltac:(lia) ltac:(lia) ltac:(lia)) as (m' & (V & Fi & E) & _). split; [exact V|]. split; [exact Fi|].
  exists 0%Z. rewrite E. rewrite Rmult_0_l, Rminus_0_r. change (IZR (2 ^ 50)) with (bpow radix2 50).
  replace (IZR m / bpow radix2 50 - t) with ((IZR m - t * bpow radix2 50) * bpow radix2 (-50)).
  - rewrite Rabs_mult, (Rabs_pos_eq (bpow radix2 (-50))) by apply bpow_ge_0. rewrite Rabs_minus_sym.
    replace (bpow radix2 (-51)) with (/ 2 * bpow radix2 (-50)) by (change (/ 2) with (bpow radix2 (-1)); rewrite <- bpow_plus; reflexivity).
    apply Rmult_le_compat_r; [apply bpow_ge_0|]. exact N.
  - change (-50)%Z with (- (50))%Z. rewrite bpow_opp. field. lra.
Qed.
