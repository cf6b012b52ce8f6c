(** Lines of pixels in binary64: rounding moves a pixel only where the line meets it exactly. *)
From Coq Require Import ZArith Reals Lra Lia Floats.SpecFloat.
From Flocq Require Import Core Relative BinarySingleNaN.
From Verif Require Import Base.Base Base.Num Base.BaseFacts Model.Codec Model.LinRoi Spec.AngleSpec Spec.FloatSpec Spec.CodecSpec Spec.LineSpec
  Proofs.FloatFacts Proofs.ExactFacts Proofs.RoundFacts Proofs.AnglesFloatFacts Proofs.RawFacts Proofs.LineFacts.
Local Open Scope R_scope.

#[local] Existing Instance Hprec.
#[local] Existing Instance Hmax.
#[local] Existing Instance fexp64_valid.
#[local] Existing Instance fexp64_mono.

(** ** int *)
Lemma toint_value x r : is_value x r -> toint x = Ok (rtrunc r).
Proof.
  intros (_ & F & <-). destruct x as [s|s| |s m e]; try contradiction.
  - cbn [toint ToInt_b64 fval]. f_equal. symmetry. apply (truncated_unique 0); [apply rtrunc_spec|]. split; intros; lra.
  - cbn [toint ToInt_b64 fval]. f_equal.
    set (n := if (0 <=? e)%Z then (Z.pos m * 2 ^ e)%Z else (Z.pos m / 2 ^ (- e))%Z).
    assert (P : (0 < powerRZ 2 e)%R) by (apply powerRZ_lt; lra).
    assert (M : (0 < IZR (Z.pos m))%R) by (apply (IZR_lt 0); lia).
    assert (B : (IZR n <= IZR (Z.pos m) * powerRZ 2 e < IZR n + 1)%R /\ (0 <= n)%Z).
    { unfold n. destruct (Z.leb_spec 0 e) as [He|He].
      - split; [|apply Z.mul_nonneg_nonneg; [lia|apply Z.pow_nonneg; lia]].
        rewrite mult_IZR. replace (powerRZ 2 e) with (IZR (2 ^ e)); [lra|].
        rewrite <- bpow_powerRZ with (r := radix2). apply (IZR_Zpower radix2), He.
      - assert (Q : (0 < 2 ^ (- e))%Z) by (apply Z.pow_pos_nonneg; lia).
        split; [|apply Z.div_pos; lia].
        assert (PE : powerRZ 2 e = / IZR (2 ^ (- e))).
        { rewrite <- bpow_powerRZ with (r := radix2). rewrite <- (Z.opp_involutive e) at 1. rewrite bpow_opp. f_equal.
          symmetry. apply (IZR_Zpower radix2). lia. }
        rewrite PE. set (q := (2 ^ (- e))%Z) in *. pose proof (Z.div_mod (Z.pos m) q ltac:(lia)) as D. pose proof (Z.mod_pos_bound (Z.pos m) q Q) as R0.
        set (z := (Z.pos m / q)%Z) in *. set (w := (Z.pos m mod q)%Z) in *. rewrite D. rewrite plus_IZR, mult_IZR.
        assert (QR : 0 < IZR q) by (apply (IZR_lt 0); exact Q). destruct R0 as [R1 R2]. apply IZR_le in R1. apply IZR_lt in R2.
        replace ((IZR q * IZR z + IZR w) * / IZR q) with (IZR z + IZR w * / IZR q) by (field; lra).
        assert (I0 : 0 < / IZR q) by (apply Rinv_0_lt_compat; exact QR).
        pose proof (Rmult_le_pos _ _ R1 (Rlt_le _ _ I0)). pose proof (Rmult_lt_compat_r _ _ _ I0 R2) as L. rewrite Rinv_r in L by lra. lra. }
    clearbody n. destruct B as [B N]. pose proof (Rmult_lt_0_compat _ _ M P) as MP.
    symmetry. apply (truncated_unique ((if s then - IZR (Z.pos m) else IZR (Z.pos m)) * powerRZ 2 e)); [apply rtrunc_spec|].
    destruct s; split; intros H0; rewrite ?opp_IZR; lra.
Qed.

(** ** Adding the same step again and again *)
Fixpoint walk (a q : R) (k : nat) : R := match k with O => a | S k => rnd (walk a q k + q) end.

Lemma walk_near (a d n : Z) q : (0 < n <= 131072)%Z -> (Z.abs a <= 65536)%Z -> (Z.abs d <= n)%Z -> q = rnd (IZR d / IZR n) ->
  forall k : nat, (Z.of_nat k <= n + 1)%Z ->
  generic_format radix2 fexp64 (walk (IZR a) q k) /\
  Rabs (walk (IZR a) q k - IZR (a * n + Z.of_nat k * d) / IZR n) <= INR k * (bpow radix2 (-35) + bpow radix2 (-51)) /\
  Rabs (walk (IZR a) q k + q) <= 262144.
Proof.
  intros Hn Ha Hd Eq.
  assert (N0 : 0 < IZR n) by (apply (IZR_lt 0); lia).
  assert (Q1 : Rabs (IZR d / IZR n) <= 1).
  { unfold Rdiv. rewrite Rabs_mult, (Rabs_pos_eq (/ IZR n)) by (apply Rlt_le, Rinv_0_lt_compat, N0). rewrite <- abs_IZR.
    apply IZR_le in Hd. apply (Rmult_le_compat_r (/ IZR n)) in Hd; [|apply Rlt_le, Rinv_0_lt_compat, N0]. rewrite Rinv_r in Hd by lra. exact Hd. }
  assert (Qe : Rabs (q - IZR d / IZR n) <= bpow radix2 (-52)).
  { rewrite Eq. apply Rle_trans with (1 := rnd_err _). apply Rle_trans with (u * 1 + eta).
    - apply Rplus_le_compat_r, Rmult_le_compat_l; [apply bpow_ge_0|exact Q1].
    - assert (eta <= u) by (apply bpow_le; lia). replace (bpow radix2 (-52)) with (2 * u) by (change 2 with (bpow radix2 1); rewrite <- bpow_plus; reflexivity). lra. }
  assert (A1 : Rabs (IZR a) <= 65536) by (rewrite <- abs_IZR; apply (IZR_le _ 65536), Ha).
  assert (c52 : 0 < bpow radix2 (-52) <= 1 / 1000000) by (split; [apply bpow_gt_0|]; apply Rle_trans with (bpow radix2 (-20)); [apply bpow_le; lia|cbn; lra]).
  assert (Qs : Rabs q <= 2).
  { replace q with ((q - IZR d / IZR n) + IZR d / IZR n) by ring. apply Rle_trans with (1 := Rabs_triang _ _). lra. }
  set (c := bpow radix2 (-35) + bpow radix2 (-51)).
  assert (C : 0 < c /\ 131073 * c <= 1).
  { unfold c. split; [pose proof (bpow_gt_0 radix2 (-35)); pose proof (bpow_gt_0 radix2 (-51)); lra|].
    assert (bpow radix2 (-51) <= bpow radix2 (-20)) by (apply bpow_le; lia). assert (bpow radix2 (-35) <= bpow radix2 (-20)) by (apply bpow_le; lia).
    assert (bpow radix2 (-20) <= / 1000000) by (cbn; lra). lra. }
  assert (size : forall k w, (Z.of_nat k <= n + 1)%Z -> Rabs (w - IZR (a * n + Z.of_nat k * d) / IZR n) <= INR k * c -> Rabs (w + q) <= 262144).
  { intros k w Hk Hw. assert (K1 : INR k <= 131073) by (rewrite INR_IZR_INZ; apply (IZR_le _ 131073); lia).
    pose proof (pos_INR k) as K0.
    assert (E : IZR (a * n + Z.of_nat k * d) / IZR n = IZR a + INR k * (IZR d / IZR n)).
    { rewrite plus_IZR, !mult_IZR, <- INR_IZR_INZ. field. lra. }
    rewrite E in Hw.
    assert (P : Rabs (INR k * (IZR d / IZR n)) <= 131073).
    { rewrite Rabs_mult, (Rabs_pos_eq (INR k)) by exact K0. apply Rle_trans with (INR k * 1); [|lra]. apply Rmult_le_compat_l; assumption. }
    assert (KC : INR k * c <= 1).
    { apply Rle_trans with (131073 * c); [|lra]. apply Rmult_le_compat_r; lra. }
    replace (w + q) with ((w - (IZR a + INR k * (IZR d / IZR n))) + (IZR a + (INR k * (IZR d / IZR n) + q))) by ring.
    apply Rle_trans with (1 := Rabs_triang _ _). apply Rle_trans with (INR k * c + (65536 + (131073 + 2))); [|lra].
    apply Rplus_le_compat; [exact Hw|]. apply Rle_trans with (1 := Rabs_triang _ _). apply Rplus_le_compat; [exact A1|].
    apply Rle_trans with (1 := Rabs_triang _ _). lra. }
  assert (FQ : generic_format radix2 fexp64 q) by (rewrite Eq; apply generic_format_round; typeclasses eauto).
  induction k as [|k IH]; intros Hk.
  - assert (Z0 : Rabs (walk (IZR a) q 0 - IZR (a * n + Z.of_nat 0 * d) / IZR n) <= INR 0 * c).
    { cbn [walk]. replace (IZR (a * n + Z.of_nat 0 * d) / IZR n) with (IZR a).
      - replace (IZR a - IZR a) with 0 by ring. rewrite Rabs_R0. cbn. lra.
      - cbn [Z.of_nat]. rewrite Z.mul_0_l, Z.add_0_r, mult_IZR. field. lra. }
    split; [|split; [exact Z0|apply (size 0%nat); [lia|exact Z0]]].
    cbn [walk]. eapply value_fmt. apply ofZ_value. lia.
  - destruct (IH ltac:(lia)) as (F & E & S0).
    assert (E1 : Rabs (walk (IZR a) q (S k) - IZR (a * n + Z.of_nat (S k) * d) / IZR n) <= INR (S k) * c).
    { cbn [walk]. set (w := walk (IZR a) q k) in *. pose proof (rnd_sum w q F FQ) as R1.
      replace (IZR (a * n + Z.of_nat (S k) * d) / IZR n) with (IZR (a * n + Z.of_nat k * d) / IZR n + IZR d / IZR n).
      2: { rewrite Nat2Z.inj_succ. unfold Z.succ. rewrite !plus_IZR, !mult_IZR, plus_IZR. field. lra. }
      set (e := IZR (a * n + Z.of_nat k * d) / IZR n) in *. set (v := IZR d / IZR n) in *.
      replace (rnd (w + q) - (e + v)) with ((rnd (w + q) - (w + q)) + ((w - e) + (q - v))) by ring.
      apply Rle_trans with (1 := Rabs_triang _ _). rewrite S_INR, Rmult_plus_distr_r, Rmult_1_l.
      assert (R2 : u * Rabs (w + q) <= bpow radix2 (-35)).
      { replace (bpow radix2 (-35)) with (u * bpow radix2 18) by (rewrite <- bpow_plus; reflexivity).
        apply Rmult_le_compat_l; [apply bpow_ge_0|]. change (bpow radix2 18) with 262144. exact S0. }
      assert (T : Rabs ((w - e) + (q - v)) <= INR k * c + bpow radix2 (-52)) by (apply Rle_trans with (1 := Rabs_triang _ _); lra).
      assert (bpow radix2 (-52) <= bpow radix2 (-51)) by (apply bpow_le; lia). unfold c at 2. lra. }
    split; [|split; [exact E1|apply (size (S k)); [lia|exact E1]]].
    cbn [walk]. apply generic_format_round; typeclasses eauto.
Qed.

Lemma trunc_beside (a d n k : Z) w : (0 < n)%Z -> Rabs (w - IZR (a * n + k * d) / IZR n) < / IZR n -> beside a d n k (rtrunc w).
Proof.
  intros Hn Hw. unfold beside, along. set (p := (a * n + k * d)%Z) in *. clearbody p.
  assert (N0 : 0 < IZR n) by (apply (IZR_lt 0); lia).
  assert (W : IZR p - 1 < IZR n * w < IZR p + 1).
  { apply Rabs_def2 in Hw. destruct Hw as [W1 W2]. apply (Rmult_lt_compat_l (IZR n)) in W1; [|exact N0]. apply (Rmult_lt_compat_l (IZR n)) in W2; [|exact N0].
    rewrite Rinv_r in W1 by lra. replace (IZR n * - / IZR n) with (-1) in W2 by (field; lra).
    replace (IZR n * (w - IZR p / IZR n)) with (IZR n * w - IZR p) in * by (field; lra). lra. }
  destruct (rtrunc_spec w) as [T1 T2]. set (t := rtrunc w) in *. clearbody t.
  destruct (quot_bounds p n Hn) as [Q1 Q2].
  destruct (Rle_or_lt 0 w) as [H0|H0].
  - specialize (T1 H0). assert (L : (n * t < p + 1)%Z).
    { apply lt_IZR. rewrite mult_IZR, plus_IZR. apply Rle_lt_trans with (IZR n * w); [apply Rmult_le_compat_l; lra|lra]. }
    assert (U : (p - 1 < n * (t + 1))%Z).
    { apply lt_IZR. rewrite mult_IZR, minus_IZR, plus_IZR. apply Rlt_trans with (IZR n * w); [lra|apply Rmult_lt_compat_l; lra]. }
    assert (P : (0 <= t)%Z) by (assert (-1 < t)%Z; [apply lt_IZR; lra|lia]).
    destruct (Z.eq_dec p (n * (t + 1))) as [E|E].
    + right. exists (t + 1)%Z. split; lia.
    + left. assert (0 <= p)%Z by nia. destruct (Q1 ltac:(assumption)) as [B1 B2]. nia.
  - specialize (T2 H0). assert (L : (p - 1 < n * t)%Z).
    { apply lt_IZR. rewrite mult_IZR, minus_IZR. apply Rlt_le_trans with (IZR n * w); [lra|apply Rmult_le_compat_l; lra]. }
    assert (U : (n * (t - 1) < p + 1)%Z).
    { apply lt_IZR. rewrite mult_IZR, plus_IZR, minus_IZR. apply Rlt_trans with (IZR n * w); [apply Rmult_lt_compat_l; lra|lra]. }
    assert (P : (t <= 0)%Z) by (assert (t < 1)%Z; [apply lt_IZR; lra|lia]).
    destruct (Z.eq_dec p (n * (t - 1))) as [E|E].
    + right. exists (t - 1)%Z. split; lia.
    + left. assert (p <= 0)%Z by nia. destruct (Q2 ltac:(assumption)) as [B1 B2]. nia.
Qed.

Lemma walk_beside (a d n k : Z) : (0 < n <= 131072)%Z -> (Z.abs a <= 65536)%Z -> (Z.abs d <= n)%Z -> (0 <= k <= n + 1)%Z ->
  beside a d n k (rtrunc (walk (IZR a) (rnd (IZR d / IZR n)) (Z.to_nat k))).
Proof.
  intros Hn Ha Hd Hk. apply trunc_beside; [lia|].
  destruct (walk_near a d n _ Hn Ha Hd eq_refl (Z.to_nat k) ltac:(lia)) as (_ & E & _). rewrite Z2Nat.id in E by lia.
  apply Rle_lt_trans with (1 := E). rewrite INR_IZR_INZ, Z2Nat.id by lia.
  assert (N0 : 0 < IZR n) by (apply (IZR_lt 0); lia). apply (Rmult_lt_reg_r (IZR n)); [exact N0|]. rewrite Rinv_l by lra.
  set (c := bpow radix2 (-35) + bpow radix2 (-51)).
  assert (C : 0 < c < / (131073 * 131072)).
  { unfold c. split; [pose proof (bpow_gt_0 radix2 (-35)); pose proof (bpow_gt_0 radix2 (-51)); lra|].
    cbn. lra. }
  assert (K1 : 0 <= IZR k <= 131073) by (split; [apply (IZR_le 0)|apply (IZR_le _ 131073)]; lia).
  assert (N1 : IZR n <= 131072) by (apply (IZR_le _ 131072); lia).
  apply Rle_lt_trans with (131073 * c * 131072); [|].
  - apply Rmult_le_compat; [apply Rmult_le_pos; lra|lra| |exact N1]. apply Rmult_le_compat_r; lra.
  - destruct C as [_ C]. apply (Rmult_lt_compat_r (131073 * 131072)) in C; [|lra]. rewrite Rinv_l in C by lra. lra.
Qed.

Lemma walk_major (a d : Z) k : (0 < Z.abs d)%Z -> (Z.abs a <= 65536)%Z -> (Z.of_nat k <= 131073)%Z ->
  walk (IZR a) (rnd (IZR d / IZR (Z.abs d))) k = IZR (a + Z.of_nat k * Z.sgn d).
Proof.
  intros Hd Ha. replace (IZR d / IZR (Z.abs d)) with (IZR (Z.sgn d)).
  2: { assert (IZR (Z.abs d) <> 0) by (apply IZR_neq; lia). apply (Rmult_eq_reg_r (IZR (Z.abs d))); [|assumption].
       replace (IZR d / IZR (Z.abs d) * IZR (Z.abs d)) with (IZR d) by (field; assumption). rewrite <- mult_IZR. f_equal. lia. }
  assert (RI : forall z, (Z.abs z < 2 ^ 53)%Z -> rnd (IZR z) = IZR z).
  { intros z Hz. apply rnd_same. eapply value_fmt. apply ofZ_value, Hz. }
  rewrite RI by lia. induction k as [|k IH]; intros Hk; [cbn [walk]; f_equal; lia|].
  cbn [walk]. rewrite IH by lia. rewrite <- plus_IZR, RI by lia. f_equal. lia.
Qed.

(** ** The line *)
Lemma dda_float y1 x1 y2 x2 : (Z.abs y1 <= 65536 -> Z.abs x1 <= 65536 -> Z.abs y2 <= 65536 -> Z.abs x2 <= 65536 ->
  let dy := y2 - y1 in let dx := x2 - x1 in let n := longer dy dx in
  0 < n ->
  exists density, DDA (A := b64) y1 x1 y2 x2 =
    Ok (map (fun k => rtrunc (walk (IZR y1) (rnd (IZR dy / IZR n)) (Z.to_nat k))) (zrange (n + 2)),
        map (fun k => rtrunc (walk (IZR x1) (rnd (IZR dx / IZR n)) (Z.to_nat k))) (zrange (n + 2)), density))%Z.
Proof.
  intros Hy1 Hx1 Hy2 Hx2 dy dx n Hn. unfold DDA. fold dy. fold dx.
  replace (if (Z.abs dy <=? Z.abs dx)%Z then Z.abs dx else Z.abs dy) with n
    by (unfold n, longer; destruct (Z.leb_spec (Z.abs dy) (Z.abs dx)); lia).
  assert (Bn : (Z.abs dy <= n /\ Z.abs dx <= n /\ n <= 131072)%Z) by (unfold n, longer, dy, dx; lia).
  replace (n =? 0)%Z with false by (symmetry; apply Z.eqb_neq; lia).
  destruct Bn as (By & Bx & Bn). clearbody n dy dx.
  assert (N0 : IZR n <> 0) by (apply IZR_neq; lia).
  assert (small : forall r, Rabs r <= 262144 -> Rabs r <= huge).
  { intros r Hr. apply Rle_trans with (1 := Hr). change 262144 with (bpow radix2 18). apply bpow_le. lia. }
  assert (qv : forall d, (Z.abs d <= n)%Z -> is_value (@nofZ b64 _ d /! nofZ n) (rnd (IZR d / IZR n))).
  { intros d Hd. apply div_value; [apply ofZ_value; lia|apply ofZ_value; lia|exact N0|]. apply rnd_huge, small.
    unfold Rdiv. rewrite Rabs_mult, Rabs_inv, <- !abs_IZR. apply Rle_trans with 1; [|lra].
    assert (0 < IZR (Z.abs n)) by (apply (IZR_lt 0); lia). assert (IZR (Z.abs d) <= IZR (Z.abs n)) by (apply IZR_le; lia).
    apply (Rmult_le_reg_r (IZR (Z.abs n))); [assumption|]. rewrite Rmult_assoc, Rinv_l by lra. lra. }
  pose proof (qv dy By) as Vy. pose proof (qv dx Bx) as Vx. cbv zeta.
  set (qy := @nofZ b64 _ dy /! nofZ n) in *. set (qx := @nofZ b64 _ dx /! nofZ n) in *. clearbody qy qx.
  match goal with |- context [for_range 0 (n + 1) 1 ?body ?st] =>
    destruct (for_range_1 (fun k '(x, y, xs, ys) =>
       is_value x (walk (IZR x1) (rnd (IZR dx / IZR n)) (Z.to_nat k)) /\ is_value y (walk (IZR y1) (rnd (IZR dy / IZR n)) (Z.to_nat k)) /\
       xs = map (fun k => rtrunc (walk (IZR x1) (rnd (IZR dx / IZR n)) (Z.to_nat k))) (zrange (k + 1)) /\
       ys = map (fun k => rtrunc (walk (IZR y1) (rnd (IZR dy / IZR n)) (Z.to_nat k))) (zrange (k + 1)))
      0%Z (n + 1)%Z body st) as ([[[x y] xs] ys] & E & (_ & _ & Hx & Hy)) end.
  - lia.
  - assert (T : forall z, rtrunc (IZR z) = z).
    { intros z. pose proof (rtrunc_quot z 1 ltac:(lia)) as Q. rewrite Z.quot_1_r in Q. replace (IZR z / 1) with (IZR z) in Q by field. exact Q. }
    change (zrange (0 + 1)) with [0%Z]. cbn [map Z.to_nat walk]. rewrite !T.
    repeat split; try (apply ofZ_value; lia).
  - intros k [[[x y] xs] ys] Hk (Ex & Ey & Hx & Hy). cbn beta iota.
    assert (stepv : forall a d q v, (Z.abs a <= 65536)%Z -> (Z.abs d <= n)%Z -> is_value q (rnd (IZR d / IZR n)) ->
      is_value v (walk (IZR a) (rnd (IZR d / IZR n)) (Z.to_nat k)) ->
      is_value (v +! q) (walk (IZR a) (rnd (IZR d / IZR n)) (Z.to_nat (k + 1)))).
    { intros a d q v Ha Hd Vq Vv. replace (Z.to_nat (k + 1)) with (S (Z.to_nat k)) by lia. cbn [walk].
      apply add_value; [exact Vv|exact Vq|]. apply rnd_huge, small.
      destruct (walk_near a d n _ ltac:(lia) Ha Hd eq_refl (Z.to_nat k) ltac:(lia)) as (_ & _ & S0). exact S0. }
    pose proof (stepv x1 dx qx x Hx1 Bx Vx Ex) as Fx. pose proof (stepv y1 dy qy y Hy1 By Vy Ey) as Fy.
    rewrite (toint_value _ _ Fx), (toint_value _ _ Fy). cbn [bind].
    eexists; split; [reflexivity|]. cbn beta iota. split; [exact Fx|]. split; [exact Fy|].
    rewrite (zrange_succ (k + 1)) by lia. rewrite !map_app, <- Hx, <- Hy. split; reflexivity.
  - rewrite E. cbn [bind]. replace (n + 2)%Z with (n + 1 + 1)%Z by lia. subst xs ys. eexists. reflexivity.
Qed.

Local Open Scope Z_scope.
Lemma c63_float y1 x1 y2 x2 : Z.abs y1 <= 65536 -> Z.abs x1 <= 65536 -> Z.abs y2 <= 65536 -> Z.abs x2 <= 65536 ->
  (y1, x1) <> (y2, x2) ->
  let dy := y2 - y1 in let dx := x2 - x1 in let n := longer dy dx in
  exists ys xs density, DDA (A := b64) y1 x1 y2 x2 = Ok (ys, xs, density) /\
    Z.of_nat (length ys) = n + 2 /\ Z.of_nat (length xs) = n + 2 /\
    (forall k y, item ys k y -> beside y1 dy n k y) /\ (forall k x, item xs k x -> beside x1 dx n k x) /\
    (Z.abs dy = n -> forall k y, item ys k y -> y = y1 + k * Z.sgn dy) /\
    (Z.abs dx = n -> forall k x, item xs k x -> x = x1 + k * Z.sgn dx).
Proof.
  intros Hy1 Hx1 Hy2 Hx2 Hne dy dx n.
  assert (Hn : 0 < n).
  { unfold n, longer, dy, dx. destruct (Z.eq_dec y1 y2) as [->|]; [|lia]. destruct (Z.eq_dec x1 x2) as [->|]; [|lia]. congruence. }
  destruct (dda_float y1 x1 y2 x2 Hy1 Hx1 Hy2 Hx2 Hn) as [density E]. fold dy dx n in E.
  assert (B : Z.abs dy <= n /\ Z.abs dx <= n /\ n <= 131072) by (unfold n, longer, dy, dx; lia). destruct B as (By & Bx & Bn).
  eexists _, _, density. split; [exact E|].
  split; [rewrite map_length, length_zrange, Z2Nat.id; lia|]. split; [rewrite map_length, length_zrange, Z2Nat.id; lia|].
  split; [|split; [|split]].
  - intros k y Hi. apply item_map_inv in Hi. destruct Hi as (Hk & ->). apply walk_beside; lia.
  - intros k x Hi. apply item_map_inv in Hi. destruct Hi as (Hk & ->). apply walk_beside; lia.
  - intros Hm k y Hi. apply item_map_inv in Hi. destruct Hi as (Hk & ->). rewrite <- Hm in *. rewrite walk_major by lia.
    rewrite Z2Nat.id by lia. pose proof (rtrunc_quot (y1 + k * Z.sgn dy) 1 ltac:(lia)) as Q. rewrite Z.quot_1_r in Q.
    replace (IZR (y1 + k * Z.sgn dy) / 1)%R with (IZR (y1 + k * Z.sgn dy)) in Q by field. exact Q.
  - intros Hm k x Hi. apply item_map_inv in Hi. destruct Hi as (Hk & ->). rewrite <- Hm in *. rewrite walk_major by lia.
    rewrite Z2Nat.id by lia. pose proof (rtrunc_quot (x1 + k * Z.sgn dx) 1 ltac:(lia)) as Q. rewrite Z.quot_1_r in Q.
    replace (IZR (x1 + k * Z.sgn dx) / 1)%R with (IZR (x1 + k * Z.sgn dx)) in Q by field. exact Q.
Qed.

Lemma beside_range a b n k v h : 0 < n -> n >= Z.abs (b - a) -> 0 <= a < h -> 1 <= b < h - 1 -> 0 <= k <= n + 1 ->
  beside a (b - a) n k v -> 0 <= v < h.
Proof.
  intros Hn Hab Ha Hb Hk.
  assert (G : 0 <= along a (b - a) n k < h).
  { destruct (Z.eq_dec k (n + 1)) as [->|Hne].
    - pose proof (along_step a (b - a) n n Hn ltac:(lia)). rewrite along_n in * by exact Hn. lia.
    - pose proof (along_between a (b - a) n k Hn ltac:(lia)) as C. unfold between in C. lia. }
  intros [->|(m & E & ->)]; [exact G|]. unfold along in G. rewrite E, Z.quot_mul in G by lia. lia.
Qed.

Lemma c63_float_values {B} (data : arr B) y1 x1 y2 x2 : rows data <= 65536 -> cols data <= 65536 -> (y1, x1) <> (y2, x2) ->
  0 <= y1 < rows data -> 0 <= x1 < cols data -> 1 <= y2 < rows data - 1 -> 1 <= x2 < cols data - 1 ->
  exists ys xs vals, linear_roi (A := b64) data y1 x1 y2 x2 = Ok (ys, xs, vals) /\
    length ys = length vals /\ length xs = length vals /\ Z.of_nat (length vals) = longer (y2 - y1) (x2 - x1) + 2 /\
    forall k y x, item ys k y -> item xs k x ->
      beside y1 (y2 - y1) (longer (y2 - y1) (x2 - x1)) k y /\ beside x1 (x2 - x1) (longer (y2 - y1) (x2 - x1)) k x /\
      nth_error vals (Z.to_nat k) = Some (cell data y x).
Proof.
  intros Hr Hc Hne Hy1 Hx1 Hy2 Hx2. set (dy := y2 - y1). set (dx := x2 - x1). set (n := longer dy dx).
  assert (Hn : 0 < n).
  { unfold n, longer, dy, dx. destruct (Z.eq_dec y1 y2) as [->|]; [|lia]. destruct (Z.eq_dec x1 x2) as [->|]; [|lia]. congruence. }
  destruct (dda_float y1 x1 y2 x2 ltac:(lia) ltac:(lia) ltac:(lia) ltac:(lia) Hn) as [density E]. fold dy dx n in E.
  assert (Bd : Z.abs dy <= n /\ Z.abs dx <= n /\ n <= 131072) by (unfold n, longer, dy, dx; lia). destruct Bd as (By & Bx & Bn).
  set (fy := fun k => rtrunc (walk (IZR y1) (rnd (IZR dy / IZR n)) (Z.to_nat k))) in E.
  set (fx := fun k => rtrunc (walk (IZR x1) (rnd (IZR dx / IZR n)) (Z.to_nat k))) in E.
  assert (Sy : forall k, 0 <= k <= n + 1 -> beside y1 dy n k (fy k)) by (intros k Hk; apply walk_beside; lia).
  assert (Sx : forall k, 0 <= k <= n + 1 -> beside x1 dx n k (fx k)) by (intros k Hk; apply walk_beside; lia).
  unfold linear_roi. rewrite E. cbn [bind]. rewrite values_cells.
  2: { intros k Hk. apply in_zrange in Hk. split.
       - apply (beside_range y1 y2 n k); try lia. apply Sy. lia.
       - apply (beside_range x1 x2 n k); try lia. apply Sx. lia. }
  cbn [bind]. eexists _, _, _. split; [reflexivity|]. rewrite !map_length, length_zrange. split; [reflexivity|]. split; [reflexivity|].
  split; [lia|]. intros k y x Iy Ix. apply item_map_inv in Iy. apply item_map_inv in Ix. destruct Iy as (Hk & ->), Ix as (_ & ->).
  split; [apply Sy; lia|]. split; [apply Sx; lia|]. rewrite nth_error_map, nth_error_zrange by lia. reflexivity.
Qed.
