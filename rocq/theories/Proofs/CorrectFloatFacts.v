(** Dark and flat correction in binary64 (C123). *)
From Coq Require Import ZArith Reals Lra Lia Floats.SpecFloat.
From Flocq Require Import Core Relative BinarySingleNaN.
From Verif Require Import Base.Base Base.Num Base.Bcast Model.Utils Model.FlatFloat Spec.AngleSpec Spec.FloatSpec Spec.ImageSpec Spec.CorrectSpec
  Proofs.FloatFacts Proofs.ExactFacts Proofs.RoundFacts Proofs.AnglesFloatFacts Proofs.ChenFitFacts.
Local Open Scope R_scope.

#[local] Existing Instance Hprec.
#[local] Existing Instance Hmax.
#[local] Existing Instance fexp64_valid.
#[local] Existing Instance fexp64_mono.

Lemma dark_cells (data dark : arr b64) : same_shape data dark ->
  exists d, dark_data data dark = Ok d /\ rows d = rows data /\ cols d = cols data /\
    forall y x, (0 <= y < rows data)%Z -> (0 <= x < cols data)%Z ->
      cell d y x = (let v := cell data y x -! cell dark y x in if nleb n0 v then v else n0).
Proof.
  intros [Hr Hc]. unfold dark_data, dark_data_with. destruct (bmap2_same (@nsub b64 _) data dark Hr Hc) as (c & E & R1 & C1 & V).
  rewrite E. cbn [bind]. eexists. split; [reflexivity|]. cbn [amap rows cols cell]. split; [exact R1|]. split; [exact C1|].
  intros y x Hy Hx. rewrite V by assumption. reflexivity.
Qed.

Lemma zero_value : is_value (@n0 b64 _) 0.
Proof. split; [reflexivity|]. split; [exact I|reflexivity]. Qed.
Lemma rnd_0 : rnd 0 = 0.
Proof. apply round_0. typeclasses eauto. Qed.

Lemma dark_one x y r s : is_value x r -> is_value y s -> Rabs (r - s) <= huge ->
  is_value (let v := x -! y in if nleb n0 v then v else n0) (rnd (Rmax (r - s) 0)).
Proof.
  intros Vx Vy Hb. pose proof (sub_value x y r s Vx Vy (rnd_huge _ Hb)) as V. cbv zeta. rewrite (leb_value _ _ _ _ zero_value V).
  destruct (Rle_or_lt 0 (r - s)) as [L|L].
  - rewrite Rmax_left by exact L. pose proof (rnd_mono _ _ L) as M. rewrite rnd_0 in M. rewrite Rle_bool_true by exact M. exact V.
  - rewrite Rmax_right by lra. rewrite rnd_0. pose proof (rnd_mono _ _ (Rlt_le _ _ L)) as M. rewrite rnd_0 in M.
    destruct (Rle_bool_spec 0 (rnd (r - s))) as [P|P]; [|exact zero_value]. replace 0 with (rnd (r - s)) by lra. exact V.
Qed.

Lemma c123_dark (data dark : arr b64) : same_shape data dark -> bounded (powerRZ 2 1022) data -> bounded (powerRZ 2 1022) dark ->
  exists d, dark_data data dark = Ok d /\ same_shape d data /\
    forall y x, (0 <= y < rows data)%Z -> (0 <= x < cols data)%Z ->
      nearest (cell d y x) (Rmax (fval (cell data y x) - fval (cell dark y x)) 0).
Proof.
  intros Hs B1 B2. destruct (dark_cells data dark Hs) as (d & E & R1 & C1 & V). exists d. split; [exact E|]. split; [split; assumption|].
  intros y x Hy Hx. rewrite V by assumption. destruct Hs as [S1 S2].
  destruct (B1 y x Hy Hx) as (V1 & F1 & L1). destruct (B2 y x ltac:(congruence) ltac:(congruence)) as (V2 & F2 & L2).
  apply is_value_nearest, dark_one; [split; auto|split; auto|].
  replace huge with (powerRZ 2 1022 + powerRZ 2 1022).
  - unfold Rminus. apply Rle_trans with (1 := Rabs_triang _ _). rewrite Rabs_Ropp. lra.
  - rewrite <- (bpow_powerRZ radix2). change 1023%Z with (1 + 1022)%Z at 1. rewrite bpow_plus. change (bpow radix2 1) with 2. ring.
Qed.

Lemma c123_counts (data dark : arr b64) n : (0 <= n < 2 ^ 53)%Z -> same_shape data dark -> counts n data -> counts n dark ->
  exists d, dark_data data dark = Ok d /\ same_shape d data /\
    forall y x, (0 <= y < rows data)%Z -> (0 <= x < cols data)%Z ->
      is_value (cell d y x) (Rmax (fval (cell data y x) - fval (cell dark y x)) 0).
Proof.
  intros Hn Hs B1 B2. destruct (dark_cells data dark Hs) as (d & E & R1 & C1 & V). exists d. split; [exact E|]. split; [split; assumption|].
  intros y x Hy Hx. rewrite V by assumption. destruct Hs as [S1 S2].
  destruct (B1 y x Hy Hx) as (a & Ha & Va). destruct (B2 y x ltac:(congruence) ltac:(congruence)) as (b & Hb & Vb).
  rewrite (value_val _ _ Va), (value_val _ _ Vb), <- minus_IZR.
  assert (M : Rmax (IZR (a - b)) 0 = IZR (Z.max (a - b) 0)).
  { destruct (Z.le_ge_cases 0 (a - b)) as [L|L]; pose proof L as L'; apply IZR_le in L'.
    - rewrite Rmax_left, Z.max_l by (assumption || lra). reflexivity.
    - rewrite Rmax_right, Z.max_r by (assumption || lra). reflexivity. }
  rewrite M. replace (IZR (Z.max (a - b) 0)) with (rnd (Rmax (IZR a - IZR b) 0)).
  - apply dark_one; [exact Va|exact Vb|]. rewrite <- minus_IZR, <- abs_IZR. apply Rle_trans with (IZR (2 ^ 53)); [apply IZR_le; lia|].
    change (IZR (2 ^ 53)) with (bpow radix2 53). apply bpow_le. lia.
  - rewrite <- minus_IZR, M. apply rnd_same. eapply value_fmt. apply ofZ_value. lia.
Qed.

Lemma c123_nan (data dark : arr b64) y x : same_shape data dark -> (0 <= y < rows data)%Z -> (0 <= x < cols data)%Z ->
  no_difference (cell data y x) (cell dark y x) ->
  exists d, dark_data data dark = Ok d /\ is_value (cell d y x) 0.
Proof.
  intros Hs Hy Hx Hn. destruct (dark_cells data dark Hs) as (d & E & R1 & C1 & V). exists d. split; [exact E|]. rewrite V by assumption.
  assert (N : cell data y x -! cell dark y x = S754_nan).
  { destruct Hn as [->|[->|(s & -> & ->)]]; [reflexivity| |destruct s; reflexivity].
    destruct (cell data y x) as [s|s| |s m e]; reflexivity. }
  rewrite N. exact zero_value.
Qed.

(** ** Flat *)
Lemma flat_cells (m : b64) junk (data flat : arr b64) : same_shape data flat ->
  exists c, flat_data_with m junk data flat = Ok c /\ rows c = rows data /\ cols c = cols data /\
    forall y x, (0 <= y < rows data)%Z -> (0 <= x < cols data)%Z ->
      cell c y x = (if negb (neqb (cell flat y x /! m) n0) then cell data y x /! (cell flat y x /! m) else junk y x).
Proof.
  intros [Hr Hc]. unfold flat_data_with, divide_where.
  destruct (bmap2_same (fun u v => (u, v)) data (amap (fun v => v /! m) flat) Hr Hc) as (c & E & R1 & C1 & V).
  rewrite E. cbn [bind]. eexists. split; [reflexivity|]. cbn [rows cols cell]. split; [exact R1|]. split; [exact C1|].
  intros y x Hy Hx. rewrite V by assumption. reflexivity.
Qed.

Lemma moderate_bpow r : moderate r -> bpow radix2 (-300) <= Rabs r <= bpow radix2 300.
Proof. unfold moderate. rewrite <- !(bpow_powerRZ radix2). auto. Qed.
Lemma bpow_div_bounds r s a b c d : bpow radix2 a <= Rabs r <= bpow radix2 b -> bpow radix2 c <= Rabs s <= bpow radix2 d ->
  bpow radix2 (a - d) <= Rabs (r / s) <= bpow radix2 (b - c).
Proof.
  intros [A B] [C D]. unfold Rdiv. rewrite Rabs_mult, Rabs_inv. unfold Zminus. rewrite !bpow_plus, !bpow_opp.
  pose proof (bpow_gt_0 radix2 a). pose proof (bpow_gt_0 radix2 c). pose proof (bpow_gt_0 radix2 d).
  split; apply Rmult_le_compat; try lra.
  - apply Rlt_le, Rinv_0_lt_compat. assumption.
  - apply Rinv_le; lra.
  - apply Rlt_le, Rinv_0_lt_compat. lra.
  - apply Rinv_le; lra.
Qed.

Lemma flat_one a f m r s t : is_value a r -> is_value f s -> is_value m t -> r = 0 \/ moderate r -> moderate s -> moderate t ->
  neqb (f /! m) n0 = false /\ FloatSpec.within (bpow radix2 (-51)) (a /! (f /! m)) (r * t / s).
Proof.
  intros Va Vf Vm Hr Hs Ht. apply moderate_bpow in Hs. apply moderate_bpow in Ht.
  assert (nz : forall r a, bpow radix2 a <= Rabs r -> r <> 0).
  { intros r0 a0 H E. rewrite E, Rabs_R0 in H. pose proof (bpow_gt_0 radix2 a0). lra. }
  pose proof (nz _ _ (proj1 Hs)) as S0. pose proof (nz _ _ (proj1 Ht)) as T0.
  pose proof (bpow_div_bounds s t _ _ _ _ Hs Ht) as Q. change (-300 - 300)%Z with (-600)%Z in Q. change (300 - -300)%Z with 600%Z in Q.
  assert (Q1 : Rabs (s / t) <= huge) by (apply Rle_trans with (1 := proj2 Q), bpow_le; lia).
  pose proof (div_value f m s t Vf Vm T0 (rnd_huge _ Q1)) as Vq.
  destruct (rnd_rel (s / t)) as (e & He & E); [apply Rle_trans with (2 := proj1 Q), bpow_le; lia|].
  pose proof u_half as [U0 U1]. pose proof (Rabs_le_inv _ _ He) as [e1 e2].
  set (q := rnd (s / t)) in *.
  assert (Eb : / 2 <= 1 + e <= 2).
  { change eps53 with u in *. lra. }
  assert (QB : bpow radix2 (-601) <= Rabs q <= bpow radix2 601).
  { rewrite E, Rabs_mult, (Rabs_pos_eq (1 + e)) by lra.
    change (-601)%Z with (-600 + -1)%Z. change 601%Z with (600 + 1)%Z. rewrite !bpow_plus. change (bpow radix2 (-1)) with (/ 2). change (bpow radix2 1) with 2.
    pose proof (bpow_gt_0 radix2 (-600)). pose proof (Rabs_pos (s / t)). split; apply Rmult_le_compat; lra. }
  pose proof (nz _ _ (proj1 QB)) as Q0.
  split.
  { destruct (neqb (f /! m) n0) eqn:N; [|reflexivity]. apply (neqb_zero _ _ Vq) in N. contradiction. }
  destruct Hr as [->|Hr].
  - assert (Z : 0 / q = 0) by (field; exact Q0).
    assert (V : is_value (a /! (f /! m)) (rnd (0 / q))).
    { apply div_value; [exact Va|exact Vq|exact Q0|]. rewrite Z, rnd_0, Rabs_R0. apply bpow_gt_0. }
    rewrite Z, rnd_0 in V. destruct V as (V1 & V2 & V3). split; [exact V1|]. split; [exact V2|]. rewrite V3.
    replace (0 * t / s) with 0 by (field; exact S0). rewrite Rminus_0_r, Rabs_R0. lra.
  - apply moderate_bpow in Hr. pose proof (nz _ _ (proj1 Hr)) as R0.
    pose proof (bpow_div_bounds r q _ _ _ _ Hr QB) as P. change (-300 - 601)%Z with (-901)%Z in P. change (300 - -601)%Z with 901%Z in P.
    assert (P1 : Rabs (r / q) <= huge) by (apply Rle_trans with (1 := proj2 P), bpow_le; lia).
    pose proof (div_value a _ r q Va Vq Q0 (rnd_huge _ P1)) as V.
    destruct (rnd_rel (r / q)) as (g & Hg & G); [apply Rle_trans with (2 := proj1 P), bpow_le; lia|].
    destruct V as (V1 & V2 & V3). split; [exact V1|]. split; [exact V2|]. rewrite V3, G, E.
    replace (r / (s / t * (1 + e)) * (1 + g) - r * t / s) with ((g - e) / (1 + e) * (r * t / s)) by (field; repeat split; lra).
    rewrite Rabs_mult. apply Rmult_le_compat_r; [apply Rabs_pos|]. unfold Rdiv. rewrite Rabs_mult.
    replace (bpow radix2 (-51)) with (2 * u * 2) by (change 2 with (bpow radix2 1) at 1 2; rewrite <- !bpow_plus; reflexivity).
    apply Rmult_le_compat; try apply Rabs_pos.
    + change eps53 with u in *. pose proof (Rabs_triang g (- e)). rewrite Rabs_Ropp in *. unfold Rminus. lra.
    + rewrite Rabs_inv, Rabs_pos_eq by lra. replace 2 with (/ / 2) by field. apply Rinv_le; lra.
Qed.

Lemma c123_flat (m : b64) mean eps junk (data flat : arr b64) : same_shape data flat ->
  FloatSpec.within eps m mean -> moderate (fval m) -> 0 <= eps ->
  exists c, flat_data_with m junk data flat = Ok c /\ same_shape c data /\
    forall y x, (0 <= y < rows data)%Z -> (0 <= x < cols data)%Z ->
      is_binary64 (cell data y x) -> finite64 (cell data y x) -> fval (cell data y x) = 0 \/ moderate (fval (cell data y x)) ->
      is_binary64 (cell flat y x) -> finite64 (cell flat y x) -> moderate (fval (cell flat y x)) ->
      FloatSpec.within (eps + powerRZ 2 (-51) * (1 + eps)) (cell c y x) (fval (cell data y x) * mean / fval (cell flat y x)).
Proof.
  intros Hs (W1 & W2 & W3) Hm He. destruct (flat_cells m junk data flat Hs) as (c & E & R1 & C1 & V). exists c. split; [exact E|]. split; [split; assumption|].
  intros y x Hy Hx D1 D2 D3 F1 F2 F3. rewrite V by assumption.
  assert (Va : is_value (cell data y x) (fval (cell data y x))) by (split; auto).
  assert (Vf : is_value (cell flat y x) (fval (cell flat y x))) by (split; auto).
  assert (Vm : is_value m (fval m)) by (split; auto).
  destruct (flat_one _ _ _ _ _ _ Va Vf Vm D3 F3 Hm) as (N & G1 & G2 & G3).
  rewrite N. cbn [negb]. split; [exact G1|]. split; [exact G2|].
  assert (S0 : fval (cell flat y x) <> 0).
  { apply moderate_bpow in F3. intros Z. rewrite Z, Rabs_R0 in F3. pose proof (bpow_gt_0 radix2 (-300)). lra. }
  rewrite <- (bpow_powerRZ radix2). set (k := bpow radix2 (-51)) in *. assert (K : 0 < k) by apply bpow_gt_0.
  set (r := fval (cell data y x)) in *. set (s := fval (cell flat y x)) in *. set (w := fval (cell data y x /! (cell flat y x /! m))) in *. set (t := fval m) in *.
  assert (D : Rabs (r * t / s - r * mean / s) <= eps * Rabs (r * mean / s)).
  { replace (r * t / s - r * mean / s) with (r / s * (t - mean)) by (field; exact S0).
    replace (r * mean / s) with (r / s * mean) by (field; exact S0). rewrite !Rabs_mult.
    pose proof (Rmult_le_compat_l _ _ _ (Rabs_pos (r / s)) W3). lra. }
  assert (T : Rabs (r * t / s) <= (1 + eps) * Rabs (r * mean / s)).
  { replace (r * t / s) with ((r * t / s - r * mean / s) + r * mean / s) by ring. apply Rle_trans with (1 := Rabs_triang _ _). lra. }
  replace (w - r * mean / s) with ((w - r * t / s) + (r * t / s - r * mean / s)) by ring. apply Rle_trans with (1 := Rabs_triang _ _).
  pose proof (Rmult_le_compat_l k _ _ (Rlt_le _ _ K) T). lra.
Qed.

Lemma c123_uniform (m : b64) junk (data flat : arr b64) : same_shape data flat ->
  is_binary64 m -> finite64 m -> fval m <> 0 -> (forall y x, cell flat y x = m) ->
  exists c, flat_data_with m junk data flat = Ok c /\ same_shape c data /\
    forall y x, (0 <= y < rows data)%Z -> (0 <= x < cols data)%Z ->
      is_binary64 (cell data y x) -> finite64 (cell data y x) -> is_value (cell c y x) (fval (cell data y x)).
Proof.
  intros Hs M1 M2 M3 Hf. destruct (flat_cells m junk data flat Hs) as (c & E & R1 & C1 & V). exists c. split; [exact E|]. split; [split; assumption|].
  intros y x Hy Hx D1 D2. rewrite V by assumption. rewrite Hf.
  assert (Vm : is_value m (fval m)) by (split; auto). assert (Vd : is_value (cell data y x) (fval (cell data y x))) by (split; auto).
  assert (F1 : rnd 1 = 1) by (apply rnd_same; apply (value_fmt _ _ (ofZ_value 1 ltac:(lia)))).
  assert (V1 : is_value (m /! m) 1).
  { assert (Q : fval m / fval m = 1) by (field; exact M3). pose proof (div_value m m _ _ Vm Vm M3) as W. rewrite Q, F1 in W. apply W.
    rewrite Rabs_R1. change 1 with (bpow radix2 0). apply bpow_lt. reflexivity. }
  destruct (neqb (m /! m) n0) eqn:N; [apply (neqb_zero _ _ V1) in N; lra|]. cbn [negb].
  pose proof (div_value _ _ _ _ Vd V1 ltac:(lra)) as W. replace (fval (cell data y x) / 1) with (fval (cell data y x)) in W by field.
  rewrite (rnd_same _ (value_fmt _ _ Vd)) in W. apply W. exact (finite_small _ _ Vd).
Qed.

Lemma c123_flat_nan (m : b64) junk (data flat : arr b64) y x : same_shape data flat -> (0 <= y < rows data)%Z -> (0 <= x < cols data)%Z ->
  cell flat y x = S754_nan \/ (cell data y x = S754_nan /\ neqb (cell flat y x /! m) n0 = false) ->
  exists c, flat_data_with m junk data flat = Ok c /\ cell c y x = S754_nan.
Proof.
  intros Hs Hy Hx Hn. destruct (flat_cells m junk data flat Hs) as (c & E & R1 & C1 & V). exists c. split; [exact E|]. rewrite V by assumption.
  destruct Hn as [->|(-> & ->)].
  - change (@S754_nan /! m) with (@S754_nan). change (neqb S754_nan (@n0 b64 _)) with false. cbn [negb].
    destruct (cell data y x) as [s|s| |s k e]; reflexivity.
  - reflexivity.
Qed.

Lemma power_le a b : (a <= b)%Z -> powerRZ 2 a <= powerRZ 2 b.
Proof. intros H. rewrite <- !(bpow_powerRZ radix2). apply bpow_le, H. Qed.
