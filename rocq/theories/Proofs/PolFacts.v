(** Polarization parameters as the polar form of (Q, U). *)
From Coq Require Import ZifyBool Reals Lra Lia.
From Verif Require Import Base.Base Base.BaseFacts Base.Num Model.Demosaic Model.Stokes Model.Pol
  Spec.MosaicSpec Spec.StokesSpec Proofs.MosaicFacts Proofs.StokesFacts.
Local Open Scope R_scope.

Lemma Rltb_true x y : Rltb x y = true <-> x < y.
Proof. unfold Rltb. destruct (Rlt_dec x y); split; intros; try congruence; tauto. Qed.
Lemma Rltb_false x y : Rltb x y = false <-> y <= x.
Proof. unfold Rltb. destruct (Rlt_dec x y); split; intros; try congruence; lra. Qed.
Lemma Rleb_true x y : Rleb x y = true <-> x <= y.
Proof. unfold Rleb. destruct (Rle_dec x y); split; intros; try congruence; tauto. Qed.
Lemma Rleb_false x y : Rleb x y = false <-> y < x.
Proof. unfold Rleb. destruct (Rle_dec x y); split; intros; try congruence; lra. Qed.
Lemma Reqb_true x y : Reqb x y = true <-> x = y.
Proof. unfold Reqb. destruct (Req_EM_T x y); split; intros; try congruence; tauto. Qed.
Lemma Reqb_false x y : Reqb x y = false <-> x <> y.
Proof. unfold Reqb. destruct (Req_EM_T x y); split; intros; try congruence; tauto. Qed.

Lemma sqrt_scale x y : 0 < x -> sqrt (x * x + y * y) = x * sqrt (1 + (y / x)²).
Proof.
  intros Hx. rewrite <- (sqrt_square x) at 3 by lra.
  rewrite <- sqrt_mult; [|nra|unfold Rsqr; nra].
  f_equal. unfold Rsqr. field. lra.
Qed.

Lemma sqrt_1p t : 0 < sqrt (1 + t²).
Proof. apply sqrt_lt_R0. unfold Rsqr. nra. Qed.

Lemma atan2_spec y x :
  let r := sqrt (x * x + y * y) in
  - PI < atan2 y x <= PI /\ x = r * cos (atan2 y x) /\ y = r * sin (atan2 y x).
Proof.
  cbn zeta. pose proof PI_RGT_0 as Hpi. unfold atan2.
  destruct (Rltb 0 x) eqn:E1.
  { apply Rltb_true in E1. pose proof (atan_bound (y / x)) as Hb.
    split; [lra|]. rewrite cos_atan, sin_atan, (sqrt_scale x y E1).
    pose proof (sqrt_1p (y / x)). split; field; lra. }
  apply Rltb_false in E1. destruct (Rltb x 0) eqn:E2.
  { apply Rltb_true in E2. pose proof (atan_bound (y / x)) as Hb.
    assert (Es : sqrt (x * x + y * y) = - x * sqrt (1 + (y / x)²)).
    { replace (x * x + y * y) with ((- x) * (- x) + y * y) by ring.
      rewrite (sqrt_scale (- x) y) by lra. do 3 f_equal. unfold Rsqr. field. lra. }
    rewrite Es. pose proof (sqrt_1p (y / x)) as Hs.
    destruct (Rleb 0 y) eqn:E3.
    - apply Rleb_true in E3.
      assert (atan (y / x) <= 0).
      { rewrite <- atan_0. destruct (Req_dec y 0) as [->|Hy].
        - unfold Rdiv. rewrite Rmult_0_l. lra.
        - left. apply atan_increasing. unfold Rdiv.
          assert (/ x < 0) by (apply Rinv_lt_0_compat; lra). nra. }
      split; [lra|]. rewrite neg_cos, neg_sin, cos_atan, sin_atan. split; field; lra.
    - apply Rleb_false in E3.
      assert (0 < atan (y / x)).
      { rewrite <- atan_0. apply atan_increasing. unfold Rdiv.
        assert (/ x < 0) by (apply Rinv_lt_0_compat; lra). nra. }
      split; [lra|]. unfold Rminus.
      rewrite cos_plus, sin_plus, cos_neg, sin_neg, cos_PI, sin_PI, cos_atan, sin_atan.
      split; field; lra. }
  apply Rltb_false in E2. assert (x = 0) as -> by lra.
  replace (0 * 0 + y * y) with (y * y) by ring.
  destruct (Rltb 0 y) eqn:E3.
  { apply Rltb_true in E3. rewrite sqrt_square by lra. rewrite cos_PI2, sin_PI2. lra. }
  apply Rltb_false in E3. destruct (Rltb y 0) eqn:E4.
  { apply Rltb_true in E4. replace (y * y) with ((- y) * (- y)) by ring.
    rewrite sqrt_square by lra. rewrite cos_neg, sin_neg, cos_PI2, sin_PI2. lra. }
  apply Rltb_false in E4. assert (y = 0) as -> by lra.
  rewrite Rmult_0_l, sqrt_0. lra.
Qed.

(** Angles are determined up to 2 pi by sine and cosine. *)
Lemma cos_eq_1_2k t : cos t = 1 -> exists k : Z, t = 2 * IZR k * PI.
Proof.
  intros Hc.
  assert (Hs : sin (t / 2) = 0).
  { pose proof (cos_2a_sin (t / 2)) as E. replace (2 * (t / 2)) with t in E by field.
    rewrite Hc in E. nra. }
  apply sin_eq_0_0 in Hs. destruct Hs as [k Hk]. exists k. lra.
Qed.

Lemma angle_unique s t :
  cos s = cos t -> sin s = sin t -> exists k : Z, s = t + 2 * IZR k * PI.
Proof.
  intros Hc Hs. destruct (cos_eq_1_2k (s - t)) as [k Hk].
  - rewrite cos_minus, Hc, Hs. pose proof (sin2_cos2 t). unfold Rsqr in *. lra.
  - exists k. lra.
Qed.

Lemma atan2_unique r t y x :
  0 < r -> - PI < t <= PI -> x = r * cos t -> y = r * sin t -> atan2 y x = t.
Proof.
  intros Hr Ht Hx Hy.
  destruct (atan2_spec y x) as (Hb & Ex & Ey).
  assert (Es : sqrt (x * x + y * y) = r).
  { rewrite Hx, Hy. replace (r * cos t * (r * cos t) + r * sin t * (r * sin t))
      with (r * r * ((sin t)² + (cos t)²)) by (unfold Rsqr; ring).
    rewrite sin2_cos2, Rmult_1_r. apply sqrt_square. lra. }
  rewrite Es in Ex, Ey.
  destruct (angle_unique (atan2 y x) t) as [k Hk].
  - apply (Rmult_eq_reg_l r); [|lra]. congruence.
  - apply (Rmult_eq_reg_l r); [|lra]. congruence.
  - pose proof PI_RGT_0.
    assert (k = 0%Z) as ->; [|lra].
    assert (Hlt : -1 < IZR k < 1) by (split; nra).
    destruct Hlt as [H1 H2]. apply lt_IZR in H1. apply lt_IZR in H2. lia.
Qed.

(** ** C19 *)
Lemma c19_polar (s : stokes R) y x :
  let q := cell (sQ s) y x in
  let u := cell (sU s) y x in
  let p := cell (pB s) y x in
  let a := cell (AoLP s) y x in
  0 <= p /\ - (PI / 2) < a <= PI / 2 /\
  q = p * cos (2 * a) /\ u = p * sin (2 * a) /\ (p = 0 <-> q = 0 /\ u = 0).
Proof.
  cbn zeta. unfold pB, AoLP. cbn [cell amap2 nsqrt nadd nmul Num_R].
  set (q := cell (sQ s) y x). set (u := cell (sU s) y x).
  rewrite !Rmult_1_l.
  destruct (atan2_spec u q) as (Hb & Eq & Eu).
  replace (2 * (1 / 2 * atan2 u q)) with (atan2 u q) by field.
  split; [apply sqrt_pos|]. split; [lra|]. split; [exact Eq|]. split; [exact Eu|].
  split.
  - intros E. apply sqrt_eq_0 in E; [|nra]. split; nra.
  - intros [-> ->]. replace (0 * 0 + 0 * 0) with 0 by ring. apply sqrt_0.
Qed.

(** ** C20 *)
Lemma c20_def (s : stokes R) y x :
  let i := cell (sI s) y x in
  (i <> 0 -> cell (DoLP s) y x = cell (pB s) y x / i) /\
  (i = 0 -> cell (DoLP s) y x = 0).
Proof.
  cbn zeta. unfold DoLP. cbn [cell amap2 neqb ndiv Num_R n0 nofZ].
  split; intros Hi.
  - assert (E : Reqb (cell (sI s) y x) 0 = false) by (apply Reqb_false; exact Hi).
    rewrite E. reflexivity.
  - assert (E : Reqb (cell (sI s) y x) 0 = true) by (apply Reqb_true; exact Hi).
    rewrite E. reflexivity.
Qed.

Lemma sqrt_le_of_sq a b : 0 <= a -> 0 <= b -> a <= b * b -> sqrt a <= b.
Proof. intros Ha Hb Hle. rewrite <- (sqrt_square b Hb). apply sqrt_le_1; nra. Qed.

Lemma div_le_of a b c : 0 < b -> a <= c * b -> a / b <= c.
Proof.
  intros Hb Hle. apply (Rmult_le_reg_r b); [exact Hb|]. unfold Rdiv.
  rewrite Rmult_assoc, Rinv_l, Rmult_1_r by lra. exact Hle.
Qed.

Lemma div_nonneg a b : 0 <= a -> 0 < b -> 0 <= a / b.
Proof. intros Ha Hb. unfold Rdiv. apply Rmult_le_pos; [exact Ha|]. left. apply Rinv_0_lt_compat, Hb. Qed.

Lemma dolp_bound (i q u c : R) :
  0 <= c -> 0 <= i -> q * q + u * u <= (c * i) * (c * i) ->
  0 <= (if negb (Reqb i 0) then sqrt (q * q + u * u) / i else 0) <= c.
Proof.
  intros Hc Hi Hle. destruct (Reqb i 0) eqn:E; cbn [negb]; [lra|].
  apply Reqb_false in E. assert (Hi' : 0 < i) by lra.
  split; [apply div_nonneg; [apply sqrt_pos|exact Hi']|].
  apply div_le_of; [exact Hi'|]. apply sqrt_le_of_sq; nra.
Qed.

Lemma c20_bound dic a (d : arr R) s y x :
  describes dic a -> mosaic d -> data_stokes dic d = Ok s ->
  (forall j i, (0 <= j < rows d)%Z -> (0 <= i < cols d)%Z -> 0 <= cell d j i) ->
  (0 <= y < rows d / 2)%Z -> (0 <= x < cols d / 2)%Z ->
  0 <= cell (DoLP s) y x <= 2.
Proof.
  intros Hd Hm Es Hpos Hy Hx.
  destruct (data_stokes_spec dic a d Hd Hm) as (s' & Es' & _ & _ & _ & Hs).
  rewrite Es in Es'. injection Es' as <-.
  destruct (Hs y x Hy Hx) as (EI & EQ & EU).
  unfold DoLP, pB. cbn [cell amap2 neqb ndiv Num_R n0 nofZ nsqrt nadd nmul].
  pose proof Hd as (Ha & _). cbn [nhalf nadd nsub nmul Num_R] in EI, EQ, EU.
  rewrite (arrangement_sum a (fun k => sample d k y x) Ha) in EI.
  assert (Hp : forall k, (0 <= k < 4)%Z -> 0 <= sample d k y x).
  { intros k Hk. unfold sample. apply Hpos; destruct Hm as (_ & _ & Er & Ec);
    Z.div_mod_to_equations; lia. }
  destruct Ha as (H0 & H45 & Hm45 & H90 & _).
  pose proof (Hp _ H0) as P0. pose proof (Hp _ H45) as P45.
  pose proof (Hp _ Hm45) as Pm45. pose proof (Hp _ H90) as P90.
  set (v0 := sample d (p0 a) y x) in *. set (v45 := sample d (p45 a) y x) in *.
  set (vm45 := sample d (pm45 a) y x) in *. set (v90 := sample d (p90 a) y x) in *.
  rewrite EI, EQ, EU. apply dolp_bound; [lra|lra|].
  assert (v0 * v90 >= 0) by nra. assert (v45 * vm45 >= 0) by nra.
  assert ((v0 + v90) * (v45 + vm45) >= 0) by nra. nra.
Qed.

(** The bound 2 is attained, so 1 is not a bound. *)
Lemma c20_refuted :
  exists (d : arr R) s, mosaic d /\ data_stokes polarcam_angles d = Ok s /\
    (forall j i, 0 <= cell d j i) /\ cell (DoLP s) 0 0 = 2.
Proof.
  set (d := mkarr 2 2 (fun y x => if (y =? 0)%Z && (x =? 0)%Z then 1 else 0)).
  assert (Hm : mosaic d) by (unfold d; repeat split; cbn [rows cols]; lia || reflexivity).
  assert (Hd : describes polarcam_angles (mkarrangement 0 1 2 3)).
  { unfold describes, arrangement_ok, polarcam_angles; cbn [p0 p45 pm45 p90 map fst].
    repeat split; try lia; try (repeat constructor; cbn; intuition lia); cbn; auto. }
  destruct (data_stokes_spec _ _ d Hd Hm) as (s & Es & _ & _ & _ & Hs).
  exists d, s. split; [exact Hm|]. split; [exact Es|]. split.
  - intros j i. unfold d. cbn [cell]. destruct ((j =? 0)%Z && (i =? 0)%Z); lra.
  - destruct (Hs 0%Z 0%Z) as (EI & EQ & EU);
      [unfold d; cbn [rows cols]; change (2 / 2)%Z with 1%Z; lia..|].
    unfold DoLP, pB. cbn [cell amap2 neqb ndiv Num_R n0 nofZ nsqrt nadd nmul].
    rewrite EI, EQ, EU. unfold sample, d.
    cbn [p0 p45 pm45 p90 cell nhalf nadd nsub nmul Num_R].
    cbn -[Rplus Rmult Rdiv sqrt Rminus Reqb].
    assert (E : Reqb (1 / 2 * (1 + 0 + 0 + 0)) 0 = false) by (apply Reqb_false; lra).
    rewrite E. cbn [negb].
    replace ((1 - 0) * (1 - 0) + (0 - 0) * (0 - 0)) with (1 * 1) by ring.
    rewrite sqrt_square by lra. field.
Qed.

(** With samples a physical (possibly partially polarized) light produces behind ideal
    polarizers, DoLP is at most one. *)
Lemma c20_physical dic a (d : arr R) (I Q U : Z -> Z -> R) s y x :
  describes dic a -> mosaic d ->
  (forall Y X, (0 <= Y < rows d / 2)%Z -> (0 <= X < cols d / 2)%Z ->
     sample d (p0 a) Y X = ideal 0 (I Y X) (Q Y X) (U Y X) /\
     sample d (p45 a) Y X = ideal (PI / 4) (I Y X) (Q Y X) (U Y X) /\
     sample d (pm45 a) Y X = ideal (- (PI / 4)) (I Y X) (Q Y X) (U Y X) /\
     sample d (p90 a) Y X = ideal (PI / 2) (I Y X) (Q Y X) (U Y X)) ->
  (forall Y X, 0 <= I Y X /\ Q Y X * Q Y X + U Y X * U Y X <= I Y X * I Y X) ->
  data_stokes dic d = Ok s -> (0 <= y < rows d / 2)%Z -> (0 <= x < cols d / 2)%Z ->
  0 <= cell (DoLP s) y x <= 1.
Proof.
  intros Hd Hm Hsam Hphys Es Hy Hx.
  destruct (ideal_recovered dic a d I Q U Hd Hm Hsam) as (s' & Es' & _ & _ & _ & Hs).
  rewrite Es in Es'. injection Es' as <-.
  destruct (Hs y x Hy Hx) as (EI & EQ & EU).
  unfold DoLP, pB. cbn [cell amap2 neqb ndiv Num_R n0 nofZ nsqrt nadd nmul].
  rewrite EI, EQ, EU. destruct (Hphys y x) as [H1 H2].
  apply dolp_bound; [lra|exact H1|]. rewrite Rmult_1_l. exact H2.
Qed.

(** ** C21 *)
Lemma atan2_scale c y x : 0 < c -> atan2 (c * y) (c * x) = atan2 y x.
Proof.
  intros Hc. unfold atan2.
  assert (E1 : forall z, Rltb 0 (c * z) = Rltb 0 z).
  { intros z. destruct (Rltb 0 z) eqn:E; [apply Rltb_true in E; apply Rltb_true|
      apply Rltb_false in E; apply Rltb_false]; nra. }
  assert (E2 : forall z, Rltb (c * z) 0 = Rltb z 0).
  { intros z. destruct (Rltb z 0) eqn:E; [apply Rltb_true in E; apply Rltb_true|
      apply Rltb_false in E; apply Rltb_false]; nra. }
  assert (E3 : forall z, Rleb 0 (c * z) = Rleb 0 z).
  { intros z. destruct (Rleb 0 z) eqn:E; [apply Rleb_true in E; apply Rleb_true|
      apply Rleb_false in E; apply Rleb_false]; nra. }
  rewrite !E1, !E2, !E3.
  destruct (Rltb 0 x) eqn:Ex.
  - apply Rltb_true in Ex. f_equal. field. lra.
  - destruct (Rltb x 0) eqn:Ex2; [|reflexivity].
    apply Rltb_true in Ex2.
    replace (c * y / (c * x)) with (y / x) by (field; lra). reflexivity.
Qed.

Lemma c21_exposure dic a (d : arr R) c :
  describes dic a -> mosaic d -> 0 < c ->
  exists s t, data_stokes dic d = Ok s /\
    data_stokes dic (amap (fun v => c * v) d) = Ok t /\
    forall y x, (0 <= y < rows d / 2)%Z -> (0 <= x < cols d / 2)%Z ->
      cell (AoLP t) y x = cell (AoLP s) y x /\
      cell (DoLP t) y x = cell (DoLP s) y x /\
      cell (pB t) y x = c * cell (pB s) y x /\
      cell (sI t) y x = c * cell (sI s) y x /\
      cell (sQ t) y x = c * cell (sQ s) y x /\
      cell (sU t) y x = c * cell (sU s) y x.
Proof.
  intros Hd Hm Hc.
  destruct (data_stokes_spec dic a d Hd Hm) as (s & Es & _ & _ & _ & Hs).
  destruct (data_stokes_spec dic a _ Hd (mosaic_amap (fun v => c * v) d Hm))
    as (t & Et & _ & _ & _ & Ht).
  exists s, t. split; [exact Es|]. split; [exact Et|].
  intros y x Hy Hx. destruct (Hs y x Hy Hx) as (EI & EQ & EU).
  destruct (Ht y x Hy Hx) as (FI & FQ & FU).
  change (fun v : R => c * v) with (Rmult c) in FI, FQ, FU.
  unfold sample in FI, FQ, FU, EI, EQ, EU. cbn [cell amap] in FI, FQ, FU.
  cbn [nhalf nadd nsub nmul Num_R] in *.
  assert (GI : cell (sI t) y x = c * cell (sI s) y x) by (rewrite FI, EI; ring).
  assert (GQ : cell (sQ t) y x = c * cell (sQ s) y x) by (rewrite FQ, EQ; ring).
  assert (GU : cell (sU t) y x = c * cell (sU s) y x) by (rewrite FU, EU; ring).
  assert (GP : cell (pB t) y x = c * cell (pB s) y x).
  { unfold pB. cbn [cell amap2 nsqrt nadd nmul Num_R]. rewrite GQ, GU.
    set (q := cell (sQ s) y x). set (u := cell (sU s) y x).
    replace (c * q * (c * q) + c * u * (c * u)) with (c * c * (q * q + u * u)) by ring.
    rewrite sqrt_mult by nra. rewrite sqrt_square by lra. reflexivity. }
  repeat split; try assumption.
  - unfold AoLP. cbn [cell amap2]. rewrite GQ, GU, !Rmult_1_l, atan2_scale by exact Hc. reflexivity.
  - unfold DoLP. cbn [cell amap2 neqb ndiv Num_R n0 nofZ].
    change (cell (amap2 ?f ?p ?q) y x) with (f (cell p y x) (cell q y x)).
    rewrite GI, GP. set (i := cell (sI s) y x).
    destruct (Reqb i 0) eqn:E.
    + apply Reqb_true in E. assert (E' : Reqb (c * i) 0 = true) by (apply Reqb_true; rewrite E; ring).
      rewrite E'. reflexivity.
    + apply Reqb_false in E. assert (E' : Reqb (c * i) 0 = false) by (apply Reqb_false; nra).
      rewrite E'. cbn [negb]. field. split; lra.
Qed.

(** ** C23 *)
Lemma Malus_cos angle t e phi : Malus angle t e phi = t / 2 * (1 + e * cos (2 * (angle - phi))).
Proof.
  unfold Malus. rewrite Rmult_minus_distr_l, cos_minus. field.
Qed.

Lemma c23_malus angle t e phi :
  Malus (angle + PI) t e phi = Malus angle t e phi /\
  Malus angle t e (phi + PI) = Malus angle t e phi /\
  Malus angle t e phi + Malus (angle + PI / 2) t e phi = t /\
  (0 <= t -> 0 <= e ->
   t * (1 - e) / 2 <= Malus angle t e phi <= t * (1 + e) / 2 /\
   Malus phi t e phi = t * (1 + e) / 2 /\ Malus (phi + PI / 2) t e phi = t * (1 - e) / 2).
Proof.
  rewrite !Malus_cos.
  split; [|split; [|split]].
  - do 3 f_equal. replace (2 * (angle + PI - phi)) with (2 * (angle - phi) + 2 * INR 1 * PI)
      by (cbn [INR]; ring). apply cos_period.
  - do 3 f_equal. rewrite <- (cos_period (2 * (angle - (phi + PI))) 1). f_equal. cbn [INR]. ring.
  - replace (2 * (angle + PI / 2 - phi)) with (2 * (angle - phi) + PI) by field.
    rewrite neg_cos. field.
  - intros Ht He. pose proof (COS_bound (2 * (angle - phi))) as Hb.
    set (c := cos (2 * (angle - phi))) in *. split; [|split].
    + assert (0 <= t * e) by nra. split; nra.
    + replace (2 * (phi - phi)) with 0 by ring. rewrite cos_0. field.
    + replace (2 * (phi + PI / 2 - phi)) with PI by field. rewrite cos_PI. field.
Qed.

Lemma trig_period (z : Z) v :
  cos (v + 2 * IZR z * PI) = cos v /\ sin (v + 2 * IZR z * PI) = sin v.
Proof.
  destruct (Z_le_gt_dec 0 z) as [Hz|Hz].
  - rewrite <- (Z2Nat.id z Hz), <- INR_IZR_INZ. split; [apply cos_period|apply sin_period].
  - assert (Hz' : (0 <= - z)%Z) by lia.
    replace z with (- (- z))%Z by lia. rewrite opp_IZR, <- (Z2Nat.id (- z) Hz'), <- INR_IZR_INZ.
    set (n := Z.to_nat (- z)).
    split; [rewrite <- (cos_period (v + 2 * - INR n * PI) n)
           |rewrite <- (sin_period (v + 2 * - INR n * PI) n)]; f_equal; ring.
Qed.

(** ** C22 *)
Lemma mod_pi t : exists k : Z, - PI < t - 2 * IZR k * PI <= PI.
Proof.
  pose proof PI_RGT_0 as Hpi.
  pose (z := (t - PI) / (2 * PI)).
  destruct (archimed z) as [H1 H2].
  assert (Hz : t = PI + 2 * PI * z) by (unfold z; field; lra).
  (* choose k = ceiling z *)
  destruct (Req_dec (IZR (up z) - z) 1) as [E|NE].
  - exists (up z - 1)%Z. rewrite minus_IZR. rewrite Hz. split; nra.
  - exists (up z). rewrite Hz. split; nra.
Qed.

Lemma c22_malus dic arr_ (d : arr R) S al t e :
  describes dic arr_ -> mosaic d -> 0 < S -> 0 < t -> 0 < e <= 1 ->
  (forall Y X, (0 <= Y < rows d / 2)%Z -> (0 <= X < cols d / 2)%Z ->
     sample d (p0 arr_) Y X = S * Malus al t e 0 /\
     sample d (p45 arr_) Y X = S * Malus al t e (PI / 4) /\
     sample d (pm45 arr_) Y X = S * Malus al t e (- (PI / 4)) /\
     sample d (p90 arr_) Y X = S * Malus al t e (PI / 2)) ->
  exists s, data_stokes dic d = Ok s /\
    forall y x, (0 <= y < rows d / 2)%Z -> (0 <= x < cols d / 2)%Z ->
      cell (sI s) y x = t * S /\ cell (DoLP s) y x = e /\
      exists k : Z, cell (AoLP s) y x = al + IZR k * PI.
Proof.
  intros Hd Hm HS Ht He Hsam.
  destruct (data_stokes_spec dic arr_ d Hd Hm) as (s & Es & _ & _ & _ & Hs).
  exists s. split; [exact Es|]. intros y x Hy Hx.
  destruct (Hs y x Hy Hx) as (EI & EQ & EU).
  pose proof Hd as (Ha & _). cbn [nhalf nadd nsub nmul Num_R] in EI, EQ, EU.
  rewrite (arrangement_sum arr_ (fun k => sample d k y x) Ha) in EI.
  destruct (Hsam y x Hy Hx) as (S0 & S45 & Sm45 & S90).
  rewrite S0, S45, Sm45, S90 in EI. rewrite S0, S90 in EQ. rewrite S45, Sm45 in EU.
  clear S0 S45 Sm45 S90 Hsam Hs.
  unfold Malus in EI, EQ, EU.
  replace (2 * 0) with 0 in * by ring. replace (2 * (PI / 4)) with (PI / 2) in * by field.
  replace (2 * - (PI / 4)) with (- (PI / 2)) in * by field.
  replace (2 * (PI / 2)) with PI in * by field.
  rewrite !cos_neg, !sin_neg, !cos_PI2, !sin_PI2, ?cos_0, ?sin_0, ?cos_PI, ?sin_PI in EI.
  rewrite ?cos_0, ?sin_0, ?cos_PI, ?sin_PI in EQ.
  rewrite !cos_neg, !sin_neg, !cos_PI2, !sin_PI2 in EU.
  assert (FI : cell (sI s) y x = t * S) by (rewrite EI; field).
  assert (FQ : cell (sQ s) y x = t * S * e * cos (2 * al)) by (rewrite EQ; field).
  assert (FU : cell (sU s) y x = t * S * e * sin (2 * al)) by (rewrite EU; field).
  clear EI EQ EU.
  assert (Hts : 0 < t * S) by nra. assert (Hte : 0 < t * S * e) by nra.
  split; [exact FI|]. split.
  - unfold DoLP, pB. cbn [cell amap2 neqb ndiv Num_R n0 nofZ nsqrt nadd nmul].
    rewrite FI, FQ, FU.
    assert (E : Reqb (t * S) 0 = false) by (apply Reqb_false; lra). rewrite E. cbn [negb].
    replace (t * S * e * cos (2 * al) * (t * S * e * cos (2 * al)) +
             t * S * e * sin (2 * al) * (t * S * e * sin (2 * al)))
      with (t * S * e * (t * S * e) * ((sin (2 * al))² + (cos (2 * al))²)) by (unfold Rsqr; ring).
    rewrite sin2_cos2, Rmult_1_r, sqrt_square by lra. field. split; lra.
  - unfold AoLP. cbn [cell amap2]. rewrite FQ, FU, !Rmult_1_l.
    destruct (mod_pi (2 * al)) as [k Hk]. exists (- k)%Z.
    rewrite (atan2_unique (t * S * e) (2 * al - 2 * IZR k * PI)).
    + rewrite opp_IZR. field.
    + exact Hte.
    + exact Hk.
    + f_equal. destruct (trig_period (- k)%Z (2 * al)) as [G _]. rewrite <- G, opp_IZR.
      f_equal. ring.
    + f_equal. destruct (trig_period (- k)%Z (2 * al)) as [_ G]. rewrite <- G, opp_IZR.
      f_equal. ring.
Qed.
