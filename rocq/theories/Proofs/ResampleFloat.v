(** Linear resampling in binary64. *)
From Coq Require Import ZArith Reals Lra Lia List.
From Flocq Require Import Core Relative Plus_error BinarySingleNaN.
From Verif Require Import Base.Base Base.Num Base.BaseFacts Model.Demosaic Model.Stokes Model.Congrid Spec.AngleSpec Spec.MosaicSpec Spec.InterpSpec Spec.FloatSpec Spec.ResampleError
  Proofs.DemosaicFacts Proofs.FloatFacts Proofs.ExactFacts Proofs.RoundFacts Proofs.AnglesFloatFacts Proofs.CorrectFloatFacts Proofs.CongridFacts Proofs.ResampleFacts.
Local Open Scope R_scope.

#[local] Existing Instance Hprec.
#[local] Existing Instance Hmax.
#[local] Existing Instance fexp64_valid.
#[local] Existing Instance fexp64_mono.

(** ** The interval that is used *)
Lemma searchsorted_value n (v : b64) r : (n <= 2 ^ 53)%Z -> is_value v r -> searchsorted n v = searchsorted n r.
Proof.
  intros Hn V. unfold searchsorted. f_equal. f_equal. apply filter_ext_in. intros i Hi. apply in_zrange in Hi.
  rewrite (ltb_value (nofZ i) v (IZR i) r); [|apply ofZ_value; lia|exact V].
  change (nltb (nofZ i) r) with (Rltb (IZR i) r). unfold Rltb. destruct (Rlt_dec (IZR i) r); [apply Rlt_bool_true; assumption|apply Rlt_bool_false; lra].
Qed.
Definition interval (n : Z) (r : R) : Z := Z.min (Z.max (searchsorted n r) 1) (n - 1).
Lemma interval_in n r : (2 <= n)%Z -> (1 <= interval n r <= n - 1)%Z.
Proof. unfold interval. lia. Qed.
Lemma interval_spec n r : (2 <= n)%Z -> 0 <= r -> IZR (interval n r - 1) <= r /\ (r <= IZR (interval n r) \/ interval n r = (n - 1)%Z).
Proof.
  intros Hn Hr. destruct (ceil_exists r) as (m & L & U). unfold interval.
  assert (Hm : (0 <= m)%Z) by (apply le_IZR; lra). rewrite (searchsorted_ceil r m Hm (conj L U) n ltac:(lia)).
  split.
  - destruct (Z_le_gt_dec m 1) as [M|M].
    + replace (Z.min (Z.max (Z.min n m) 1) (n - 1) - 1)%Z with 0%Z by lia. exact Hr.
    + apply Rle_trans with (IZR (m - 1)); [apply IZR_le; lia|lra].
  - destruct (Z_le_gt_dec m (n - 1)) as [M|M]; [left|right; lia]. apply Rle_trans with (IZR m); [exact U|apply IZR_le; lia].
Qed.
Lemma interp_at n (f : Z -> R) r : let i := interval n r in
  interp1d n f r = f (i - 1)%Z + (f i - f (i - 1)%Z) * (r - IZR (i - 1)).
Proof.
  cbv zeta. unfold interp1d. fold (interval n r). cbn [nadd nmul nsub ndiv nofZ Num_R].
  replace (IZR (interval n r) - IZR (interval n r - 1)) with 1 by (rewrite minus_IZR; ring). field.
Qed.

(** ** The polygon is continuous, also beyond its end *)
Lemma polygon_lipschitz n (f : Z -> R) M r p : (2 <= n)%Z -> (forall i, (0 <= i < n)%Z -> Rabs (f i) <= M) -> 0 <= r -> 0 <= p -> Rabs (r - p) < 1 ->
  Rabs (interp1d n f r - interp1d n f p) <= 2 * M * Rabs (r - p).
Proof.
  intros Hn HM.
  assert (S : forall i, (1 <= i <= n - 1)%Z -> Rabs (f i - f (i - 1)%Z) <= 2 * M).
  { intros i Hi. pose proof (HM i ltac:(lia)) as H1. pose proof (HM (i - 1)%Z ltac:(lia)) as H2. apply Rabs_le_inv in H1, H2. apply Rabs_le. lra. }
  assert (M0 : 0 <= M) by (pose proof (HM 0%Z ltac:(lia)); pose proof (Rabs_pos (f 0%Z)); lra).
  assert (G : forall r p, 0 <= r -> 0 <= p -> p <= r -> r - p < 1 -> Rabs (interp1d n f r - interp1d n f p) <= 2 * M * (r - p)).
  { clear r p. intros r p Hr Hp Hpr Hd. destruct (Req_dec r p) as [->|Hne]; [rewrite !Rminus_eq_0, Rabs_R0; lra|]. rewrite !interp_at.
    pose proof (interval_in n r Hn) as Ir. pose proof (interval_in n p Hn) as Ip.
    destruct (interval_spec n r Hn Hr) as (R1 & R2). destruct (interval_spec n p Hn Hp) as (P1 & P2).
    set (i := interval n r) in *. set (j := interval n p) in *. clearbody i j.
    pose proof (S i Ir) as Si. pose proof (S j Ip) as Sj.
    assert (D : i = j \/ i = (j + 1)%Z \/ (i < j)%Z /\ (r <= IZR i)).
    { destruct (Z.eq_dec i j) as [E|E]; [auto|]. destruct (Z_lt_le_dec i j) as [L|L].
      - right. right. split; [exact L|]. destruct R2; [assumption|lia].
      - right. left. destruct P2 as [P2|P2]; [|lia]. assert (IZR (i - 1) < IZR j + 1) by lra. rewrite <- plus_IZR in *. apply lt_IZR in H. lia. }
    destruct D as [-> | [-> | [L Ri]]].
    - replace (f (j - 1)%Z + (f j - f (j - 1)%Z) * (r - IZR (j - 1)) - (f (j - 1)%Z + (f j - f (j - 1)%Z) * (p - IZR (j - 1))))
        with ((f j - f (j - 1)%Z) * (r - p)) by ring.
      rewrite Rabs_mult, (Rabs_pos_eq (r - p)) by lra. apply Rmult_le_compat_r; [lra|exact Sj].
    - replace (j + 1 - 1)%Z with j in * by lia. assert (Pj : p <= IZR j) by (destruct P2; [assumption|lia]).
      replace (f j + (f (j + 1)%Z - f j) * (r - IZR j) - (f (j - 1)%Z + (f j - f (j - 1)%Z) * (p - IZR (j - 1))))
        with ((f (j + 1)%Z - f j) * (r - IZR j) + (f j - f (j - 1)%Z) * (IZR j - p)) by (rewrite minus_IZR; ring).
      apply Rle_trans with (1 := Rabs_triang _ _). rewrite !Rabs_mult, (Rabs_pos_eq (r - IZR j)), (Rabs_pos_eq (IZR j - p)) by lra.
      replace (2 * M * (r - p)) with (2 * M * (r - IZR j) + 2 * M * (IZR j - p)) by ring.
      apply Rplus_le_compat; apply Rmult_le_compat_r; lra.
    - assert (IZR i <= IZR (j - 1)) by (apply IZR_le; lia). lra. }
  intros Hr Hp Hd. destruct (Rle_or_lt p r) as [L|L].
  - rewrite (Rabs_pos_eq (r - p)) in * by lra. apply G; assumption.
  - rewrite Rabs_minus_sym, (Rabs_minus_sym r p) in *. rewrite (Rabs_pos_eq (p - r)) in * by lra. apply G; lra.
Qed.

(** ** The roundings of one interpolation *)
Lemma mult_err x y a b e f : Rabs (x - a) <= e -> Rabs (y - b) <= f -> Rabs (x * y - a * b) <= Rabs x * f + e * Rabs b.
Proof.
  intros H1 H2. replace (x * y - a * b) with (x * (y - b) + (x - a) * b) by ring. apply Rle_trans with (1 := Rabs_triang _ _).
  rewrite !Rabs_mult. apply Rplus_le_compat; [apply Rmult_le_compat_l; [apply Rabs_pos|exact H2]|apply Rmult_le_compat_r; [apply Rabs_pos|exact H1]].
Qed.
Lemma interp_core v a b t d' t' q z M h : 0 < v <= / 1000 -> 0 <= h -> Rabs a <= M -> Rabs b <= M -> 0 <= t <= 2 ->
  Rabs (d' - (b - a)) <= v * Rabs (b - a) -> Rabs (t' - t) <= v * Rabs t -> Rabs (q - d' * t') <= v * Rabs (d' * t') + h ->
  Rabs (z - (q + a)) <= v * Rabs (q + a) -> Rabs (z - (a + (b - a) * t)) <= 20 * v * M + 2 * h.
Proof.
  intros Hv Hh Ha Hb Ht Ed Et Eq Ez.
  assert (M0 : 0 <= M) by (pose proof (Rabs_pos a); lra).
  assert (Bd : Rabs (b - a) <= 2 * M) by (apply Rabs_le_inv in Ha, Hb; apply Rabs_le; lra).
  rewrite (Rabs_pos_eq t) in Et by lra.
  assert (Ed' : Rabs (d' - (b - a)) <= v * (2 * M)) by (apply Rle_trans with (1 := Ed); apply Rmult_le_compat_l; lra).
  assert (Et' : Rabs (t' - t) <= v * 2) by (apply Rle_trans with (1 := Et); apply Rmult_le_compat_l; lra).
  assert (VM : 0 <= v * M) by (apply Rmult_le_pos; lra).
  assert (VM' : v * M <= / 1000 * M) by (apply Rmult_le_compat_r; lra).
  assert (Sd : Rabs d' <= 21 / 10 * M).
  { replace d' with ((d' - (b - a)) + (b - a)) by ring. apply Rle_trans with (1 := Rabs_triang _ _). lra. }
  assert (St : Rabs t' <= 21 / 10).
  { apply Rabs_le_inv in Et'. apply Rabs_le. lra. }
  assert (P : Rabs (d' * t' - (b - a) * t) <= 21 / 10 * M * (v * 2) + v * (2 * M) * 2).
  { apply Rle_trans with (1 := mult_err _ _ _ _ _ _ Ed' Et'). rewrite (Rabs_pos_eq t) by lra.
    apply Rplus_le_compat; [apply Rmult_le_compat_r; lra|apply Rmult_le_compat_l; lra]. }
  assert (Sp : Rabs (d' * t') <= 45 / 10 * M).
  { rewrite Rabs_mult. apply Rle_trans with (21 / 10 * M * (21 / 10)); [apply Rmult_le_compat; (apply Rabs_pos || assumption)|lra]. }
  assert (Vp : v * Rabs (d' * t') <= v * (45 / 10 * M)) by (apply Rmult_le_compat_l; lra).
  assert (Sq : Rabs (q + a) <= 56 / 10 * M + h).
  { replace (q + a) with ((q - d' * t') + d' * t' + a) by ring. apply Rle_trans with (1 := Rabs_triang _ _).
    pose proof (Rabs_triang (q - d' * t') (d' * t')). lra. }
  assert (Vq : v * Rabs (q + a) <= v * (56 / 10 * M + h)) by (apply Rmult_le_compat_l; lra).
  assert (Vh : v * h <= / 1000 * h) by (apply Rmult_le_compat_r; lra).
  replace (z - (a + (b - a) * t)) with ((z - (q + a)) + ((q - d' * t') + (d' * t' - (b - a) * t))) by ring.
  apply Rle_trans with (1 := Rabs_triang _ _). pose proof (Rabs_triang (q - d' * t') (d' * t' - (b - a) * t)). lra.
Qed.
Lemma u_small : 0 < u <= / 1000.
Proof. split; [apply bpow_gt_0|]. change u with (/ 9007199254740992). lra. Qed.
Lemma eta_small : 0 <= eta <= / 1000.
Proof. split; [apply bpow_ge_0|]. apply Rle_trans with u; [apply bpow_le; lia|apply u_small]. Qed.
Lemma rnd_twice x : rnd (rnd x) = rnd x.
Proof. apply round_generic; [typeclasses eauto|]. apply generic_format_round; typeclasses eauto. Qed.
Lemma one_value (i : Z) : (1 <= i <= 2 ^ 52)%Z -> is_value (@nofZ b64 _ i -! nofZ (i - 1)) 1.
Proof.
  intros Hi. assert (E : rnd (IZR i - IZR (i - 1)) = 1).
  { rewrite <- minus_IZR. replace (i - (i - 1))%Z with 1%Z by lia. rewrite <- (fixed_0 1). apply rnd_fixed; lia. }
  rewrite <- E. apply sub_value; [apply ofZ_value; lia|apply ofZ_value; lia|]. rewrite E, Rabs_R1. change 1 with (bpow radix2 0). apply bpow_lt. reflexivity.
Qed.
Notation vast := (bpow radix2 1000).
Lemma vast_huge x : Rabs x <= 8 * vast -> Rabs x <= huge.
Proof.
  intros H. apply Rle_trans with (1 := H). change 8 with (bpow radix2 3). rewrite <- bpow_plus. apply bpow_le. lia.
Qed.
Lemma vast_1 : 1 <= vast.
Proof. change 1 with (bpow radix2 0). apply bpow_le. lia. Qed.

Lemma interp_round n (y : Z -> b64) (v : b64) r M : (2 <= n <= 2 ^ 52)%Z -> (forall i, (0 <= i < n)%Z -> is_value (y i) (fval (y i)) /\ Rabs (fval (y i)) <= M) ->
  M <= vast -> is_value v r -> 0 <= r <= IZR n ->
  off_by (20 * u * M + 2 * eta) (interp1d n y v) (interp1d n (fun i => fval (y i)) r).
Proof.
  intros Hn Hy HM V Hr. rewrite interp_at. unfold interp1d. rewrite (searchsorted_value n v r ltac:(lia) V). fold (interval n r).
  pose proof (interval_in n r ltac:(lia)) as Hi. destruct (interval_spec n r ltac:(lia) ltac:(lra)) as (L & U).
  assert (T : 0 <= r - IZR (interval n r - 1) <= 2).
  { rewrite minus_IZR in *. destruct U as [U|U]; [lra|]. rewrite U in *. rewrite minus_IZR in *. lra. }
  set (i := interval n r) in *. clearbody i.
  destruct (Hy i ltac:(lia)) as (Vb & Bb). destruct (Hy (i - 1)%Z ltac:(lia)) as (Va & Ba).
  set (a := fval (y (i - 1)%Z)) in *. set (b := fval (y i)) in *. set (t := r - IZR (i - 1)) in *.
  pose proof vast_1 as W1. pose proof u_small as Us. pose proof eta_small as Es.
  assert (Bd : Rabs (b - a) <= 2 * M) by (apply Rabs_le_inv in Ba, Bb; apply Rabs_le; lra).
  assert (Fa : generic_format radix2 fexp64 a) by (eapply value_fmt; exact Va).
  assert (Fb : generic_format radix2 fexp64 b) by (eapply value_fmt; exact Vb).
  assert (Ed : Rabs (rnd (b - a) - (b - a)) <= u * Rabs (b - a)) by (apply (rnd_sum b (- a) Fb); apply generic_format_opp, Fa).
  assert (Sd : Rabs (rnd (b - a)) <= 3 * vast).
  { replace (rnd (b - a)) with ((rnd (b - a) - (b - a)) + (b - a)) by ring. apply Rle_trans with (1 := Rabs_triang _ _).
    pose proof (Rmult_le_compat u (/ 1000) (Rabs (b - a)) (2 * M) ltac:(lra) (Rabs_pos _) ltac:(lra) Bd). lra. }
  assert (Vd : is_value (y i -! y (i - 1)%Z) (rnd (b - a))) by (apply sub_value; [exact Vb|exact Va|apply rnd_huge, vast_huge; lra]).
  assert (Vs : is_value ((y i -! y (i - 1)%Z) /! (nofZ i -! nofZ (i - 1))) (rnd (b - a))).
  { set (D := rnd (b - a)) in *. assert (E1 : D / 1 = D) by field.
    assert (E2 : rnd (D / 1) = D) by (rewrite E1; apply rnd_twice). rewrite <- E2.
    apply div_value; [exact Vd|apply one_value; lia|lra|]. apply rnd_huge, vast_huge. rewrite E1. lra. }
  assert (Vl : is_value (nofZ (i - 1)) (IZR (i - 1))) by (apply ofZ_value; lia).
  assert (Et : Rabs (rnd t - t) <= u * Rabs t).
  { apply (rnd_sum r (- IZR (i - 1))); [eapply value_fmt; exact V|]. apply generic_format_opp. eapply value_fmt; exact Vl. }
  assert (Vt : is_value (v -! nofZ (i - 1)) (rnd t)) by (apply sub_value; [exact V|exact Vl|apply rnd_huge, vast_huge; fold t; rewrite Rabs_pos_eq by lra; lra]).
  assert (St : Rabs (rnd t) <= 21 / 10).
  { rewrite (Rabs_pos_eq t) in Et by lra. pose proof (Rmult_le_compat_r t u (/ 1000) ltac:(lra) ltac:(lra)). apply Rabs_le_inv in Et. apply Rabs_le. lra. }
  assert (Sp : Rabs (rnd (b - a) * rnd t) <= 65 / 10 * vast).
  { rewrite Rabs_mult. apply Rle_trans with (3 * vast * (21 / 10)); [apply Rmult_le_compat; (apply Rabs_pos || assumption)|lra]. }
  assert (Eq : Rabs (rnd (rnd (b - a) * rnd t) - rnd (b - a) * rnd t) <= u * Rabs (rnd (b - a) * rnd t) + eta) by apply rnd_err.
  assert (Vq : is_value (((y i -! y (i - 1)%Z) /! (nofZ i -! nofZ (i - 1))) *! (v -! nofZ (i - 1))) (rnd (rnd (b - a) * rnd t))).
  { apply mul_value; [exact Vs|exact Vt|apply rnd_huge, vast_huge; lra]. }
  set (q := rnd (rnd (b - a) * rnd t)) in *.
  assert (Sq : Rabs (q + a) <= 8 * vast).
  { replace (q + a) with ((q - rnd (b - a) * rnd t) + rnd (b - a) * rnd t + a) by ring. apply Rle_trans with (1 := Rabs_triang _ _).
    pose proof (Rabs_triang (q - rnd (b - a) * rnd t) (rnd (b - a) * rnd t)).
    pose proof (Rmult_le_compat u (/ 1000) (Rabs (rnd (b - a) * rnd t)) _ ltac:(lra) (Rabs_pos _) ltac:(lra) Sp). lra. }
  assert (Fq : generic_format radix2 fexp64 q) by (eapply value_fmt; exact Vq).
  pose proof (rnd_sum q a Fq Fa) as Ez.
  pose proof (add_value _ _ _ _ Vq Va (rnd_huge _ (vast_huge _ Sq))) as Vz.
  destruct Vz as (Z1 & Z2 & Z3). split; [exact Z1|]. split; [exact Z2|]. rewrite Z3.
  apply (interp_core u a b t (rnd (b - a)) (rnd t) q); try assumption; lra.
Qed.

(** ** Positions *)
Lemma position_value n m k : (2 <= n <= 2 ^ 26)%Z -> (2 <= m <= 2 ^ 26)%Z -> (0 <= k <= m - 1)%Z ->
  exists r, is_value (position n m k) r /\ 0 <= r /\ Rabs (r - spread n m k) <= 3 * u * IZR (n - 1).
Proof.
  intros Hn Hm Hk. unfold position.
  assert (N1 : 1 <= IZR (n - 1) <= bpow radix2 26) by (split; [apply (IZR_le 1); lia|change (bpow radix2 26) with (IZR (2 ^ 26)); apply IZR_le; lia]).
  assert (M1 : 1 <= IZR (m - 1) <= bpow radix2 26) by (split; [apply (IZR_le 1); lia|change (bpow radix2 26) with (IZR (2 ^ 26)); apply IZR_le; lia]).
  assert (K1 : 0 <= IZR k <= IZR (m - 1)) by (split; [apply (IZR_le 0); lia|apply IZR_le; lia]).
  set (q := IZR (n - 1) / IZR (m - 1)).
  assert (Q1 : bpow radix2 (-26) <= q).
  { unfold q, Rdiv. replace (bpow radix2 (-26)) with (1 * bpow radix2 (-26)) by ring. apply Rmult_le_compat; [lra|apply bpow_ge_0|lra|].
    change (bpow radix2 (-26)) with (/ bpow radix2 26). apply Rinv_le_contravar; lra. }
  assert (Q2 : q <= bpow radix2 26).
  { unfold q. apply Rmult_le_reg_r with (IZR (m - 1)); [lra|]. unfold Rdiv. rewrite Rmult_assoc, Rinv_l by lra.
    pose proof (bpow_gt_0 radix2 26). pose proof (Rmult_le_compat_l (bpow radix2 26) 1 (IZR (m - 1)) ltac:(lra) ltac:(lra)). lra. }
  assert (Q0 : 0 < q) by (pose proof (bpow_gt_0 radix2 (-26)); lra).
  assert (Sp : spread n m k = q * IZR k) by (unfold spread, q; field; lra).
  assert (Sn : q * IZR k <= IZR (n - 1)).
  { rewrite <- Sp. apply spread_range; lia. }
  pose proof u_small as Us.
  destruct (rnd_rel q) as (e & He & Eq).
  { rewrite Rabs_pos_eq by lra. apply Rle_trans with (2 := Q1). apply bpow_le. lia. }
  change eps53 with u in He. apply Rabs_le_inv in He.
  assert (Vq : is_value (nofZ (n - 1) /! nofZ (m - 1)) (q * (1 + e))).
  { rewrite <- Eq. apply div_value; [apply ofZ_value; lia|apply ofZ_value; lia|lra|].
    apply rnd_huge. fold q. rewrite Rabs_pos_eq by lra. apply Rle_trans with (1 := Q2). apply bpow_le. lia. }
  assert (Vk : is_value (nofZ k) (IZR k)) by (apply ofZ_value; lia).
  assert (P0 : 0 <= q * (1 + e) * IZR k) by (apply Rmult_le_pos; [apply Rmult_le_pos; lra|lra]).
  assert (P1 : q * (1 + e) * IZR k <= huge).
  { apply Rle_trans with (2 * IZR (n - 1)).
    - replace (q * (1 + e) * IZR k) with ((1 + e) * (q * IZR k)) by ring. apply Rmult_le_compat; try lra. apply Rmult_le_pos; lra.
    - apply Rle_trans with (2 * bpow radix2 26); [lra|]. change 2 with (bpow radix2 1). rewrite <- bpow_plus. apply bpow_le. lia. }
  exists (rnd (q * (1 + e) * IZR k)). split.
  { apply mul_value; [exact Vq|exact Vk|]. apply rnd_huge. rewrite Rabs_pos_eq; assumption. }
  split; [rewrite <- CorrectFloatFacts.rnd_0; apply rnd_mono; exact P0|]. rewrite Sp.
  destruct (Z.eq_dec k 0) as [->|Hk0].
  { rewrite !Rmult_0_r, CorrectFloatFacts.rnd_0, Rminus_0_r, Rabs_R0. apply Rmult_le_pos; lra. }
  assert (K2 : 1 <= IZR k) by (apply (IZR_le 1); lia).
  destruct (rnd_rel (q * (1 + e) * IZR k)) as (f & Hf & Ef).
  { rewrite Rabs_pos_eq by exact P0. apply Rle_trans with (bpow radix2 (-26) * / 2).
    - change (/ 2) with (bpow radix2 (-1)). rewrite <- bpow_plus. apply bpow_le. lia.
    - pose proof (bpow_gt_0 radix2 (-26)). apply Rle_trans with (q * (1 + e) * 1); [rewrite Rmult_1_r; apply Rmult_le_compat; lra|].
      apply Rmult_le_compat_l; [apply Rmult_le_pos; lra|exact K2]. }
  change eps53 with u in Hf. apply Rabs_le_inv in Hf. rewrite Ef.
  replace (q * (1 + e) * IZR k * (1 + f) - q * IZR k) with (q * IZR k * (e + f + e * f)) by ring.
  assert (P : 0 <= q * IZR k) by (apply Rmult_le_pos; lra). rewrite Rabs_mult, (Rabs_pos_eq _ P), Rmult_comm.
  assert (EF : Rabs (e * f) <= u * (/ 1000)) by (rewrite Rabs_mult; apply Rmult_le_compat; try apply Rabs_pos; apply Rabs_le; lra).
  apply Rabs_le_inv in EF. apply Rmult_le_compat; [apply Rabs_pos|exact P|apply Rabs_le; lra|exact Sn].
Qed.

(** ** One line *)
Lemma resample_line n (y : Z -> b64) (Y : Z -> R) m k M E : (2 <= n <= 2 ^ 26)%Z -> (2 <= m <= 2 ^ 26)%Z -> (0 <= k <= m - 1)%Z ->
  (forall i, (0 <= i < n)%Z -> is_value (y i) (fval (y i)) /\ Rabs (fval (y i)) <= M /\ Rabs (fval (y i) - Y i) <= E) -> M <= vast ->
  off_by (20 * u * M + 2 * eta + 6 * u * IZR (n - 1) * M + E) (interp1d n y (position n m k)) (interp1d n Y (spread n m k)).
Proof.
  intros Hn Hm Hk Hy HM. destruct (position_value n m k Hn Hm Hk) as (r & Vr & R0 & Er).
  assert (M0 : 0 <= M) by (destruct (Hy 0%Z ltac:(lia)) as (_ & B & _); pose proof (Rabs_pos (fval (y 0%Z))); lra).
  assert (N1 : 1 <= IZR (n - 1) <= bpow radix2 26) by (split; [apply (IZR_le 1); lia|change (bpow radix2 26) with (IZR (2 ^ 26)); apply IZR_le; lia]).
  pose proof (spread_range n m k ltac:(lia) ltac:(lia) Hk) as Sp. set (p := spread n m k) in *.
  assert (D1 : Rabs (r - p) < 1).
  { apply Rle_lt_trans with (1 := Er). apply Rle_lt_trans with (3 * u * bpow radix2 26); [apply Rmult_le_compat_l; [pose proof u_small; lra|lra]|].
    rewrite Rmult_assoc, <- bpow_plus. change (bpow radix2 (-53 + 26)) with (/ 134217728). lra. }
  assert (Rn : r <= IZR n) by (apply Rabs_def2 in D1; rewrite minus_IZR in Sp; lra).
  destruct (interp_round n y (position n m k) r M) as (B & F & A); try assumption; try lra.
  { lia. } { intros i Hi. destruct (Hy i Hi) as (? & ? & _). auto. }
  split; [exact B|]. split; [exact F|].
  pose proof (polygon_lipschitz n (fun i => fval (y i)) M r p ltac:(lia) ltac:(intros i Hi; apply Hy, Hi) R0 (proj1 Sp) D1) as L.
  assert (L' : 2 * M * Rabs (r - p) <= 2 * M * (3 * u * IZR (n - 1))) by (apply Rmult_le_compat_l; lra).
  assert (C : Rabs (interp1d n (fun i => fval (y i)) p - interp1d n Y p) <= E).
  { rewrite !interp_at. pose proof (interval_in n p ltac:(lia)) as Hi. destruct (interval_spec n p ltac:(lia) (proj1 Sp)) as (I1 & I2).
    set (i := interval n p) in *. clearbody i.
    assert (T : 0 <= p - IZR (i - 1) <= 1).
    { rewrite minus_IZR in *. destruct I2 as [I2|I2]; [lra|]. rewrite I2 in *. rewrite minus_IZR in *. lra. }
    set (t := p - IZR (i - 1)) in *. clearbody t.
    destruct (Hy i ltac:(lia)) as (_ & _ & E1). destruct (Hy (i - 1)%Z ltac:(lia)) as (_ & _ & E2).
    set (a := fval (y (i - 1)%Z)) in *. set (b := fval (y i)) in *. cbv beta.
    replace (a + (b - a) * t - (Y (i - 1)%Z + (Y i - Y (i - 1)%Z) * t)) with ((1 - t) * (a - Y (i - 1)%Z) + t * (b - Y i)) by ring.
    apply Rle_trans with (1 := Rabs_triang _ _). rewrite !Rabs_mult, (Rabs_pos_eq (1 - t)), (Rabs_pos_eq t) by lra.
    apply Rle_trans with ((1 - t) * E + t * E); [apply Rplus_le_compat; apply Rmult_le_compat_l; lra|lra]. }
  set (z := fval (interp1d n y (position n m k))) in *.
  replace (z - interp1d n Y p) with ((z - interp1d n (fun i => fval (y i)) r) + ((interp1d n (fun i => fval (y i)) r - interp1d n (fun i => fval (y i)) p)
    + (interp1d n (fun i => fval (y i)) p - interp1d n Y p))) by ring.
  apply Rle_trans with (1 := Rabs_triang _ _).
  pose proof (Rabs_triang (interp1d n (fun i => fval (y i)) r - interp1d n (fun i => fval (y i)) p) (interp1d n (fun i => fval (y i)) p - interp1d n Y p)). lra.
Qed.

(** ** Images *)
Lemma congrid_cell {A} `{Num A} (a : arr A) h w y x :
  cell (congrid a h w) y x = interp1d (rows a) (fun j => interp1d (cols a) (fun i => cell a j i) (position (cols a) w x)) (position (rows a) h y).
Proof. reflexivity. Qed.

Lemma resample_error_bpow h w M : resample_error h w M = 12 * IZR (h + w + 4) * M * u + bpow radix2 (-1072).
Proof. unfold resample_error. rewrite <- !(bpow_powerRZ radix2). reflexivity. Qed.
Lemma resample_off (a : arr b64) h w M y x : (2 <= rows a <= 2 ^ 26)%Z -> (2 <= cols a <= 2 ^ 26)%Z -> (2 <= h <= 2 ^ 26)%Z -> (2 <= w <= 2 ^ 26)%Z ->
  bounded M a -> M <= powerRZ 2 998 -> (0 <= y < h)%Z -> (0 <= x < w)%Z ->
  off_by (resample_error (rows a) (cols a) M) (cell (congrid a h w) y x) (cell (congrid (values a) h w) y x).
Proof.
  intros Hr Hc Hh Hw HB HM Hy Hx. rewrite !congrid_cell. change (rows (values a)) with (rows a). change (cols (values a)) with (cols a).
  rewrite !position_spread by lia.
  change 2 with (IZR radix2) in HM. rewrite <- bpow_powerRZ in HM.
  pose proof u_small as Us. pose proof eta_small as Es.
  assert (M0 : 0 <= M) by (destruct (HB 0%Z 0%Z ltac:(lia) ltac:(lia)) as (_ & _ & B); pose proof (Rabs_pos (fval (cell a 0 0))); lra).
  assert (W4 : vast = 4 * bpow radix2 998) by (change 4 with (bpow radix2 2); rewrite <- bpow_plus; reflexivity).
  assert (W1 : 1 <= bpow radix2 998) by (change 1 with (bpow radix2 0); apply bpow_le; lia).
  set (c := IZR (cols a - 1)). set (r := IZR (rows a - 1)).
  assert (C1 : 1 <= c <= 67108864) by (split; [apply (IZR_le 1); lia|apply (IZR_le _ (2 ^ 26)); lia]).
  assert (R1 : 1 <= r <= 67108864) by (split; [apply (IZR_le 1); lia|apply (IZR_le _ (2 ^ 26)); lia]).
  set (E1 := 20 * u * M + 2 * eta + 6 * u * c * M + 0).
  assert (L1 : forall j, (0 <= j < rows a)%Z ->
    off_by E1 (interp1d (cols a) (fun i => cell a j i) (position (cols a) w x)) (interp1d (cols a) (fun i => cell (values a) j i) (spread (cols a) w x))).
  { intros j Hj. apply resample_line; try lia; [|lra]. intros i Hi. destruct (HB j i Hj Hi) as (B & F & S). split; [split; [exact B|split; [exact F|reflexivity]]|].
    split; [exact S|]. change (cell (values a) j i) with (fval (cell a j i)). rewrite Rminus_eq_0, Rabs_R0. lra. }
  assert (S1 : forall j, (0 <= j < rows a)%Z -> Rabs (interp1d (cols a) (fun i => cell (values a) j i) (spread (cols a) w x)) <= M).
  { intros j Hj. apply Rabs_le. apply (polygon_range (cols a) (fun i => cell (values a) j i) (spread (cols a) w x)).
    - intros i Hi. destruct (HB j i Hj Hi) as (_ & _ & S). apply Rabs_le_inv in S. exact S.
    - apply interp1d_polygon; [lia|]. apply spread_range; lia. }
  assert (UM : 0 <= u * M) by (apply Rmult_le_pos; lra).
  assert (UC : u * c * M <= / 1000 * M).
  { apply Rmult_le_compat_r; [exact M0|]. apply Rle_trans with (u * 67108864); [apply Rmult_le_compat_l; lra|]. change u with (/ 9007199254740992). lra. }
  assert (UM' : u * M <= / 1000 * M) by (apply Rmult_le_compat_r; lra).
  assert (E1M : E1 <= M + 2 * eta) by (unfold E1; lra).
  set (M1 := 2 * M + 2 * eta).
  pose proof (resample_line (rows a) (fun j => interp1d (cols a) (fun i => cell a j i) (position (cols a) w x))
    (fun j => interp1d (cols a) (fun i => cell (values a) j i) (spread (cols a) w x)) h y M1 E1 Hr Hh ltac:(lia)) as L2.
  destruct L2 as (B & F & A).
  - intros j Hj. destruct (L1 j Hj) as (B & F & A). split; [split; [exact B|split; [exact F|reflexivity]]|]. split; [|exact A].
    pose proof (S1 j Hj) as S. set (z := fval (interp1d (cols a) (fun i => cell a j i) (position (cols a) w x))) in *.
    set (z' := interp1d (cols a) (fun i => cell (values a) j i) (spread (cols a) w x)) in *.
    replace z with ((z - z') + z') by ring. apply Rle_trans with (1 := Rabs_triang _ _). unfold M1. lra.
  - unfold M1. lra.
  - split; [exact B|]. split; [exact F|]. apply Rle_trans with (1 := A). rewrite resample_error_bpow; unfold E1, M1. fold r.
    replace (IZR (rows a + cols a + 4)) with (r + c + 6) by (unfold r, c; rewrite !plus_IZR, !minus_IZR; lra).
    replace (bpow radix2 (-1072)) with (8 * eta) by (change 8 with (bpow radix2 3); rewrite <- bpow_plus; reflexivity).
    assert (UE : u * eta <= / 1000 * eta) by (apply Rmult_le_compat_r; lra).
    assert (URE : u * r * eta <= / 1000 * eta).
    { apply Rmult_le_compat_r; [lra|]. apply Rle_trans with (u * 67108864); [apply Rmult_le_compat_l; lra|]. change u with (/ 9007199254740992). lra. }
    assert (URM : 0 <= u * r * M) by (apply Rmult_le_pos; [apply Rmult_le_pos; lra|exact M0]).
    assert (UCM : 0 <= u * c * M) by (apply Rmult_le_pos; [apply Rmult_le_pos; lra|exact M0]).
    replace (12 * (r + c + 6) * M * u) with (12 * (u * r * M) + 12 * (u * c * M) + 72 * (u * M)) by ring.
    replace (20 * u * (2 * M + 2 * eta) + 2 * eta + 6 * u * r * (2 * M + 2 * eta) + (20 * u * M + 2 * eta + 6 * u * c * M + 0))
      with (60 * (u * M) + 40 * (u * eta) + 4 * eta + 12 * (u * r * M) + 12 * (u * r * eta) + 6 * (u * c * M)) by ring. lra.
Qed.

(** ** Refinement by powers of two is exact *)
Lemma fixed_lift m k j : (0 <= j)%Z -> fixed m k = fixed (m * 2 ^ j) (k + j).
Proof.
  intros Hj. unfold fixed. rewrite mult_IZR. replace (- k)%Z with (j + - (k + j))%Z by lia. rewrite bpow_plus.
  change 2%Z with (radix_val radix2). rewrite IZR_Zpower by exact Hj. ring.
Qed.
Lemma fx_lift_pow b k j x r : fx b k x r -> (0 <= j)%Z -> (b * 2 ^ j < 2 ^ 53)%Z -> (k + j <= 1000)%Z -> fx (b * 2 ^ j) (k + j) x r.
Proof.
  intros (m & V & E & B & B2 & K) Hj Hb Hk. exists (m * 2 ^ j)%Z. split; [exact V|]. split; [rewrite E; apply fixed_lift, Hj|].
  split; [|lia]. rewrite Z.abs_mul, (Z.abs_eq (2 ^ j)) by lia. apply Z.mul_le_mono_nonneg_r; lia.
Qed.
Lemma refined_position n j k : (2 <= n <= 2 ^ 26)%Z -> (0 <= j <= 26)%Z -> (0 <= k <= 2 ^ j * (n - 1))%Z ->
  is_value (position n (2 ^ j * (n - 1) + 1) k) (fixed k j) /\ spread n (2 ^ j * (n - 1) + 1) k = fixed k j.
Proof.
  intros Hn Hj Hk. assert (P : (1 <= 2 ^ j <= 2 ^ 26)%Z) by (split; [apply (Z.pow_le_mono_r 2 0 j); lia|apply Z.pow_le_mono_r; lia]).
  assert (PN : (1 <= 2 ^ j * (n - 1) <= 2 ^ 26 * 2 ^ 26)%Z) by (split; [apply (Z.mul_le_mono_nonneg 1 (2 ^ j) 1 (n - 1)); lia|apply Z.mul_le_mono_nonneg; lia]).
  replace (2 ^ j * (n - 1) + 1 - 1)%Z with (2 ^ j * (n - 1))%Z by lia.
  assert (N0 : IZR (n - 1) <> 0) by (apply not_0_IZR; lia).
  assert (J0 : bpow radix2 j <> 0) by (pose proof (bpow_gt_0 radix2 j); lra).
  assert (Q : IZR (n - 1) / IZR (2 ^ j * (n - 1)) = fixed 1 j).
  { unfold fixed. rewrite mult_IZR. change 2%Z with (radix_val radix2). rewrite IZR_Zpower by lia. rewrite bpow_opp. field. split; assumption. }
  split.
  - unfold position. replace (2 ^ j * (n - 1) + 1 - 1)%Z with (2 ^ j * (n - 1))%Z by lia.
    replace (fixed k j) with (rnd (fixed 1 j * IZR k)).
    + apply mul_value; [|apply ofZ_value; lia|].
      * rewrite <- (rnd_fixed 1 j) by lia. rewrite <- Q. apply div_value; [apply ofZ_value; lia|apply ofZ_value; lia|apply not_0_IZR; lia|].
        rewrite Q, rnd_fixed by lia. apply fixed_small; lia.
      * replace (fixed 1 j * IZR k) with (fixed k j) by (unfold fixed; ring). rewrite rnd_fixed by lia. apply fixed_small; lia.
    + replace (fixed 1 j * IZR k) with (fixed k j) by (unfold fixed; ring). apply rnd_fixed; lia.
  - unfold spread. replace (2 ^ j * (n - 1) + 1 - 1)%Z with (2 ^ j * (n - 1))%Z by lia.
    replace (IZR k * IZR (n - 1) / IZR (2 ^ j * (n - 1))) with (IZR k * (IZR (n - 1) / IZR (2 ^ j * (n - 1)))) by (unfold Rdiv; ring).
    rewrite Q. unfold fixed. ring.
Qed.
Lemma refined_line n (y : Z -> b64) (Y : Z -> R) b K j k : (2 <= n <= 2 ^ 26)%Z -> (0 <= j <= 26)%Z -> (0 <= k <= 2 ^ j * (n - 1))%Z ->
  (0 <= b)%Z -> (3 * b * 2 ^ j < 2 ^ 53)%Z -> (0 <= K)%Z -> (K + j <= 1000)%Z -> (forall i, (0 <= i < n)%Z -> fx b K (y i) (Y i)) ->
  fx (3 * b * 2 ^ j) (K + j) (interp1d n y (position n (2 ^ j * (n - 1) + 1) k)) (interp1d n Y (spread n (2 ^ j * (n - 1) + 1) k)).
Proof.
  intros Hn Hj Hk Hb Hbj HK HKj Hy. destruct (refined_position n j k Hn Hj Hk) as (Vp & Es). rewrite Es.
  assert (P : (1 <= 2 ^ j <= 2 ^ 26)%Z) by (split; [apply (Z.pow_le_mono_r 2 0 j); lia|apply Z.pow_le_mono_r; lia]).
  assert (Hb2 : (2 * b < 2 ^ 53)%Z) by (pose proof (Z.mul_le_mono_nonneg_l 1 (2 ^ j) (3 * b)%Z ltac:(lia) ltac:(lia)); lia).
  assert (R0 : 0 <= fixed k j) by (apply Rmult_le_pos; [apply (IZR_le 0); lia|apply bpow_ge_0]).
  assert (R1 : fixed k j <= IZR (n - 1)).
  { rewrite <- Es. assert (1 <= 2 ^ j * (n - 1))%Z by (apply (Z.mul_le_mono_nonneg 1 (2 ^ j) 1 (n - 1)); lia). apply spread_range; lia. }
  rewrite interp_at. unfold interp1d. rewrite (searchsorted_value n _ _ ltac:(lia) Vp). fold (interval n (fixed k j)).
  pose proof (interval_in n (fixed k j) ltac:(lia)) as Hi. destruct (interval_spec n (fixed k j) ltac:(lia) R0) as (I1 & I2).
  set (i := interval n (fixed k j)) in *. clearbody i.
  assert (T : 0 <= fixed k j - IZR (i - 1) <= 1).
  { rewrite minus_IZR in *. destruct I2 as [I2|I2]; [lra|]. rewrite I2 in *. rewrite minus_IZR in *. lra. }
  assert (ET : fixed k j - IZR (i - 1) = fixed (k - (i - 1) * 2 ^ j) j).
  { rewrite <- (fixed_0 (i - 1)), (fixed_lift (i - 1) 0 j) by lia. rewrite Z.add_0_l. apply fixed_sub. }
  assert (BT : (Z.abs (k - (i - 1) * 2 ^ j) <= 2 ^ j)%Z).
  { rewrite ET in T. unfold fixed in T. destruct T as (T0 & T1). pose proof (bpow_gt_0 radix2 (- j)) as Bj.
    assert (0 <= IZR (k - (i - 1) * 2 ^ j)) by (apply Rmult_le_reg_r with (bpow radix2 (- j)); lra).
    assert (IZR (k - (i - 1) * 2 ^ j) <= IZR (2 ^ j)).
    { apply Rmult_le_reg_r with (bpow radix2 (- j)); [exact Bj|]. change 2%Z with (radix_val radix2) at 2. rewrite (IZR_Zpower radix2 j) by lia.
      rewrite <- bpow_plus. replace (j + - j)%Z with 0%Z by lia. exact T1. }
    apply (le_IZR 0) in H. apply le_IZR in H0. lia. }
  assert (FT : fx (2 ^ j) j (position n (2 ^ j * (n - 1) + 1) k -! nofZ (i - 1)) (fixed k j - IZR (i - 1))).
  { exists (k - (i - 1) * 2 ^ j)%Z. split; [|split; [exact ET|lia]].
    assert (Er : rnd (fixed k j - IZR (i - 1)) = fixed k j - IZR (i - 1)) by (rewrite ET; apply rnd_fixed; lia).
    rewrite <- Er. apply sub_value; [exact Vp|apply ofZ_value; lia|]. rewrite Er, ET. apply fixed_small; lia. }
  assert (FS : fx (2 * b) K ((y i -! y (i - 1)%Z) /! (nofZ i -! nofZ (i - 1))) (Y i - Y (i - 1)%Z)).
  { pose proof (fx_sub b b K _ _ _ _ (Hy i ltac:(lia)) (Hy (i - 1)%Z ltac:(lia)) ltac:(lia)) as D.
    replace (b + b)%Z with (2 * b)%Z in D by lia. destruct D as (m & V & Em & Bm & Rest). exists m. split; [|auto].
    assert (E1 : (Y i - Y (i - 1)%Z) / 1 = Y i - Y (i - 1)%Z) by field.
    assert (E2 : rnd ((Y i - Y (i - 1)%Z) / 1) = Y i - Y (i - 1)%Z) by (rewrite E1, Em; apply rnd_fixed; lia).
    rewrite <- E2. apply div_value; [exact V|apply one_value; lia|lra|]. rewrite E2, Em. apply fixed_small; lia. }
  pose proof (fx_mul (2 * b) (2 ^ j) K j _ _ _ _ FS FT ltac:(lia) HKj) as FM.
  pose proof (fx_lift_pow b K j _ _ (Hy (i - 1)%Z ltac:(lia)) ltac:(lia) ltac:(lia) HKj) as FL.
  pose proof (fx_add _ _ _ _ _ _ _ FM FL ltac:(lia)) as FA.
  replace (2 * b * 2 ^ j + b * 2 ^ j)%Z with (3 * b * 2 ^ j)%Z in FA by ring.
  rewrite (Rplus_comm (Y (i - 1)%Z)). exact FA.
Qed.
Lemma resample_exact (a : arr b64) n i j : (2 <= rows a <= 2 ^ 26)%Z -> (2 <= cols a <= 2 ^ 26)%Z -> (0 <= i <= 26)%Z -> (0 <= j <= 26)%Z ->
  (0 <= n)%Z -> counts n a -> (9 * n * 2 ^ (i + j) < 2 ^ 53)%Z ->
  exact_image (congrid a (2 ^ i * (rows a - 1) + 1) (2 ^ j * (cols a - 1) + 1)) (congrid (values a) (2 ^ i * (rows a - 1) + 1) (2 ^ j * (cols a - 1) + 1)).
Proof.
  intros Hr Hc Hi Hj Hn C Hb. split; [reflexivity|]. split; [reflexivity|]. intros y x Hy Hx.
  rewrite !congrid_cell. change (rows (values a)) with (rows a). change (cols (values a)) with (cols a).
  cbn [congrid rows cols values amap] in Hy, Hx.
  assert (P1 : (1 <= 2 ^ i)%Z) by (apply (Z.pow_le_mono_r 2 0 i); lia). assert (P2 : (1 <= 2 ^ j)%Z) by (apply (Z.pow_le_mono_r 2 0 j); lia).
  assert (PI : (1 <= 2 ^ i * (rows a - 1))%Z) by (apply (Z.mul_le_mono_nonneg 1 (2 ^ i) 1 (rows a - 1)); lia).
  assert (PJ : (1 <= 2 ^ j * (cols a - 1))%Z) by (apply (Z.mul_le_mono_nonneg 1 (2 ^ j) 1 (cols a - 1)); lia).
  rewrite !position_spread by lia. rewrite Z.pow_add_r in Hb by lia.
  assert (Hb1 : (3 * n * 2 ^ j < 2 ^ 53)%Z).
  { apply Z.le_lt_trans with (2 := Hb). pose proof (Z.mul_nonneg_nonneg n (2 ^ j) Hn ltac:(lia)) as N.
    pose proof (Z.mul_le_mono_nonneg_l 1 (2 ^ i) (9 * (n * 2 ^ j))%Z ltac:(lia) ltac:(lia)) as Q.
    replace (9 * n * (2 ^ i * 2 ^ j))%Z with (9 * (n * 2 ^ j) * 2 ^ i)%Z by ring. lia. }
  assert (Hn53 : (n < 2 ^ 53)%Z).
  { pose proof (Z.mul_le_mono_nonneg_l 1 (2 ^ j) n Hn ltac:(lia)). lia. }
  pose proof (counts_fimg n a ltac:(lia) C) as (_ & _ & FX).
  eapply fx_value. apply (refined_line (rows a) _ (fun v => interp1d (cols a) (fun u => cell (values a) v u) (spread (cols a) (2 ^ j * (cols a - 1) + 1) x)) (3 * n * 2 ^ j) (0 + j) i y);
    try lia.
  intros v Hv. apply (refined_line (cols a) (fun u => cell a v u) (fun u => cell (values a) v u)); try lia.
  intros u' Hu. apply FX; assumption.
Qed.

(** ** Statements *)
Lemma c138_range (a : arr b64) h w M lo hi y x : (2 <= rows a <= 2 ^ 26)%Z -> (2 <= cols a <= 2 ^ 26)%Z -> (2 <= h <= 2 ^ 26)%Z -> (2 <= w <= 2 ^ 26)%Z ->
  bounded M a -> M <= powerRZ 2 998 -> (forall i j, (0 <= i < rows a)%Z -> (0 <= j < cols a)%Z -> lo <= fval (cell a i j) <= hi) ->
  (0 <= y < h)%Z -> (0 <= x < w)%Z ->
  lo - resample_error (rows a) (cols a) M <= fval (cell (congrid a h w) y x) <= hi + resample_error (rows a) (cols a) M.
Proof.
  intros Hr Hc Hh Hw HB HM Hv Hy Hx. destruct (resample_off a h w M y x Hr Hc Hh Hw HB HM Hy Hx) as (_ & _ & A).
  pose proof (congrid_range (values a) h w (proj1 Hr) (proj1 Hc) ltac:(lia) ltac:(lia) lo hi y x Hv Hy Hx) as B.
  apply Rabs_le_inv in A. lra.
Qed.
Lemma c138_camera h w : (0 <= h <= 4096)%Z -> (0 <= w <= 4096)%Z -> resample_error h w 65535 <= / 1000000.
Proof.
  intros Hh Hw. rewrite resample_error_bpow. assert (B : IZR (h + w + 4) <= 8196) by (apply (IZR_le _ 8196); lia).
  assert (E : bpow radix2 (-1072) <= bpow radix2 (-53)) by (apply bpow_le; lia). change u with (/ 9007199254740992) in *. lra.
Qed.
Lemma congrid_ext64 (a b : arr b64) h w : rows a = rows b -> cols a = cols b -> (forall y x, cell a y x = cell b y x) ->
  forall y x, cell (congrid a h w) y x = cell (congrid b h w) y x.
Proof. intros Hr Hc He y x. rewrite !congrid_cell. rewrite Hr, Hc. unfold interp1d. rewrite !He. reflexivity. Qed.

Lemma c138_image (data : arr b64) (S : stokes b64) ny nx M :
  mosaic data -> (4 <= rows data <= 2 ^ 26)%Z -> (4 <= cols data <= 2 ^ 26)%Z -> (4 <= ny <= 2 ^ 26)%Z -> (4 <= nx <= 2 ^ 26)%Z ->
  bounded M data -> M <= powerRZ 2 998 ->
  exists d T, image_congrid data S ny nx = Ok (d, T) /\ (rows d = 2 * (ny / 2))%Z /\ (cols d = 2 * (nx / 2))%Z /\
    forall k Y X, (0 <= k < 4)%Z -> (0 <= Y < ny / 2)%Z -> (0 <= X < nx / 2)%Z ->
      exists v, bilinear (family_image (values data) k) (spread (rows data / 2) (ny / 2) Y) (spread (cols data / 2) (nx / 2) X) v /\
        off_by (resample_error (rows data / 2) (cols data / 2) M) (sample d k Y X) v.
Proof.
  intros (H1 & H2 & H3 & H4) Hr Hc Hy Hx HB HM.
  destruct (DemosaicFacts.split_spec data) as (q & Eq & Hq); [split; assumption|assumption|assumption|].
  assert (B1 : (2 <= ny / 2 <= 2 ^ 25)%Z) by (split; [apply Z.div_le_lower_bound; lia|apply Z.div_le_upper_bound; lia]).
  assert (B2 : (2 <= nx / 2 <= 2 ^ 25)%Z) by (split; [apply Z.div_le_lower_bound; lia|apply Z.div_le_upper_bound; lia]).
  assert (B3 : (2 <= rows data / 2 <= 2 ^ 25)%Z) by (split; [apply Z.div_le_lower_bound; lia|apply Z.div_le_upper_bound; lia]).
  assert (B4 : (2 <= cols data / 2 <= 2 ^ 25)%Z) by (split; [apply Z.div_le_lower_bound; lia|apply Z.div_le_upper_bound; lia]).
  assert (Th : trim ny = (2 * (ny / 2))%Z) by (unfold trim; pose proof (Z.div_mod ny 2); lia).
  assert (Tw : trim nx = (2 * (nx / 2))%Z) by (unfold trim; pose proof (Z.div_mod nx 2); lia).
  unfold image_congrid. rewrite Eq; cbn [bind]. rewrite Th, Tw, !(Z.mul_comm 2), !Z.div_mul by lia. rewrite <- !(Z.mul_comm 2).
  set (h := (ny / 2)%Z) in *. set (w := (nx / 2)%Z) in *. do 2 eexists. split; [reflexivity|].
  split; [rewrite DemosaicFacts.merge_rows; reflexivity|]. split; [rewrite DemosaicFacts.merge_cols; reflexivity|].
  intros k Y X Hk HY HX. unfold sample. rewrite DemosaicFacts.merge_cell.
  assert (K : (k = 0 \/ k = 1 \/ k = 2 \/ k = 3)%Z) by lia.
  assert (K1 : (0 <= k / 2 <= 1 /\ 0 <= k mod 2 <= 1 /\ k = 2 * (k / 2) + k mod 2)%Z) by (Z.to_euclidean_division_equations; lia).
  replace (2 * ((2 * Y + k / 2) mod 2) + (2 * X + k mod 2) mod 2)%Z with k by (Z.to_euclidean_division_equations; lia).
  replace ((2 * Y + k / 2) / 2)%Z with Y by (Z.to_euclidean_division_equations; lia).
  replace ((2 * X + k mod 2) / 2)%Z with X by (Z.to_euclidean_division_equations; lia).
  replace (qnth (quad_map (fun a => congrid a h w) q) k) with (congrid (qnth q k) h w)
    by (destruct K as [-> | [-> | [-> | ->]]]; reflexivity).
  destruct (Hq k Hk) as (Rk & Ck & Ek).
  rewrite (congrid_ext64 (qnth q k) (family_image data k) h w Rk Ck Ek).
  exists (cell (congrid (family_image (values data) k) h w) Y X). split.
  - apply (congrid_bilinear (family_image (values data) k) h w (proj1 B3) (proj1 B4) (proj1 B1) (proj1 B2) Y X HY HX).
  - apply (resample_off (family_image data k) h w M Y X); cbn [family_image rows cols]; try lia; [|exact HM].
    intros y x Iy Ix. cbn [family_image rows cols cell] in *. apply HB.
    + clear - Iy K1 H3. Z.to_euclidean_division_equations. lia.
    + clear - Ix K1 H4. Z.to_euclidean_division_equations. lia.
Qed.
Lemma counts_not_vast : 65535 <= powerRZ 2 998.
Proof.
  change 2 with (IZR radix2). rewrite <- bpow_powerRZ. apply Rle_trans with (bpow radix2 16); [cbn; lra|apply bpow_le; lia].
Qed.
