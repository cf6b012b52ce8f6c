(** Relative rounding errors of products, quotients, roots and sums of non-negative numbers. *)
From Coq Require Import ZArith Reals Lra Lia Floats.SpecFloat.
From Flocq Require Import Core Relative BinarySingleNaN.
From Verif Require Import Base.Base Base.Num Spec.AngleSpec Spec.FloatSpec
  Proofs.FloatFacts Proofs.ExactFacts Proofs.RoundFacts Proofs.RoundPol Proofs.CorrectFloatFacts.
Local Open Scope R_scope.

#[local] Existing Instance Hprec.
#[local] Existing Instance Hmax.
#[local] Existing Instance fexp64_valid.
#[local] Existing Instance fexp64_mono.

(** Between [(1 - u)^n] and its inverse *)
Definition factor (n : nat) (t : R) : Prop := (1 - u) ^ n <= t <= / (1 - u) ^ n.
(** Zero or of a size between 2^-e and 2^e *)
Definition medium (e : Z) (r : R) : Prop := r = 0 \/ bpow radix2 (- e) <= Rabs r <= bpow radix2 e.
(** [x] is [r] after [n] roundings *)
Definition rel (n : nat) (e : Z) (x : b64) (r : R) : Prop :=
  is_value x (fval x) /\ (exists t, fval x = r * t /\ factor n t) /\ medium e r.

Lemma shrink_gt n : 0 < (1 - u) ^ n.
Proof. pose proof u_half. apply pow_lt. lra. Qed.
Lemma factor_1 n : factor n 1.
Proof.
  pose proof (shrink_pos n) as (_ & L). pose proof (shrink_gt n) as G. split; [exact L|].
  rewrite <- Rinv_1 at 1. apply Rinv_le; lra.
Qed.
Lemma factor_pos n t : factor n t -> 0 < t.
Proof. intros (L & _). pose proof (shrink_gt n). lra. Qed.
Lemma factor_mul n m s t : factor n s -> factor m t -> factor (n + m) (s * t).
Proof.
  intros Hs Ht. pose proof (factor_pos _ _ Hs). pose proof (factor_pos _ _ Ht). destruct Hs as (Ls & Ms), Ht as (Lt & Mt).
  pose proof (shrink_gt n). pose proof (shrink_gt m). unfold factor. rewrite pow_add, Rinv_mult.
  split; apply Rmult_le_compat; lra.
Qed.
Lemma factor_inv n t : factor n t -> factor n (/ t).
Proof.
  intros Ht. pose proof (factor_pos _ _ Ht). destruct Ht as (L & M). pose proof (shrink_gt n). split.
  - rewrite <- (Rinv_inv ((1 - u) ^ n)). apply Rinv_le; [lra|exact M].
  - apply Rinv_le; [lra|exact L].
Qed.
Lemma factor_sqrt n t : factor (n + n) t -> factor n (sqrt t).
Proof.
  intros Ht. pose proof (factor_pos _ _ Ht). destruct Ht as (L & M). pose proof (shrink_gt n).
  rewrite pow_add in L, M. split.
  - rewrite <- (sqrt_square ((1 - u) ^ n)) by lra. apply sqrt_le_1_alt. exact L.
  - assert (0 < / (1 - u) ^ n) by (apply Rinv_0_lt_compat; assumption).
    rewrite <- (sqrt_square (/ (1 - u) ^ n)) by lra. apply sqrt_le_1_alt. rewrite <- Rinv_mult. exact M.
Qed.
Lemma factor_mono n m t : factor n t -> (n <= m)%nat -> factor m t.
Proof.
  intros Ht Hm. replace m with (n + (m - n))%nat by lia. rewrite <- (Rmult_1_r t). apply factor_mul; [exact Ht|apply factor_1].
Qed.
Lemma few n : (n <= 1000)%nat -> INR n * u <= / 2.
Proof.
  intros Hn. assert (INR n <= 1000).
  { replace 1000 with (INR 1000) by (rewrite INR_IZR_INZ; reflexivity). apply le_INR. exact Hn. }
  assert (u <= / 2000) by (change u with (/ 9007199254740992); lra). pose proof (pos_INR n). pose proof (bpow_gt_0 radix2 (-53)).
  apply Rle_trans with (1000 * / 2000); [apply Rmult_le_compat; lra|lra].
Qed.
Lemma factor_2 n t : factor n t -> (n <= 1000)%nat -> / 2 <= t <= 2.
Proof.
  intros (L & M) Hn. pose proof (shrink_lo n) as S. pose proof (shrink_gt n) as G.
  pose proof (few n Hn) as B.
  split; [lra|]. apply Rle_trans with (1 := M). rewrite <- (Rinv_inv 2). apply Rinv_le; lra.
Qed.
Lemma factor_round e : Rabs e <= u -> factor 1 (1 + e).
Proof.
  intros He. apply Rabs_le_inv in He. pose proof u_half as U. unfold factor. rewrite pow_1. split; [lra|].
  apply Rle_trans with (1 + u); [lra|]. apply Rmult_le_reg_r with (1 - u); [lra|]. rewrite Rinv_l by lra. nra.
Qed.

Lemma medium_mono e f r : medium e r -> (e <= f)%Z -> medium f r.
Proof.
  intros [->|(L & M)] H; [left; reflexivity|right]. split.
  - apply Rle_trans with (2 := L). apply bpow_le. lia.
  - apply Rle_trans with (1 := M). apply bpow_le. lia.
Qed.
Lemma medium_mul e f r s : medium e r -> medium f s -> medium (e + f) (r * s).
Proof.
  intros [->|(L & M)] [->|(L' & M')]; [left; ring|left; ring|left; ring|right].
  rewrite Rabs_mult. replace (- (e + f))%Z with (- e + - f)%Z by lia. rewrite !bpow_plus.
  pose proof (bpow_ge_0 radix2 (- e)). pose proof (bpow_ge_0 radix2 (- f)). pose proof (Rabs_pos r). pose proof (Rabs_pos s).
  split; apply Rmult_le_compat; lra.
Qed.
Lemma medium_inv e r : medium e r -> medium e (/ r).
Proof.
  intros [->|(L & M)]; [left; apply Rinv_0|right].
  assert (G : 0 < Rabs r) by (pose proof (bpow_gt_0 radix2 (- e)); lra).
  assert (r <> 0) by (intros ->; rewrite Rabs_R0 in G; lra).
  rewrite Rabs_inv. split.
  - rewrite bpow_opp. apply Rinv_le; [exact G|exact M].
  - replace e with (- - e)%Z by lia. rewrite (bpow_opp _ (- e)). apply Rinv_le; [apply bpow_gt_0|exact L].
Qed.
Lemma medium_add e r s : medium e r -> medium e s -> 0 <= r -> 0 <= s -> (0 <= e)%Z -> medium (e + 1) (r + s).
Proof.
  intros Hr Hs R0 S0 He. destruct Hr as [->|(L & M)].
  - rewrite Rplus_0_l. apply medium_mono with (1 := Hs). lia.
  - rewrite (Rabs_pos_eq r) in L, M by exact R0. right. rewrite Rabs_pos_eq by lra. rewrite bpow_plus. change (bpow radix2 1) with 2.
    assert (bpow radix2 (- (e + 1)) <= bpow radix2 (- e)) by (apply bpow_le; lia).
    destruct Hs as [->|(L' & M')]; [pose proof (bpow_gt_0 radix2 e); lra|]. rewrite (Rabs_pos_eq s) in L', M' by exact S0. lra.
Qed.
Lemma medium_sqrt e r : medium (e + e) r -> 0 <= r -> medium e (sqrt r).
Proof.
  intros [->|(L & M)] R0; [left; apply sqrt_0|right]. rewrite (Rabs_pos_eq r) in L, M by exact R0.
  rewrite Rabs_pos_eq by apply sqrt_pos. split.
  - apply sqrt_ge_bpow. exact L.
  - rewrite bpow_plus in M. rewrite <- (sqrt_square (bpow radix2 e)) by apply bpow_ge_0. apply sqrt_le_1_alt. exact M.
Qed.

(** One more rounding *)
Lemma rel_round n e v r t : v = r * t -> factor n t -> medium e r -> (n <= 1000)%nat -> (e <= 1000)%Z ->
  Rabs (rnd v) < bpow radix2 emax /\ exists t', rnd v = r * t' /\ factor (S n) t'.
Proof.
  intros Ev Ht Hr Hn He. pose proof (factor_2 _ _ Ht Hn) as T2. destruct Hr as [->|(L & M)].
  - subst v. rewrite Rmult_0_l, rnd_0, Rabs_R0. split; [apply bpow_gt_0|]. exists 1. split; [ring|apply factor_1].
  - assert (Av : Rabs v = Rabs r * t) by (rewrite Ev, Rabs_mult, (Rabs_pos_eq t) by lra; reflexivity).
    pose proof (bpow_gt_0 radix2 (- e)). split.
    + apply rnd_huge. rewrite Av. apply Rle_trans with (bpow radix2 e * 2); [apply Rmult_le_compat; lra|].
      change 2 with (bpow radix2 1). rewrite <- bpow_plus. apply bpow_le. lia.
    + destruct (rnd_rel v) as (d & Hd & ->).
      * rewrite Av. apply Rle_trans with (bpow radix2 (- e) * / 2); [|apply Rmult_le_compat; lra].
        change (/ 2) with (bpow radix2 (-1)). rewrite <- bpow_plus. apply bpow_le. lia.
      * exists (t * (1 + d)). split; [rewrite Ev; ring|]. rewrite <- Nat.add_1_r. apply factor_mul; [exact Ht|]. apply factor_round. exact Hd.
Qed.

Lemma rel_value e x r : is_value x r -> medium e r -> rel 0 e x r.
Proof.
  intros V Hr. pose proof (value_val _ _ V) as E. split; [rewrite E; exact V|]. split; [|exact Hr].
  exists 1. split; [rewrite E; ring|apply factor_1].
Qed.
Lemma rel_mono n m e f x r : rel n e x r -> (n <= m)%nat -> (e <= f)%Z -> rel m f x r.
Proof.
  intros (V & (t & E & T) & M) Hn He. split; [exact V|]. split; [|apply medium_mono with (1 := M); exact He].
  exists t. split; [exact E|]. apply factor_mono with (1 := T). exact Hn.
Qed.
Lemma rel_finish n e z v r t : is_value z (rnd v) \/ (Rabs (rnd v) < bpow radix2 emax -> is_value z (rnd v)) ->
  v = r * t -> factor n t -> medium e r -> (n <= 1000)%nat -> (e <= 1000)%Z -> rel (S n) e z r.
Proof.
  intros V Ev Ht Hr Hn He. destruct (rel_round n e v r t Ev Ht Hr Hn He) as (B & t' & Et & Ft).
  assert (Vz : is_value z (rnd v)) by tauto. pose proof (value_val _ _ Vz) as E. split; [rewrite E; exact Vz|].
  split; [|exact Hr]. exists t'. rewrite E. split; assumption.
Qed.

Lemma rel_mul n m e f x y r s : rel n e x r -> rel m f y s -> (n + m <= 1000)%nat -> (e + f <= 1000)%Z ->
  rel (S (n + m)) (e + f) (x *! y) (r * s).
Proof.
  intros (Vx & (t & Ex & Tx) & Mx) (Vy & (t' & Ey & Ty) & My) Hn He.
  apply (rel_finish (n + m) (e + f) _ (fval x * fval y) (r * s) (t * t')).
  - right. apply mul_value; assumption.
  - rewrite Ex, Ey. ring.
  - apply factor_mul; assumption.
  - apply medium_mul; assumption.
  - exact Hn.
  - exact He.
Qed.
Lemma rel_div n m e f x y r s : rel n e x r -> rel m f y s -> s <> 0 -> (n + m <= 1000)%nat -> (e + f <= 1000)%Z ->
  rel (S (n + m)) (e + f) (x /! y) (r / s).
Proof.
  intros (Vx & (t & Ex & Tx) & Mx) (Vy & (t' & Ey & Ty) & My) Hs Hn He. pose proof (factor_pos _ _ Ty) as P.
  apply (rel_finish (n + m) (e + f) _ (fval x / fval y) (r / s) (t * / t')).
  - right. apply div_value; [assumption|assumption|]. rewrite Ey. apply Rmult_integral_contrapositive_currified; lra.
  - rewrite Ex, Ey. field. lra.
  - apply factor_mul; [assumption|apply factor_inv; assumption].
  - apply medium_mul; [assumption|apply medium_inv; assumption].
  - exact Hn.
  - exact He.
Qed.
Lemma rel_add n e x y r s : rel n e x r -> rel n e y s -> 0 <= r -> 0 <= s -> (n <= 1000)%nat -> (0 <= e < 1000)%Z ->
  rel (S n) (e + 1) (x +! y) (r + s).
Proof.
  intros (Vx & (t & Ex & Tx) & Mx) (Vy & (t' & Ey & Ty) & My) R0 S0 Hn He.
  assert (W : exists t'', fval x + fval y = (r + s) * t'' /\ factor n t'').
  { destruct (Req_dec (r + s) 0) as [Z|NZ].
    - exists 1. split; [|apply factor_1]. assert (r = 0) by lra. assert (s = 0) by lra. rewrite Ex, Ey. subst r s. ring.
    - exists ((r * t + s * t') / (r + s)). split; [rewrite Ex, Ey; field; exact NZ|].
      destruct Tx as (L & M), Ty as (L' & M'). assert (0 < r + s) by lra. split.
      + apply Rmult_le_reg_r with (r + s); [lra|]. unfold Rdiv. rewrite Rmult_assoc, Rinv_l, Rmult_1_r by lra.
        pose proof (Rmult_le_compat_l r _ _ R0 L). pose proof (Rmult_le_compat_l s _ _ S0 L'). lra.
      + apply Rmult_le_reg_r with (r + s); [lra|]. unfold Rdiv. rewrite Rmult_assoc, Rinv_l, Rmult_1_r by lra.
        pose proof (Rmult_le_compat_l r _ _ R0 M). pose proof (Rmult_le_compat_l s _ _ S0 M'). lra. }
  destruct W as (t'' & Es & Ts).
  apply (rel_finish n (e + 1) _ (fval x + fval y) (r + s) t'').
  - right. apply add_value; assumption.
  - exact Es.
  - exact Ts.
  - apply medium_add; try assumption. lia.
  - exact Hn.
  - lia.
Qed.
Lemma rel_sqrt n e x r : rel (n + n) (e + e) x r -> 0 <= r -> (n <= 1000)%nat -> (e <= 1000)%Z ->
  rel (S n) e (nsqrt x) (sqrt r).
Proof.
  intros (Vx & (t & Ex & Tx) & Mx) R0 Hn He. pose proof (factor_pos _ _ Tx) as P.
  apply (rel_finish n e _ (sqrt (fval x)) (sqrt r) (sqrt t)).
  - left. apply sqrt_value; [exact Vx|]. rewrite Ex. apply Rmult_le_pos; lra.
  - rewrite Ex. apply sqrt_mult; lra.
  - apply factor_sqrt. exact Tx.
  - apply medium_sqrt; assumption.
  - exact Hn.
  - exact He.
Qed.

(** The result in terms of [within] *)
Lemma rel_within n e x r : rel n e x r -> (n <= 1000)%nat -> FloatSpec.within (2 * INR n * u) x r.
Proof.
  intros (V & (t & E & T) & _) Hn. destruct V as (B & F & _). split; [exact B|]. split; [exact F|].
  rewrite E. replace (r * t - r) with ((t - 1) * r) by ring. rewrite Rabs_mult. apply Rmult_le_compat_r; [apply Rabs_pos|].
  pose proof (factor_2 _ _ T Hn) as T2. destruct T as (L & M). pose proof (shrink_lo n) as S. pose proof (shrink_gt n) as G.
  pose proof (few n Hn) as B2.
  pose proof (bpow_gt_0 radix2 (-53)) as U. pose proof (pos_INR n) as N.
  assert (NU : 0 <= INR n * u) by (apply Rmult_le_pos; lra).
  apply Rabs_le. split; [lra|].
  assert (/ (1 - u) ^ n <= 1 + 2 * INR n * u); [|lra].
  apply Rmult_le_reg_r with ((1 - u) ^ n); [exact G|]. rewrite Rinv_l by lra.
  apply Rle_trans with ((1 + 2 * INR n * u) * (1 - INR n * u)); [|apply Rmult_le_compat_l; lra].
  nra.
Qed.
