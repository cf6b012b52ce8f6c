(** Rounding errors of binning a demodulator. *)
From Coq Require Import ZArith Reals Lra Lia String Floats.SpecFloat.
From Flocq Require Import Core Relative BinarySingleNaN.
From Verif Require Import Base.Base Base.Num Base.BaseFacts Model.Rebin Model.Stokes Model.Demodulate Model.DemodLoad Model.DemodTurn
  Spec.Terminates Spec.AngleSpec Spec.SumSpec Spec.FloatSpec Spec.BinFloatSpec
  Proofs.FloatFacts Proofs.ExactFacts Proofs.RoundFacts Proofs.RoundImages Proofs.TurnFacts.
Local Open Scope R_scope.

#[local] Existing Instance Hprec.
#[local] Existing Instance Hmax.
#[local] Existing Instance fexp64_valid.
#[local] Existing Instance fexp64_mono.

(** A division by a number of at least 1 *)
Lemma near_quotient n x r a c k : near n 0 x r a -> is_value c k -> 1 <= k -> (1 + u) ^ n * a <= huge ->
  near (S n) eta (x /! c) (r / k) (a / k).
Proof.
  intros Hx Vc Hk Hb. pose proof (near_size _ _ _ _ _ Hx) as Sz. destruct Hx as (Vx & B & E0 & E). set (v := fval x) in *.
  assert (K0 : 0 < / k) by (apply Rinv_0_lt_compat; lra). assert (K1 : / k <= 1) by (rewrite <- Rinv_1; apply Rinv_le_contravar; lra).
  assert (Ab : forall w, Rabs (w / k) = Rabs w * / k) by (intros w; unfold Rdiv; rewrite Rabs_mult; f_equal; apply Rabs_pos_eq; lra).
  pose proof (Rabs_pos v) as V0. pose proof u_half as [U _]. pose proof (bpow_gt_0 radix2 (-1075)) as U'.
  assert (K : Rabs (v / k) <= huge) by (rewrite Ab; pose proof (Rmult_le_compat_l _ _ _ V0 K1); lra).
  pose proof (div_value x c v k Vx Vc ltac:(lra) (rnd_huge _ K)) as V. pose proof (value_val _ _ V) as Ev.
  split; [rewrite Ev; exact V|]. split; [rewrite Ab; unfold Rdiv; apply Rmult_le_compat_r; lra|]. split; [lra|]. rewrite Ev.
  pose proof (rnd_err (v / k)) as R1. rewrite Ab in R1.
  replace (rnd (v / k) - r / k) with ((rnd (v / k) - v / k) + (v - r) / k) by (unfold Rdiv; ring).
  apply Rle_trans with (1 := Rabs_triang _ _). rewrite (Ab (v - r)).
  pose proof (Rmult_le_compat_r (/ k) _ _ ltac:(lra) E) as P1. pose proof (Rmult_le_compat_r (/ k) _ _ ltac:(lra) Sz) as P2.
  pose proof (Rmult_le_compat_l u _ _ ltac:(lra) P2) as P3. rewrite growth_S. unfold Rdiv. lra.
Qed.

Lemma in_block h b Y i : (1 <= b)%Z -> (0 <= i < b)%Z -> (0 <= Y < h / b)%Z -> (0 <= b * Y + i < h)%Z.
Proof. intros Hb Hi HY. pose proof (Z.mul_div_le h b ltac:(lia)). nia. Qed.

Lemma mean_near (m : tensor b64) top b i j Y X : tensor_bounded top m -> (1 <= b)%Z -> (b * b + 8 <= 2 ^ 52)%Z -> IZR (b * b) * top <= powerRZ 2 1019 ->
  (0 <= i < 3)%Z -> (0 <= j < 4)%Z -> (0 <= Y < t_rows m / b)%Z -> (0 <= X < t_cols m / b)%Z ->
  off_by (IZR (b * b + 1) * powerRZ 2 (-52) * block_size m b i j Y X + powerRZ 2 (-1075))
    (lsum (plain_block (tslice m i j) b Y X) /! nofZ (b * b)) (block_mean m b i j Y X).
Proof.
  rewrite !power2. intros Hm Hb Hbb Ht Hi Hj HY HX. pose proof (sixteen _ Ht) as T. pose proof (many b Hb Hbb) as Hn. pose proof (squares b Hb) as Sq.
  pose proof (bpow_ge_0 radix2 (-53)) as U. pose proof (bpow_ge_0 radix2 1023) as H1023.
  set (l := list_prod (zrange b) (zrange b)). pose proof (square_length b (Z.le_trans 0 1 b Z.le_0_1 Hb)) as L. fold l in L.
  assert (Ln : length l = Z.to_nat (b * b)) by (clear - L; lia). rewrite <- Ln in Hn, Sq.
  assert (N : near (0 + length l) 0 (lsum (plain_block (tslice m i j) b Y X)) (lsum (plain_block (values (tslice m i j)) b Y X)) (lsum (plain_block (absolute (tslice m i j)) b Y X)) /\
    lsum (plain_block (absolute (tslice m i j)) b Y X) <= INR (length l) * top).
  { unfold plain_block. fold l. apply lsum_near.
    - intros [p q] Hpq. apply in_prod_iff in Hpq as (Hp & Hq). apply in_zrange in Hp, Hq. cbn [fst snd].
      destruct (Hm i j (b * Y + p)%Z (b * X + q)%Z Hi Hj (in_block _ b Y p Hb Hp HY) (in_block _ b X q Hb Hq HX)) as (V & F & B).
      split; [|exact B]. apply near_exact. split; [exact V|]. split; [exact F|reflexivity].
    - cbn [Nat.add]. apply (fewer _ 8); [exact Hn|exact U].
    - rewrite Sq. destruct (Rle_or_lt 0 (IZR (b * b) * top)); lra. }
  cbn [Nat.add] in N. destruct N as (N & Sz).
  assert (G2 : (1 + u) ^ length l <= 2) by (apply growth_2, (fewer _ 8); [exact Hn|exact U]).
  set (S := lsum (plain_block (tslice m i j) b Y X)) in *. set (M := lsum (plain_block (absolute (tslice m i j)) b Y X)) in *.
  assert (M0 : 0 <= M) by (destruct N as (_ & B & _); eapply Rle_trans; [apply Rabs_pos|exact B]).
  pose proof (near_quotient _ _ _ _ (nofZ (b * b)) (IZR (b * b)) N (ofZ_value (b * b) ltac:(lia)) (IZR_le 1 (b * b) ltac:(nia))) as Q.
  assert (Hh : (1 + u) ^ length l * M <= huge).
  { pose proof (Rmult_le_compat_r M _ _ M0 G2). rewrite Sq in Sz. destruct (Rle_or_lt 0 (IZR (b * b) * top)); lra. }
  specialize (Q Hh). apply near_off in Q. destruct Q as (Q1 & Q2 & Q3). split; [exact Q1|]. split; [exact Q2|].
  unfold block_mean, block_size. fold M. apply Rle_trans with (1 := Q3). apply Rplus_le_compat_r.
  assert (K0 : 0 <= M / IZR (b * b)) by (apply Rmult_le_pos; [exact M0|]; apply Rlt_le, Rinv_0_lt_compat, (IZR_lt 0); nia).
  apply Rmult_le_compat_r; [exact K0|]. pose proof (growth_bound (Datatypes.S (length l))) as G.
  apply Rle_trans with (2 * INR (Datatypes.S (length l)) * u).
  - apply G. apply (fewer _ 7); [|exact U]. replace (Datatypes.S (length l) + 7)%nat with (length l + 8)%nat by lia. exact Hn.
  - rewrite S_INR, Sq, plus_IZR. replace (bpow radix2 (-52)) with (bpow radix2 1 * u) by (rewrite <- bpow_plus; reflexivity).
    change (bpow radix2 1) with 2. lra.
Qed.

Lemma c155_means files (d d0 : demodulator b64) b top :
  (0 <= t_rows (mij d0))%Z -> (0 <= t_cols (mij d0))%Z -> (1 <= b)%Z -> load files = Ok d0 ->
  t_rows (mij d) = t_rows (mij d0) -> t_cols (mij d) = t_cols (mij d0) ->
  ((t_rows (mij d) / b) mod 2 = 0)%Z -> ((t_cols (mij d) / b) mod 2 = 0)%Z ->
  tensor_bounded top (mij d0) -> (b * b + 8 <= 2 ^ 52)%Z -> IZR (b * b) * top <= powerRZ 2 1019 ->
  returns (fun fuel => demod_rebin fuel files d b)
    (fun d' => t_rows (mij d') = (t_rows (mij d) / b)%Z /\ t_cols (mij d') = (t_cols (mij d) / b)%Z /\
       forall i j Y X, (0 <= i < 3)%Z -> (0 <= j < 4)%Z -> (0 <= Y < t_rows (mij d) / b)%Z -> (0 <= X < t_cols (mij d) / b)%Z ->
         off_by (IZR (b * b + 1) * powerRZ 2 (-52) * block_size (mij d0) b i j Y X + powerRZ 2 (-1075))
           (t_cell (mij d') i j Y X) (block_mean (mij d0) b i j Y X)).
Proof.
  intros H1 H2 H3 H4 H5 H6 H7 H8 Hm Hbb Ht. destruct (rebin_means files d d0 b H1 H2 H3 H4 H5 H6 H7 H8) as (d' & (_ & R1 & C1 & V) & n & E).
  exists d'. split; [|exists n; exact E]. split; [exact R1|]. split; [exact C1|]. intros i j Y X Hi Hj HY HX. rewrite V by assumption.
  rewrite H5 in HY. rewrite H6 in HX. apply (mean_near _ top); assumption.
Qed.

Lemma fixed_fx top k v c : (Z.abs c <= top < 2 ^ 53)%Z -> (0 <= k <= 1000)%Z -> is_value v (IZR c / IZR (2 ^ k)) -> fx top k v (IZR c / IZR (2 ^ k)).
Proof.
  intros Hc Hk V. exists c. split; [exact V|]. split; [|repeat split; lia].
  unfold fixed, Rdiv. f_equal. rewrite bpow_opp. f_equal. destruct k; [reflexivity|reflexivity|lia].
Qed.

(** Sums of blocks of fixed-point numbers are exact. *)
Lemma block_fixed (m : tensor b64) top k b i j Y X : tensor_fixed top k m -> (0 <= top)%Z -> (0 <= k <= 900)%Z -> (1 <= b)%Z ->
  (b * b * (top + 1) < 2 ^ 53)%Z -> (0 <= i < 3)%Z -> (0 <= j < 4)%Z -> (0 <= Y < t_rows m / b)%Z -> (0 <= X < t_cols m / b)%Z ->
  fx (b * b * top) k (lsum (plain_block (tslice m i j) b Y X)) (lsum (plain_block (values (tslice m i j)) b Y X)).
Proof.
  intros Hm Htop Hk Hb Hs Hi Hj HY HX.
  set (l := list_prod (zrange b) (zrange b)). pose proof (square_length b (Z.le_trans 0 1 b Z.le_0_1 Hb)) as L. fold l in L.
  assert (Hbb : (b * b * top < 2 ^ 53 /\ b * b < 2 ^ 53 /\ top < 2 ^ 53)%Z) by (clear - Hs Htop Hb; nia).
  unfold plain_block. fold l. rewrite <- L. rewrite <- (map_length (fun p => cell (tslice m i j) (b * Y + fst p) (b * X + snd p)) l).
  apply lsum_fx; [exact Htop|lia| |rewrite map_length, L; lia].
  assert (In_l : forall p, In p l -> (0 <= fst p < b /\ 0 <= snd p < b)%Z).
  { intros [p q] Hpq. apply in_prod_iff in Hpq as (Hp & Hq). apply in_zrange in Hp, Hq. cbn [fst snd]. lia. }
  clearbody l. clear L. induction l as [|p l IH]; cbn [map]; constructor.
  - destruct (In_l p (or_introl eq_refl)) as (Hp & Hq).
    destruct (Hm i j (b * Y + fst p)%Z (b * X + snd p)%Z Hi Hj (in_block _ b Y _ Hb Hp HY) (in_block _ b X _ Hb Hq HX)) as (c & Hc & Vc).
    change (cell (values (tslice m i j)) (b * Y + fst p) (b * X + snd p)) with (fval (t_cell m i j (b * Y + fst p) (b * X + snd p))).
    pose proof Vc as (_ & _ & ->). apply fixed_fx; [lia|lia|exact Vc].
  - apply IH. intros q Hq. apply In_l. right. exact Hq.
Qed.

Lemma c155_exact files (d d0 : demodulator b64) e k top :
  (0 <= t_rows (mij d0))%Z -> (0 <= t_cols (mij d0))%Z -> (0 <= e)%Z -> load files = Ok d0 ->
  t_rows (mij d) = t_rows (mij d0) -> t_cols (mij d) = t_cols (mij d0) ->
  ((t_rows (mij d) / 2 ^ e) mod 2 = 0)%Z -> ((t_cols (mij d) / 2 ^ e) mod 2 = 0)%Z ->
  tensor_fixed top k (mij d0) -> (0 <= top)%Z -> (0 <= k <= 900)%Z -> (2 ^ e * 2 ^ e * (top + 1) < 2 ^ 53)%Z ->
  returns (fun fuel => demod_rebin fuel files d (2 ^ e))
    (fun d' => forall i j Y X, (0 <= i < 3)%Z -> (0 <= j < 4)%Z -> (0 <= Y < t_rows (mij d) / 2 ^ e)%Z -> (0 <= X < t_cols (mij d) / 2 ^ e)%Z ->
         is_value (t_cell (mij d') i j Y X) (block_mean (mij d0) (2 ^ e) i j Y X)).
Proof.
  intros H1 H2 H3 H4 H5 H6 H7 H8 Hm Htop Hk Hs. set (b := (2 ^ e)%Z) in *. assert (Hb : (1 <= b)%Z) by (apply (Z.pow_le_mono_r 2 0 e); lia).
  destruct (rebin_means files d d0 b H1 H2 Hb H4 H5 H6 H7 H8) as (d' & (_ & R1 & C1 & V) & n & E).
  exists d'. split; [|exists n; exact E]. intros i j Y X Hi Hj HY HX. rewrite V by assumption. rewrite H5 in HY. rewrite H6 in HX.
  pose proof (block_fixed (mij d0) top k b i j Y X Hm Htop Hk Hb Hs Hi Hj HY HX) as F.
  assert (Hbb : (b * b < 2 ^ 53)%Z) by (clear - Hs Htop Hb; nia).
  assert (Ebb : (b * b = 2 ^ (e + e))%Z) by (unfold b; rewrite Z.pow_add_r by lia; reflexivity).
  unfold block_mean. rewrite Ebb in *.
  assert (He : (e + e < 53)%Z) by (apply (Z.pow_lt_mono_r_iff 2); lia).
  eapply fx_value. apply fx_div_pow; [exact F|lia|lia|lia].
Qed.

(** The quotient of an exact sum is the number nearest to the mean. *)
Lemma fixed_huge top k z : (Z.abs z <= top < 2 ^ 53)%Z -> (0 <= k <= 1000)%Z -> Rabs (fixed z k) <= huge.
Proof.
  intros Hz Hk. unfold fixed. rewrite Rabs_mult, (Rabs_pos_eq (bpow radix2 (- k))) by apply bpow_ge_0. rewrite <- abs_IZR.
  replace huge with (bpow radix2 1023 * 1) by ring. apply Rmult_le_compat.
  - apply IZR_le. lia.
  - apply bpow_ge_0.
  - apply Rle_trans with (IZR (2 ^ 53)); [apply IZR_le; lia|]. exact (bpow_le radix2 53 1023 ltac:(discriminate)).
  - apply (bpow_le radix2 (- k) 0). lia.
Qed.
Lemma c155_rounded files (d d0 : demodulator b64) b k top :
  (0 <= t_rows (mij d0))%Z -> (0 <= t_cols (mij d0))%Z -> (1 <= b)%Z -> load files = Ok d0 ->
  t_rows (mij d) = t_rows (mij d0) -> t_cols (mij d) = t_cols (mij d0) ->
  ((t_rows (mij d) / b) mod 2 = 0)%Z -> ((t_cols (mij d) / b) mod 2 = 0)%Z ->
  tensor_fixed top k (mij d0) -> (0 <= top)%Z -> (0 <= k <= 900)%Z -> (b * b * (top + 1) < 2 ^ 53)%Z ->
  returns (fun fuel => demod_rebin fuel files d b)
    (fun d' => forall i j Y X, (0 <= i < 3)%Z -> (0 <= j < 4)%Z -> (0 <= Y < t_rows (mij d) / b)%Z -> (0 <= X < t_cols (mij d) / b)%Z ->
         nearest (t_cell (mij d') i j Y X) (block_mean (mij d0) b i j Y X)).
Proof.
  intros H1 H2 Hb H4 H5 H6 H7 H8 Hm Htop Hk Hs.
  destruct (rebin_means files d d0 b H1 H2 Hb H4 H5 H6 H7 H8) as (d' & (_ & R1 & C1 & V) & n & E).
  exists d'. split; [|exists n; exact E]. intros i j Y X Hi Hj HY HX. rewrite V by assumption. rewrite H5 in HY. rewrite H6 in HX.
  destruct (block_fixed (mij d0) top k b i j Y X Hm Htop Hk Hb Hs Hi Hj HY HX) as (z & Vz & Ez & Bz & Tz & Kz).
  assert (Hbb : (1 <= b * b < 2 ^ 53)%Z) by (clear - Hs Htop Hb; nia). pose proof (IZR_le 1 (b * b) (proj1 Hbb)) as K1.
  apply is_value_nearest. unfold block_mean. apply div_value.
  - exact Vz.
  - apply ofZ_value. lia.
  - lra.
  - apply rnd_huge. rewrite Ez. unfold Rdiv. rewrite Rabs_mult, (Rabs_pos_eq (/ _)) by (apply Rlt_le, Rinv_0_lt_compat; lra).
    pose proof (fixed_huge (b * b * top) k z (conj Bz Tz) Kz) as Hf. pose proof (Rabs_pos (fixed z k)) as P0.
    assert (K2 : / IZR (b * b) <= 1) by (rewrite <- Rinv_1; apply Rinv_le_contravar; lra).
    pose proof (Rmult_le_compat_l _ _ _ P0 K2). lra.
Qed.

(** Sums of one number, and blocks of it *)
Lemma lsum_one (c : R) l : (forall x, In x l -> x = c) -> lsum l = INR (length l) * c.
Proof.
  intros H. unfold lsum. enough (G : forall a, fold_left nadd l a = a + INR (length l) * c) by (rewrite G; change (@n0 R _) with 0; ring).
  induction l as [|x l IH]; intros a; [cbn; ring|]. cbn [fold_left]. rewrite IH by (intros y Hy; apply H; right; exact Hy).
  rewrite (H x (or_introl eq_refl)). change (length (c :: l)) with (S (length l)). rewrite S_INR. change (@nadd R _ a c) with (a + c). ring.
Qed.
Lemma constant_mean (m : tensor b64) v b i j Y X : tensor_constant v m -> (1 <= b)%Z ->
  (0 <= i < 3)%Z -> (0 <= j < 4)%Z -> (0 <= Y < t_rows m / b)%Z -> (0 <= X < t_cols m / b)%Z -> block_mean m b i j Y X = fval v.
Proof.
  intros Hm Hb Hi Hj HY HX. unfold block_mean. rewrite (lsum_one (fval v)).
  - unfold plain_block. rewrite map_length. pose proof (square_length b (Z.le_trans 0 1 b Z.le_0_1 Hb)) as L.
    rewrite INR_IZR_INZ, L. pose proof (IZR_le 1 (b * b) ltac:(nia)). field. lra.
  - unfold plain_block. intros x Hx. apply in_map_iff in Hx as ([p q] & <- & Hpq). apply in_prod_iff in Hpq as (Hp & Hq). apply in_zrange in Hp, Hq.
    cbn [fst snd]. change (fval (t_cell m i j (b * Y + p) (b * X + q)) = fval v). f_equal.
    apply Hm; [exact Hi|exact Hj|exact (in_block _ b Y p Hb Hp HY)|exact (in_block _ b X q Hb Hq HX)].
Qed.
Lemma c155_few_bits files (d d0 : demodulator b64) (v : b64) c b k :
  (0 <= t_rows (mij d0))%Z -> (0 <= t_cols (mij d0))%Z -> (1 <= b)%Z -> load files = Ok d0 ->
  t_rows (mij d) = t_rows (mij d0) -> t_cols (mij d) = t_cols (mij d0) ->
  ((t_rows (mij d) / b) mod 2 = 0)%Z -> ((t_cols (mij d) / b) mod 2 = 0)%Z ->
  tensor_constant v (mij d0) -> is_value v (IZR c / IZR (2 ^ k)) -> (0 <= k <= 900)%Z -> (b * b * (Z.abs c + 1) < 2 ^ 53)%Z ->
  returns (fun fuel => demod_rebin fuel files d b)
    (fun d' => forall i j Y X, (0 <= i < 3)%Z -> (0 <= j < 4)%Z -> (0 <= Y < t_rows (mij d) / b)%Z -> (0 <= X < t_cols (mij d) / b)%Z ->
         is_value (t_cell (mij d') i j Y X) (fval v)).
Proof.
  intros H1 H2 Hb H4 H5 H6 H7 H8 Hm Hv Hk Hs.
  assert (Hf : tensor_fixed (Z.abs c) k (mij d0)).
  { intros i j Y X Hi Hj HY HX. exists c. split; [apply Z.le_refl|]. rewrite (Hm i j Y X Hi Hj HY HX). exact Hv. }
  destruct (c155_rounded files d d0 b k (Z.abs c) H1 H2 Hb H4 H5 H6 H7 H8 Hf (Z.abs_nonneg c) Hk Hs) as (d' & P & T).
  exists d'. split; [|exact T]. intros i j Y X Hi Hj HY HX. destruct (P i j Y X Hi Hj HY HX) as (B & F & N).
  rewrite H5 in HY. rewrite H6 in HX. rewrite (constant_mean _ v b i j Y X Hm Hb Hi Hj HY HX) in N.
  destruct Hv as (Bv & Fv & _). specialize (N v Bv Fv). rewrite (Rminus_diag_eq (fval v) (fval v) eq_refl), Rabs_R0 in N.
  split; [exact B|]. split; [exact F|]. pose proof (Rabs_pos (fval (t_cell (mij d') i j Y X) - fval v)) as P0.
  destruct (Req_dec (fval (t_cell (mij d') i j Y X) - fval v) 0) as [Z|Z]; [lra|]. apply Rabs_no_R0 in Z. lra.
Qed.
