(** Sums in any order, and the way from exposures to Stokes parameters, in binary64 (C127). *)
From Coq Require Import ZArith Reals Lra Lia Permutation Floats.SpecFloat.
From Flocq Require Import Core Relative BinarySingleNaN.
From Verif Require Import Base.Base Base.Num Base.Bcast Model.Utils Model.FlatFloat Model.MeanFloat Spec.AngleSpec Spec.FloatSpec Spec.ImageSpec
  Spec.SumSpec Spec.CleanSpec Spec.CorrectSpec Spec.MeanSpec
  Base.BaseFacts Proofs.SumFacts Proofs.CleanFacts Proofs.FilesFacts Proofs.FloatFacts Proofs.ExactFacts Proofs.RoundFacts Proofs.AnglesFloatFacts Proofs.CorrectFloatFacts.
Local Open Scope R_scope.

#[local] Existing Instance Hprec.
#[local] Existing Instance Hmax.
#[local] Existing Instance fexp64_valid.
#[local] Existing Instance fexp64_mono.

(** ** Sums of lists *)
Lemma total_app l l' : total (l ++ l') = total l + total l'.
Proof. induction l as [|v l IH]; [unfold total; cbn; lra|]. cbn [app]. rewrite !total_cons, IH. lra. Qed.
Lemma pixels_total {A} (f : A -> R) (a : arr A) : total (map f (concat (to_list a))) = rsum2 (rows a) (cols a) (fun y x => f (cell a y x)).
Proof.
  unfold to_list, rsum2. change (rsum (rows a) ?g) with (total (map g (zrange (rows a)))).
  induction (zrange (rows a)) as [|y l IH]; [reflexivity|]. cbn [map concat]. rewrite map_app, total_app, total_cons, IH. f_equal.
  rewrite map_map. reflexivity.
Qed.
Lemma pixels_in {A} (a : arr A) v : In v (concat (to_list a)) -> exists y x, (0 <= y < rows a)%Z /\ (0 <= x < cols a)%Z /\ v = cell a y x.
Proof.
  intros Hi. apply in_concat in Hi as (l & Hl & Hv). unfold to_list in Hl. apply in_map_iff in Hl as (y & <- & Hy).
  apply in_map_iff in Hv as (x & <- & Hx). apply in_zrange in Hy, Hx. exists y, x. auto.
Qed.

(** ** A sum of numbers of one sign *)
Lemma pow_u_le m n : (m <= n)%nat -> (1 + u) ^ m <= (1 + u) ^ n.
Proof. intros H. apply Rle_pow; [pose proof u_half; lra|exact H]. Qed.
Lemma pow_u_ge n : 1 <= (1 + u) ^ n.
Proof. pose proof (pow_u_le 0 n (Nat.le_0_l n)) as H. exact H. Qed.

Definition exact_sum (o : order b64) : R := total (map fval (order_pixels o)).
Lemma exact_plus l r : exact_sum (Plus l r) = exact_sum l + exact_sum r.
Proof. unfold exact_sum. cbn [order_pixels]. rewrite map_app, total_app. reflexivity. Qed.
Lemma added_near (o : order b64) n T : (depth o <= n)%nat ->
  (forall v, In v (order_pixels o) -> is_binary64 v /\ finite64 v /\ 0 <= fval v) ->
  exact_sum o <= T -> (1 + u) ^ n * T <= huge ->
  is_value (added o) (fval (added o)) /\ 0 <= fval (added o) /\ 0 <= exact_sum o /\
  Rabs (fval (added o) - exact_sum o) <= ((1 + u) ^ depth o - 1) * exact_sum o.
Proof.
  induction o as [v|l IHl r IHr]; intros Hn Hv HT Hh.
  - destruct (Hv v (or_introl eq_refl)) as (B & F & P). unfold exact_sum, total in *. cbn [added order_pixels map depth pow fold_right] in *.
    split; [split; auto|]. split; [exact P|]. split; [lra|]. rewrite Rplus_0_r, Rminus_diag_eq, Rabs_R0 by reflexivity. lra.
  - rewrite exact_plus in *. cbn [added order_pixels depth] in *.
    assert (Pos : forall m, (forall v, In v m -> is_binary64 v /\ finite64 v /\ 0 <= fval v) -> 0 <= total (map fval m)).
    { clear. intros m. induction m as [|v m IH]; intros H; [unfold total; cbn; lra|]. cbn [map]. rewrite total_cons.
      pose proof (proj2 (proj2 (H v (or_introl eq_refl)))). pose proof (IH (fun w Hw => H w (or_intror Hw))). lra. }
    assert (Hvl : forall v, In v (order_pixels l) -> is_binary64 v /\ finite64 v /\ 0 <= fval v) by (intros v Hi; apply Hv, in_or_app; left; exact Hi).
    assert (Hvr : forall v, In v (order_pixels r) -> is_binary64 v /\ finite64 v /\ 0 <= fval v) by (intros v Hi; apply Hv, in_or_app; right; exact Hi).
    pose proof (Pos _ Hvl) as Pl. pose proof (Pos _ Hvr) as Pr.
    change (0 <= exact_sum l) in Pl. change (0 <= exact_sum r) in Pr.
    set (sl := exact_sum l) in *. set (sr := exact_sum r) in *.
    assert (Tl : sl <= T) by lra.
    destruct (IHl ltac:(lia) Hvl ltac:(lra) Hh) as (Vl & Ll & _ & El). destruct (IHr ltac:(lia) Hvr ltac:(lra) Hh) as (Vr & Lr & _ & Er).
    set (k := Nat.max (depth l) (depth r)) in *.
    pose proof (pow_u_le (depth l) k ltac:(lia)) as K1. pose proof (pow_u_le (depth r) k ltac:(lia)) as K2.
    set (x := fval (added l)) in *. set (y := fval (added r)) in *. set (q := (1 + u) ^ k) in *.
    assert (q1 : 1 <= q) by (apply pow_u_ge).
    assert (El' : Rabs (x - sl) <= (q - 1) * sl) by (apply Rle_trans with (1 := El), Rmult_le_compat_r; [exact Pl|lra]).
    assert (Er' : Rabs (y - sr) <= (q - 1) * sr) by (apply Rle_trans with (1 := Er), Rmult_le_compat_r; [exact Pr|lra]).
    apply Rabs_le_inv in El', Er'.
    assert (Q : x + y <= q * (sl + sr)) by lra.
    assert (Top : Rabs (x + y) <= huge).
    { rewrite Rabs_pos_eq by lra. apply Rle_trans with (1 := Q). apply Rle_trans with (2 := Hh). apply Rmult_le_compat; [lra|lra|apply pow_u_le; lia|exact HT]. }
    pose proof (add_value _ _ _ _ Vl Vr (rnd_huge _ Top)) as V. pose proof (value_val _ _ V) as E. rewrite E.
    pose proof (rnd_sum x y (value_fmt _ _ Vl) (value_fmt _ _ Vr)) as S. rewrite (Rabs_pos_eq (x + y)) in S by lra.
    apply Rabs_le_inv in S. pose proof u_half as [U0 U1].
    split; [exact V|]. split.
    { assert (u * (x + y) <= / 2 * (x + y)) by (apply Rmult_le_compat_r; lra). lra. }
    split; [lra|]. cbn [pow]. fold q. pose proof (Rmult_le_compat_l u _ _ ltac:(lra) Q) as M.
    apply Rabs_le. replace (((1 + u) * q - 1) * (sl + sr)) with ((q - 1) * sl + (q - 1) * sr + u * (q * (sl + sr))) by ring. lra.
Qed.

Lemma pow_u_bound d : (Z.of_nat d <= 2 ^ 52)%Z -> (1 + u) ^ d <= 1 + INR d * bpow radix2 (-52).
Proof.
  assert (E : bpow radix2 (-52) = 2 * u) by (change (-52)%Z with (1 + -53)%Z; rewrite bpow_plus; reflexivity). rewrite E.
  induction d as [|d IH]; intros Hd; [cbn; lra|]. cbn [pow]. rewrite S_INR. pose proof (IH ltac:(lia)) as I.
  assert (D : INR d * (2 * u) <= 1).
  { rewrite <- E, INR_IZR_INZ. apply Rle_trans with (IZR (2 ^ 52) * bpow radix2 (-52)).
    - apply Rmult_le_compat_r; [apply bpow_ge_0|apply IZR_le; lia].
    - rewrite (IZR_Zpower radix2) by lia. rewrite <- bpow_plus. cbn. lra. }
  pose proof u_half as [U0 _]. pose proof (Rmult_le_compat_l (1 + u) _ _ ltac:(lra) I) as M.
  pose proof (Rmult_le_compat_l u _ _ ltac:(lra) D) as N. lra.
Qed.

(** ** Means *)
Lemma order_total {A} (f : A -> R) (a : arr A) o : order_of a o -> total (map f (order_pixels o)) = rsum2 (rows a) (cols a) (fun y x => f (cell a y x)).
Proof. intros H. rewrite <- pixels_total. apply total_perm, Permutation_map, H. Qed.

Lemma c127_exact (a : arr R) (o : order R) : order_of a o -> mean_in_order o (rows a * cols a) = amean a.
Proof.
  intros H. unfold mean_in_order, amean. cbn [ndiv nofZ Num_R]. f_equal. pose proof (order_total (fun v => v) a o H) as T. cbv beta in T. rewrite map_id in T.
  change (rsum2 (rows a) (cols a) (cell a)) with (rsum2 (rows a) (cols a) (fun y x => cell a y x)). rewrite <- T. clear. induction o as [v|l IHl r IHr]; cbn [added order_pixels]; [unfold total; cbn; lra|]. rewrite total_app, <- IHl, <- IHr. reflexivity.
Qed.

Lemma c127_mean (a : arr b64) (o : order b64) : order_of a o -> sensible a -> positive a -> (0 < rows a)%Z -> (0 < cols a)%Z ->
  (rows a * cols a < 2 ^ 53)%Z -> (Z.of_nat (depth o) <= 2 ^ 51)%Z ->
  FloatSpec.within (INR (depth o + 1) * powerRZ 2 (-52)) (mean_in_order o (rows a * cols a)) (amean (values a)).
Proof.
  intros Ho Hs Hp Hr Hc Hn Hd. rewrite <- (bpow_powerRZ radix2).
  pose proof (order_total fval a o Ho : exact_sum o = _) as T. set (N := (rows a * cols a)%Z) in *.
  assert (N1 : (1 <= N)%Z) by (unfold N; lia). pose proof (IZR_le _ _ N1) as N1'. 
  set (S := rsum2 (rows a) (cols a) (fun y x => fval (cell a y x))) in *.
  assert (Am : amean (values a) = S / IZR N) by reflexivity. rewrite Am.
  assert (Low : bpow radix2 (-300) * IZR N <= S <= bpow radix2 300 * IZR N).
  { assert (C : forall c, rsum2 (rows a) (cols a) (fun _ _ => c) = c * IZR N).
    { intros c. unfold rsum2. rewrite (rsum_ext (rows a) _ (fun _ => IZR (cols a) * c)) by (intros; apply rsum_const; lia).
      rewrite rsum_const by lia. unfold N. rewrite mult_IZR. ring. }
    rewrite <- !C. unfold S, rsum2. split; apply rsum_le; intros y Hy; apply rsum_le; intros x Hx;
      destruct (Hs y x Hy Hx) as (_ & _ & M); apply moderate_bpow in M; rewrite Rabs_pos_eq in M by (left; apply Hp; assumption); lra. }
  assert (Nb : IZR N <= bpow radix2 53) by (rewrite <- (IZR_Zpower radix2) by lia; apply IZR_le; change (radix2 : Z) with 2%Z; lia).
  pose proof (bpow_gt_0 radix2 300) as B3. pose proof (bpow_gt_0 radix2 (-300)) as B4.
  pose proof (pow_u_bound (depth o) ltac:(lia)) as P.
  assert (D : INR (depth o) * bpow radix2 (-52) <= / 2).
  { rewrite INR_IZR_INZ. apply Rle_trans with (IZR (2 ^ 51) * bpow radix2 (-52)).
    - apply Rmult_le_compat_r; [apply bpow_ge_0|apply IZR_le; lia].
    - rewrite (IZR_Zpower radix2) by lia. rewrite <- bpow_plus. cbn. lra. }
  assert (S0 : 0 < S) by (apply Rlt_le_trans with (2 := proj1 Low); apply Rmult_lt_0_compat; lra).
  assert (St : S <= bpow radix2 353) by (apply Rle_trans with (1 := proj2 Low); change 353%Z with (300 + 53)%Z; rewrite bpow_plus; apply Rmult_le_compat_l; lra).
  assert (Hh : (1 + u) ^ depth o * S <= bpow radix2 354).
  { change 354%Z with (1 + 353)%Z. rewrite bpow_plus. change (bpow radix2 1) with 2. apply Rmult_le_compat; [pose proof (pow_u_ge (depth o)); lra|lra|lra|exact St]. }
  destruct (added_near o (depth o) S (le_n _)) as (V & V0 & _ & Er).
  { intros v Hv. apply (Permutation_in _ Ho) in Hv. apply pixels_in in Hv as (y & x & Hy & Hx & ->).
    destruct (Hs y x Hy Hx) as (B & F & _). split; [exact B|]. split; [exact F|]. left. apply Hp; assumption. }
  { rewrite T. apply Rle_refl. }
  { apply Rle_trans with (1 := Hh), bpow_le. lia. }
  rewrite T in Er. set (d := INR (depth o) * bpow radix2 (-52)) in *. set (x := fval (added o)) in *.
  assert (Er' : Rabs (x - S) <= d * S) by (apply Rle_trans with (1 := Er), Rmult_le_compat_r; lra). clear Er.
  assert (d0 : 0 <= d) by (apply Rmult_le_pos; [apply pos_INR|apply bpow_ge_0]).
  pose proof (ofZ_value N ltac:(lia)) as VN.
  assert (Nz : IZR N <> 0) by lra. pose proof (Rinv_0_lt_compat (IZR N) ltac:(lra)) as Ni.
  pose proof (Rabs_le_inv _ _ Er') as [L1 L2].
  assert (dS : d * S <= / 2 * S) by (apply Rmult_le_compat_r; lra).
  assert (Lx : bpow radix2 (-1022) <= x / IZR N).
  { apply Rle_trans with (bpow radix2 (-301)); [apply bpow_le; lia|]. apply Rmult_le_reg_r with (IZR N); [lra|].
    unfold Rdiv. rewrite Rmult_assoc, Rinv_l, Rmult_1_r by exact Nz. change (-301)%Z with (-1 + -300)%Z. rewrite bpow_plus.
    change (bpow radix2 (-1)) with (/ 2). lra. }
  assert (Xp : 0 <= x / IZR N) by (apply Rle_trans with (2 := Lx); apply bpow_ge_0).
  assert (Hx : Rabs (x / IZR N) <= huge).
  { rewrite Rabs_pos_eq by exact Xp. apply Rle_trans with x.
    - unfold Rdiv. rewrite <- (Rmult_1_r x) at 2. apply Rmult_le_compat_l; [exact V0|]. rewrite <- Rinv_1. apply Rinv_le; lra.
    - apply Rle_trans with (bpow radix2 354); [|apply bpow_le; lia]. change 354%Z with (1 + 353)%Z. rewrite bpow_plus. change (bpow radix2 1) with 2. lra. }
  pose proof (div_value _ _ _ _ V VN Nz (rnd_huge _ Hx)) as Vq.
  destruct (rnd_rel (x / IZR N)) as (e & He & E); [rewrite Rabs_pos_eq by exact Xp; exact Lx|].
  unfold mean_in_order. destruct Vq as (Q1 & Q2 & Q3). split; [exact Q1|]. split; [exact Q2|]. rewrite Q3, E.
  rewrite (Rabs_pos_eq (S / IZR N)) by (left; apply Rmult_lt_0_compat; lra).
  replace (INR (depth o + 1) * bpow radix2 (-52)) with (d + bpow radix2 (-52)) by (unfold d; rewrite plus_INR; cbn [INR]; ring).
  replace (x / IZR N * (1 + e) - S / IZR N) with ((x * (1 + e) - S) * / IZR N) by (field; exact Nz).
  rewrite Rabs_mult, (Rabs_pos_eq (/ IZR N)) by lra. unfold Rdiv. rewrite <- Rmult_assoc. apply Rmult_le_compat_r; [lra|].
  replace (x * (1 + e) - S) with ((x - S) + e * x) by ring. apply Rle_trans with (1 := Rabs_triang _ _). rewrite Rabs_mult, (Rabs_pos_eq x) by exact V0.
  change eps53 with u in He. assert (Bx : Rabs e * x <= u * (2 * S)) by (apply Rmult_le_compat; [apply Rabs_pos|exact V0|exact He|lra]).
  assert (E2 : bpow radix2 (-52) = 2 * u) by (change (-52)%Z with (1 + -53)%Z; rewrite bpow_plus; reflexivity). rewrite E2. lra.
Qed.
