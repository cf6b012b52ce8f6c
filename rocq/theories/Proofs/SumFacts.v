From Coq Require Import ZifyBool Reals Lra.
From Verif Require Import Base.Base Base.BaseFacts Base.Num Spec.SumSpec.
Ltac Zify.zify_post_hook ::= Z.div_mod_to_equations.

Lemma rsum_0 f : rsum 0 f = 0%R.
Proof. reflexivity. Qed.

Lemma fold_right_plus_app (l1 l2 : list R) :
  (fold_right Rplus 0 (l1 ++ l2) = fold_right Rplus 0 l1 + fold_right Rplus 0 l2)%R.
Proof. induction l1 as [|x l1 IH]; cbn [app fold_right]; [|rewrite IH]; lra. Qed.

Lemma rsum_succ n f : 0 <= n -> rsum (n + 1) f = (rsum n f + f n)%R.
Proof.
  intros Hn. unfold rsum. rewrite zrange_succ, map_app, fold_right_plus_app by lia.
  cbn [map fold_right]. lra.
Qed.

Lemma rsum_neg n f : n <= 0 -> rsum n f = 0%R.
Proof. intros Hn. unfold rsum. rewrite zrange_neg by lia. reflexivity. Qed.

(** Induction on the length of a range. *)
Lemma zpos_ind (P : Z -> Prop) :
  P 0 -> (forall n, 0 <= n -> P n -> P (n + 1)) -> forall n, 0 <= n -> P n.
Proof. intros H0 Hs n Hn. apply natlike_ind; try assumption. Qed.

Lemma rsum_ext n f g : (forall i, 0 <= i < n -> f i = g i) -> rsum n f = rsum n g.
Proof.
  intros H. unfold rsum. f_equal. apply map_ext_in. intros a Ha.
  apply in_zrange in Ha. auto.
Qed.

Lemma rsum_plus n f g : rsum n (fun i => f i + g i)%R = (rsum n f + rsum n g)%R.
Proof.
  unfold rsum. induction (zrange n) as [|x l IH]; cbn [map fold_right]; [|rewrite IH]; lra.
Qed.

Lemma rsum_scal n c f : rsum n (fun i => c * f i)%R = (c * rsum n f)%R.
Proof.
  unfold rsum. induction (zrange n) as [|x l IH]; cbn [map fold_right]; [|rewrite IH]; lra.
Qed.

Lemma rsum_zero n : rsum n (fun _ => 0%R) = 0%R.
Proof. unfold rsum. induction (zrange n) as [|x l IH]; cbn [map fold_right]; lra. Qed.

Lemma rsum_const n c : 0 <= n -> rsum n (fun _ => c) = (IZR n * c)%R.
Proof.
  intros Hn. pattern n. apply zpos_ind; [rewrite rsum_0; lra| |exact Hn].
  intros m Hm IH. rewrite rsum_succ, IH, plus_IZR by lia. lra.
Qed.

Lemma rsum_le n f g : (forall i, 0 <= i < n -> (f i <= g i)%R) -> (rsum n f <= rsum n g)%R.
Proof.
  destruct (Z_le_gt_dec 0 n) as [Hn|Hn].
  2: { intros _. rewrite !rsum_neg by lia. lra. }
  pattern n. apply zpos_ind; [rewrite !rsum_0; lra| |exact Hn].
  intros m Hm IH H. rewrite !rsum_succ by lia.
  assert (rsum m f <= rsum m g)%R by (apply IH; intros; apply H; lia).
  assert (f m <= g m)%R by (apply H; lia). lra.
Qed.

Lemma rsum_app m n f : 0 <= m -> 0 <= n ->
  rsum (m + n) f = (rsum m f + rsum n (fun i => f (m + i)%Z))%R.
Proof.
  intros Hm Hn. pattern n. apply zpos_ind; [|intros k Hk IH|exact Hn].
  - rewrite rsum_0. replace (m + 0) with m by lia. lra.
  - replace (m + (k + 1)) with (m + k + 1) by lia.
    rewrite !rsum_succ, IH by lia. lra.
Qed.

(** Grouping a range of [n*b] terms into [n] groups of [b]. *)
Lemma rsum_group n b f : 0 <= n -> 0 <= b ->
  rsum (b * n) f = rsum n (fun i => rsum b (fun j => f (b * i + j))).
Proof.
  intros Hn Hb. pattern n. apply zpos_ind; [|intros k Hk IH|exact Hn].
  - replace (b * 0) with 0 by lia. reflexivity.
  - replace (b * (k + 1)) with (b * k + b) by lia.
    rewrite rsum_app, rsum_succ, IH by nia. reflexivity.
Qed.

Lemma rsum_swap n m f :
  rsum n (fun i => rsum m (fun j => f i j)) = rsum m (fun j => rsum n (fun i => f i j)).
Proof.
  destruct (Z_le_gt_dec 0 n) as [Hn|Hn].
  2: { rewrite rsum_neg by lia. symmetry. rewrite (rsum_ext m _ (fun _ => 0%R)).
       - apply rsum_zero.
       - intros; apply rsum_neg; lia. }
  pattern n. apply zpos_ind; [|intros k Hk IH|exact Hn].
  - rewrite rsum_0. symmetry. rewrite (rsum_ext m _ (fun _ => 0%R)).
    + apply rsum_zero.
    + intros; apply rsum_0.
  - rewrite rsum_succ, IH by lia. rewrite <- rsum_plus. apply rsum_ext.
    intros i _. rewrite rsum_succ by lia. reflexivity.
Qed.

Lemma rsum2_ext h w f g :
  (forall y x, 0 <= y < h -> 0 <= x < w -> f y x = g y x) -> rsum2 h w f = rsum2 h w g.
Proof. intros H. unfold rsum2. apply rsum_ext. intros y Hy. apply rsum_ext. auto. Qed.

Lemma rsum2_plus h w f g :
  rsum2 h w (fun y x => f y x + g y x)%R = (rsum2 h w f + rsum2 h w g)%R.
Proof.
  unfold rsum2. rewrite <- rsum_plus. apply rsum_ext. intros; apply rsum_plus.
Qed.

Lemma rsum2_scal h w c f : rsum2 h w (fun y x => c * f y x)%R = (c * rsum2 h w f)%R.
Proof. unfold rsum2. rewrite <- rsum_scal. apply rsum_ext. intros; apply rsum_scal. Qed.

(** Grouping a rectangle into [b] x [b] tiles. *)
Lemma rsum2_group h w b f : 0 <= h -> 0 <= w -> 0 <= b ->
  rsum2 (b * h) (b * w) f =
  rsum2 h w (fun Y X => rsum2 b b (fun y x => f (b * Y + y) (b * X + x))).
Proof.
  intros Hh Hw Hb. unfold rsum2. rewrite rsum_group by lia.
  apply rsum_ext. intros Y HY.
  rewrite (rsum_ext b _ (fun y => rsum w (fun X => rsum b (fun x => f (b * Y + y) (b * X + x))))).
  - rewrite rsum_swap. apply rsum_ext. intros X HX.
    reflexivity.
  - intros y Hy. apply rsum_group; lia.
Qed.

(** The left fold of the model is the sum. *)
Lemma fold_left_fold_right (l : list R) a : fold_left Rplus l a = (a + fold_right Rplus 0 l)%R.
Proof.
  revert a; induction l as [|x l IH]; intros a; cbn [fold_left fold_right]; [|rewrite IH]; lra.
Qed.

Lemma lsum_R (l : list R) : lsum l = fold_right Rplus 0%R l.
Proof. unfold lsum. cbn [nadd Num_R]. rewrite fold_left_fold_right. unfold n0. cbn. lra. Qed.

Lemma fold_right_list_prod (f : Z * Z -> R) l m :
  fold_right Rplus 0%R (map f (list_prod l m)) =
  fold_right Rplus 0%R (map (fun y => fold_right Rplus 0%R (map (fun x => f (y, x)) m)) l).
Proof.
  induction l as [|y l IH]; cbn [list_prod map fold_right]; [reflexivity|].
  rewrite map_app, fold_right_plus_app, map_map, IH. reflexivity.
Qed.

Lemma lsum_family_block (d : arr R) b Y X :
  lsum (family_block d b Y X) =
  rsum2 b b (fun y x => cell d (2 * b * (Y / 2) + Y mod 2 + 2 * y)
                               (2 * b * (X / 2) + X mod 2 + 2 * x)).
Proof. rewrite lsum_R. unfold family_block. rewrite fold_right_list_prod. reflexivity. Qed.

Lemma lsum_plain_block (d : arr R) b Y X :
  lsum (plain_block d b Y X) = rsum2 b b (fun y x => cell d (b * Y + y) (b * X + x)).
Proof. rewrite lsum_R. unfold plain_block. rewrite fold_right_list_prod. reflexivity. Qed.
