(** Resampling is linear, composes on finer grids and does not raise polarization (C122). *)
From Coq Require Import QArith Reals Lra Lia.
From Verif Require Import Base.Base Base.Num Base.Bcast Model.Demosaic Model.Stokes Model.Pol Model.Congrid
  Spec.MosaicSpec Spec.InterpSpec Spec.StokesSpec Spec.BlurSpec
  Proofs.MosaicFacts Proofs.StokesFacts Proofs.PolFacts Proofs.CongridFacts Proofs.BlurFacts.
Local Open Scope Z_scope.

(** ** One dimension *)
Lemma interp1d_ext n (f g : Z -> R) p : 2 <= n -> (forall i, 0 <= i < n -> f i = g i) -> interp1d n f p = interp1d n g p.
Proof.
  intros Hn E. unfold interp1d. set (i := Z.min (Z.max (searchsorted n p) 1) (n - 1)).
  rewrite (E i), (E (i - 1)) by lia. reflexivity.
Qed.
Lemma interp1d_linear n (f g : Z -> R) al be p :
  interp1d n (fun i => al * f i + be * g i)%R p = (al * interp1d n f p + be * interp1d n g p)%R.
Proof. unfold interp1d. cbn [nsub nadd nmul ndiv nofZ Num_R]. unfold Rdiv. ring. Qed.
Lemma interp1d_swap n m (F : Z -> Z -> R) p q :
  interp1d n (fun i => interp1d m (fun j => F i j) p) q = interp1d m (fun j => interp1d n (fun i => F i j) q) p.
Proof. unfold interp1d. cbn [nsub nadd nmul ndiv nofZ Num_R]. unfold Rdiv. ring. Qed.

Lemma polygon_unique n f p v v' : on_polygon n f p v -> on_polygon n f p v' -> v = v'.
Proof.
  intros (i & t & Hi & Ht & E & ->) (i' & t' & Hi' & Ht' & E' & ->).
  assert (D : t' = (t + IZR (i - i'))%R) by (rewrite minus_IZR; lra).
  assert (B : (-2 < IZR (i - i') < 2)%R) by lra. destruct B as [B1 B2]. apply (lt_IZR (-2)) in B1. apply (lt_IZR _ 2) in B2.
  assert (i - i' = -1 \/ i - i' = 0 \/ i - i' = 1) as [J|[J|J]] by lia; rewrite J in D.
  - assert (t = 1%R /\ t' = 0%R) as [-> ->] by lra. replace (i + 1) with i' by lia. lra.
  - assert (Tt : t' = t) by lra. rewrite Tt. replace i' with i by lia. reflexivity.
  - assert (t = 0%R /\ t' = 1%R) as [-> ->] by lra. replace (i' + 1) with i by lia. lra.
Qed.

(** The polygon through samples of a polygon is the polygon, if its corners are among the samples. *)
Lemma polygon_refined n f c g p v : 1 <= c -> (forall k, 0 <= k <= c * (n - 1) -> on_polygon n f (IZR k / IZR c) (g k)) ->
  on_polygon (c * (n - 1) + 1) g p v -> on_polygon n f (p / IZR c) v.
Proof.
  intros Hc Hg (i & t & Hi & Ht & -> & ->).
  assert (C0 : (0 < IZR c)%R) by (apply (IZR_lt 0); lia).
  pose proof (Z.div_mod i c ltac:(lia)) as DM. pose proof (Z.mod_pos_bound i c ltac:(lia)) as MB.
  set (I := i / c) in *. set (r := i mod c) in *.
  assert (HI : 0 <= I <= n - 2) by nia.
  assert (R0 : (0 <= IZR r)%R) by (apply (IZR_le 0); lia). assert (R1 : (IZR r + 1 <= IZR c)%R) by (rewrite <- plus_IZR; apply IZR_le; lia).
  assert (Ei : IZR i = (IZR c * IZR I + IZR r)%R) by (rewrite DM at 1; rewrite plus_IZR, mult_IZR; reflexivity).
  assert (P : forall s : R, (0 <= s <= IZR c)%R -> (0 <= s / IZR c <= 1)%R).
  { intros s Hs. split; [apply Rmult_le_pos; [lra|left; apply Rinv_0_lt_compat; lra]|].
    apply Rmult_le_reg_r with (IZR c); [lra|]. unfold Rdiv. rewrite Rmult_assoc, Rinv_l; lra. }
  assert (G0 : g i = ((1 - IZR r / IZR c) * f I + IZR r / IZR c * f (I + 1)%Z)%R).
  { apply (polygon_unique n f (IZR i / IZR c)); [apply Hg; lia|]. exists I, (IZR r / IZR c)%R.
    split; [exact HI|]. split; [apply P; lra|]. split; [rewrite Ei; field; lra|reflexivity]. }
  assert (G1 : g (i + 1) = ((1 - (IZR r + 1) / IZR c) * f I + (IZR r + 1) / IZR c * f (I + 1)%Z)%R).
  { apply (polygon_unique n f (IZR (i + 1) / IZR c)); [apply Hg; lia|]. exists I, ((IZR r + 1) / IZR c)%R.
    split; [exact HI|]. split; [apply P; lra|]. split; [rewrite plus_IZR, Ei; field; lra|reflexivity]. }
  exists I, ((IZR r + t) / IZR c)%R. split; [exact HI|]. split; [apply P; lra|]. split; [rewrite Ei; field; lra|].
  rewrite G0, G1. field. lra.
Qed.

Lemma position_coarse n c k : 2 <= n -> 1 <= c -> position (A := R) n (c * (n - 1) + 1) k = (IZR k / IZR c)%R.
Proof.
  intros Hn Hc. rewrite position_spread by nia. unfold spread. replace (c * (n - 1) + 1 - 1) with (c * (n - 1)) by lia. rewrite mult_IZR.
  field. split; apply not_0_IZR; lia.
Qed.
Lemma interp1d_refined n (f : Z -> R) c l x : 2 <= n -> 1 <= c -> 2 <= l -> 0 <= x < l ->
  interp1d (c * (n - 1) + 1) (fun k => interp1d n f (position n (c * (n - 1) + 1) k)) (position (c * (n - 1) + 1) l x) =
  interp1d n f (position n l x).
Proof.
  intros Hn Hc Hl Hx. assert (Hm : 2 <= c * (n - 1) + 1) by nia.
  assert (C0 : (0 < IZR c)%R) by (apply (IZR_lt 0); lia). assert (L0 : (0 < IZR (l - 1))%R) by (apply (IZR_lt 0); lia).
  apply (polygon_unique n f (position (c * (n - 1) + 1) l x / IZR c)).
  - apply (polygon_refined n f c (fun k => interp1d n f (position n (c * (n - 1) + 1) k))); [exact Hc| |].
    + intros k Hk. rewrite position_coarse by lia. apply interp1d_polygon; [exact Hn|]. split.
      * apply Rmult_le_pos; [apply (IZR_le 0); lia|left; apply Rinv_0_lt_compat, C0].
      * apply Rmult_le_reg_r with (1 := C0). unfold Rdiv. rewrite Rmult_assoc, Rinv_l, Rmult_1_r, <- mult_IZR by lra. apply IZR_le. lia.
    + apply interp1d_polygon; [exact Hm|]. rewrite position_spread by lia. apply spread_range; lia.
  - replace (position (c * (n - 1) + 1) l x / IZR c)%R with (position (A := R) n l x).
    + apply interp1d_polygon; [exact Hn|]. rewrite position_spread by lia. apply spread_range; lia.
    + rewrite !position_spread by lia. unfold spread. replace (c * (n - 1) + 1 - 1) with (c * (n - 1)) by lia. rewrite mult_IZR. field. lra.
Qed.

(** ** Images *)
Lemma congrid_cell (a : arr R) h w y x :
  cell (congrid a h w) y x = interp1d (rows a) (fun j => interp1d (cols a) (fun i => cell a j i) (position (cols a) w x)) (position (rows a) h y).
Proof. reflexivity. Qed.

Lemma c122_linear (a b : arr R) al be h w y x : rows b = rows a -> cols b = cols a ->
  cell (congrid (mkarr (rows a) (cols a) (fun j i => al * cell a j i + be * cell b j i)%R) h w) y x =
  (al * cell (congrid a h w) y x + be * cell (congrid b h w) y x)%R.
Proof.
  intros R C. rewrite !congrid_cell. cbn [rows cols cell]. rewrite R, C.
  transitivity (interp1d (rows a) (fun j => al * interp1d (cols a) (fun i => cell a j i) (position (cols a) w x) +
     be * interp1d (cols a) (fun i => cell b j i) (position (cols a) w x))%R (position (rows a) h y)).
  - unfold interp1d. cbn [nsub nadd nmul ndiv nofZ Num_R]. unfold Rdiv. ring.
  - apply interp1d_linear.
Qed.

Lemma c122_affine (a : arr R) al be ga h w y x : 2 <= rows a -> 2 <= cols a -> 2 <= h -> 2 <= w -> 0 <= y < h -> 0 <= x < w ->
  (forall j i, 0 <= j < rows a -> 0 <= i < cols a -> cell a j i = (al + be * IZR j + ga * IZR i)%R) ->
  cell (congrid a h w) y x = (al + be * spread (rows a) h y + ga * spread (cols a) w x)%R.
Proof.
  intros Hr Hc Hh Hw Hy Hx E. destruct (congrid_bilinear a h w Hr Hc Hh Hw y x Hy Hx) as (i & j & s & t & Hi & Hj & Hs & Ht & Ep & Eq & ->).
  rewrite Ep, Eq, !E by lia. rewrite !plus_IZR. ring.
Qed.

Lemma c122_refined (a : arr R) c e h w y x : 2 <= rows a -> 2 <= cols a -> 1 <= c -> 1 <= e -> 2 <= h -> 2 <= w -> 0 <= y < h -> 0 <= x < w ->
  cell (congrid (congrid a (c * (rows a - 1) + 1) (e * (cols a - 1) + 1)) h w) y x = cell (congrid a h w) y x.
Proof.
  intros Hr Hc Hc1 He1 Hh Hw Hy Hx. rewrite congrid_cell. change (rows (congrid a (c * (rows a - 1) + 1) (e * (cols a - 1) + 1))) with (c * (rows a - 1) + 1).
  change (cols (congrid a (c * (rows a - 1) + 1) (e * (cols a - 1) + 1))) with (e * (cols a - 1) + 1).
  set (m := e * (cols a - 1) + 1). set (n := c * (rows a - 1) + 1).
  rewrite congrid_cell.
  transitivity (interp1d n (fun j => interp1d (rows a) (fun j' => interp1d (cols a) (fun i => cell a j' i) (position (cols a) w x))
     (position (rows a) n j)) (position n h y)).
  - apply interp1d_ext; [unfold n; nia|]. intros j _.
    transitivity (interp1d m (fun i => interp1d (rows a) (fun j' => interp1d (cols a) (fun i' => cell a j' i') (position (cols a) m i)) (position (rows a) n j))
       (position m w x)); [reflexivity|].
    rewrite (interp1d_swap m (rows a) (fun i j' => interp1d (cols a) (fun i' => cell a j' i') (position (cols a) m i))).
    apply interp1d_ext; [exact Hr|]. intros j' _. apply (interp1d_refined (cols a) (fun i' => cell a j' i') e w x); assumption.
  - apply (interp1d_refined (rows a) (fun j' => interp1d (cols a) (fun i => cell a j' i) (position (cols a) w x)) c h y); assumption.
Qed.

Lemma c122_back (a : arr R) c e y x : 2 <= rows a -> 2 <= cols a -> 1 <= c -> 1 <= e -> 0 <= y < rows a -> 0 <= x < cols a ->
  cell (congrid (congrid a (c * (rows a - 1) + 1) (e * (cols a - 1) + 1)) (rows a) (cols a)) y x = cell a y x.
Proof. intros. rewrite c122_refined by assumption. apply congrid_same; assumption. Qed.

(** ** Polarization *)
Lemma interp_weights n p : 2 <= n -> (0 <= p <= IZR (n - 1))%R ->
  exists i t, 0 <= i <= n - 2 /\ (0 <= t <= 1)%R /\ p = (IZR i + t)%R /\
    forall f : Z -> R, interp1d n f p = ((1 - t) * f i + t * f (i + 1)%Z)%R.
Proof.
  intros Hn Hp. destruct (interp1d_polygon n IZR p Hn Hp) as (i & t & Hi & Ht & E & _). exists i, t.
  split; [exact Hi|]. split; [exact Ht|]. split; [exact E|]. intros f. apply (polygon_unique n f p).
  - apply interp1d_polygon; assumption.
  - exists i, t. auto.
Qed.

Lemma congrid_weights r c h w y x : 2 <= r -> 2 <= c -> 2 <= h -> 2 <= w -> 0 <= y < h -> 0 <= x < w ->
  exists i j s t, 0 <= i <= r - 2 /\ 0 <= j <= c - 2 /\ (0 <= s <= 1)%R /\ (0 <= t <= 1)%R /\
    spread r h y = (IZR i + s)%R /\ spread c w x = (IZR j + t)%R /\
    forall a : arr R, rows a = r -> cols a = c ->
      cell (congrid a h w) y x = ((1 - s) * (1 - t) * cell a i j + (1 - s) * t * cell a i (j + 1)%Z +
        s * (1 - t) * cell a (i + 1)%Z j + s * t * cell a (i + 1)%Z (j + 1)%Z)%R.
Proof.
  intros Hr Hc Hh Hw Hy Hx.
  destruct (interp_weights r (spread r h y) Hr) as (i & s & Hi & Hs & Ei & Fi); [apply spread_range; lia|].
  destruct (interp_weights c (spread c w x) Hc) as (j & t & Hj & Ht & Ej & Fj); [apply spread_range; lia|].
  exists i, j, s, t. repeat (split; [assumption|]). intros a <- <-. rewrite congrid_cell, !position_spread by assumption.
  rewrite Fi, !Fj. ring.
Qed.

Lemma bilinear_congrid (a : arr R) h w y x v : 2 <= rows a -> 2 <= cols a -> 2 <= h -> 2 <= w -> 0 <= y < h -> 0 <= x < w ->
  bilinear a (spread (rows a) h y) (spread (cols a) w x) v -> v = cell (congrid a h w) y x.
Proof.
  intros Hr Hc Hh Hw Hy Hx (i & j & s & t & Hi & Hj & Hs & Ht & Ei & Ej & ->).
  assert (P : forall k, ((1 - t) * cell a k j + t * cell a k (j + 1)%Z)%R = interp1d (cols a) (fun m => cell a k m) (position (cols a) w x)).
  { intros k. apply (polygon_unique (cols a) (fun m => cell a k m) (spread (cols a) w x)).
    - exists j, t. auto.
    - rewrite position_spread by exact Hw. apply interp1d_polygon; [exact Hc|apply spread_range; lia]. }
  rewrite congrid_cell. apply (polygon_unique (rows a) (fun k => interp1d (cols a) (fun m => cell a k m) (position (cols a) w x)) (spread (rows a) h y)).
  - exists i, s. split; [exact Hi|]. split; [exact Hs|]. split; [exact Ei|]. rewrite <- !P. ring.
  - rewrite (position_spread (rows a)) by exact Hh. apply interp1d_polygon; [exact Hr|apply spread_range; lia].
Qed.

Lemma c122_image dic b (data : arr R) (S : stokes R) ny nx :
  describes dic b -> mosaic data -> 4 <= rows data -> 4 <= cols data -> 4 <= ny -> 4 <= nx ->
  let r := rows data / 2 in let c := cols data / 2 in let h := ny / 2 in let w := nx / 2 in
  exists s d T t, data_stokes dic data = Ok s /\ image_congrid data S ny nx = Ok (d, T) /\ data_stokes dic d = Ok t /\
    rows d = 2 * h /\ cols d = 2 * w /\
    forall Y X, 0 <= Y < h -> 0 <= X < w ->
      bilinear (sI s) (spread r h Y) (spread c w X) (cell (sI t) Y X) /\
      bilinear (sQ s) (spread r h Y) (spread c w X) (cell (sQ t) Y X) /\
      bilinear (sU s) (spread r h Y) (spread c w X) (cell (sU t) Y X) /\
      (exists v, bilinear (pB s) (spread r h Y) (spread c w X) v /\ (cell (pB t) Y X <= v)%R) /\
      forall M, nonnegative data -> (0 <= M)%R -> (forall y x, 0 <= y < r -> 0 <= x < c -> (cell (DoLP s) y x <= M)%R) ->
        (cell (DoLP t) Y X <= M)%R.
Proof.
  intros Hd Hm Hr Hc Hy Hx r c h w.
  assert (Eh : ny - ny mod 2 = 2 * h) by (unfold h; Z.to_euclidean_division_equations; lia).
  assert (Ew : nx - nx mod 2 = 2 * w) by (unfold w; Z.to_euclidean_division_equations; lia).
  assert (Hh : 2 <= h) by (unfold h; Z.to_euclidean_division_equations; lia).
  assert (Hw : 2 <= w) by (unfold w; Z.to_euclidean_division_equations; lia).
  assert (Hr2 : 2 <= r) by (unfold r; Z.to_euclidean_division_equations; lia).
  assert (Hc2 : 2 <= c) by (unfold c; Z.to_euclidean_division_equations; lia).
  destruct (image_congrid_ok data S ny nx Hm Hr Hc Hy Hx) as (d & T & Ed & (Rd & Cd) & Hk & _). cbv zeta in Hk. rewrite Eh in Rd. rewrite Ew in Cd.
  rewrite Eh, Ew in Hk. replace (2 * h / 2) with h in Hk by (rewrite Z.mul_comm, Z.div_mul; lia). replace (2 * w / 2) with w in Hk by (rewrite Z.mul_comm, Z.div_mul; lia).
  fold r c in Hk.
  assert (Md : mosaic d).
  { split; [lia|]. split; [lia|]. rewrite Rd, Cd, !(Z.mul_comm 2), !Z.mod_mul by lia. auto. }
  destruct (raw_stokes dic b data Hd Hm) as (s & Es & (R1 & C1) & (R2 & C2) & (R3 & C3) & Vs). fold r in R1, R2, R3, Vs. fold c in C1, C2, C3, Vs.
  destruct (raw_stokes dic b d Hd Md) as (t & Et & _ & _ & _ & Vt).
  rewrite Rd, Cd in Vt. replace (2 * h / 2) with h in Vt by (rewrite Z.mul_comm, Z.div_mul; lia). replace (2 * w / 2) with w in Vt by (rewrite Z.mul_comm, Z.div_mul; lia).
  exists s, d, T, t. split; [exact Es|]. split; [exact Ed|]. split; [exact Et|]. split; [exact Rd|]. split; [exact Cd|].
  intros Y X HY HX. destruct (arrangement_range dic b Hd) as (A0 & A45 & Am & A90).
  destruct (congrid_weights r c h w Y X Hr2 Hc2 Hh Hw HY HX) as (i & j & sy & tx & Hi & Hj & Hs & Ht & Ei & Ej & W).
  assert (K : forall k, 0 <= k < 4 -> sample d k Y X = ((1 - sy) * (1 - tx) * sample data k i j + (1 - sy) * tx * sample data k i (j + 1)%Z +
        sy * (1 - tx) * sample data k (i + 1)%Z j + sy * tx * sample data k (i + 1)%Z (j + 1)%Z)%R).
  { intros k Hk4. rewrite (bilinear_congrid (family_image data k) h w Y X (sample d k Y X) Hr2 Hc2 Hh Hw HY HX (Hk k Y X Hk4 HY HX)).
    apply (W (family_image data k)); reflexivity. }
  destruct (Vt Y X HY HX) as (TI & TQ & TU).
  destruct (Vs i j) as (I00 & Q00 & U00); [lia|lia|]. destruct (Vs i (j + 1)) as (I01 & Q01 & U01); [lia|lia|].
  destruct (Vs (i + 1) j) as (I10 & Q10 & U10); [lia|lia|]. destruct (Vs (i + 1) (j + 1)) as (I11 & Q11 & U11); [lia|lia|].
  assert (BI : cell (sI t) Y X = ((1 - sy) * (1 - tx) * cell (sI s) i j + (1 - sy) * tx * cell (sI s) i (j + 1)%Z +
        sy * (1 - tx) * cell (sI s) (i + 1)%Z j + sy * tx * cell (sI s) (i + 1)%Z (j + 1)%Z)%R).
  { rewrite TI, I00, I01, I10, I11. unfold four. rewrite !K by lia. field. }
  assert (BQ : cell (sQ t) Y X = ((1 - sy) * (1 - tx) * cell (sQ s) i j + (1 - sy) * tx * cell (sQ s) i (j + 1)%Z +
        sy * (1 - tx) * cell (sQ s) (i + 1)%Z j + sy * tx * cell (sQ s) (i + 1)%Z (j + 1)%Z)%R).
  { rewrite TQ, Q00, Q01, Q10, Q11, !K by assumption. ring. }
  assert (BU : cell (sU t) Y X = ((1 - sy) * (1 - tx) * cell (sU s) i j + (1 - sy) * tx * cell (sU s) i (j + 1)%Z +
        sy * (1 - tx) * cell (sU s) (i + 1)%Z j + sy * tx * cell (sU s) (i + 1)%Z (j + 1)%Z)%R).
  { rewrite TU, U00, U01, U10, U11, !K by assumption. ring. }
  assert (w1 : (0 <= (1 - sy) * (1 - tx))%R) by (apply Rmult_le_pos; lra). assert (w2 : (0 <= (1 - sy) * tx)%R) by (apply Rmult_le_pos; lra).
  assert (w3 : (0 <= sy * (1 - tx))%R) by (apply Rmult_le_pos; lra). assert (w4 : (0 <= sy * tx)%R) by (apply Rmult_le_pos; lra).
  set (v := ((1 - sy) * (1 - tx) * cell (pB s) i j + (1 - sy) * tx * cell (pB s) i (j + 1)%Z +
        sy * (1 - tx) * cell (pB s) (i + 1)%Z j + sy * tx * cell (pB s) (i + 1)%Z (j + 1)%Z)%R).
  assert (PB : (cell (pB t) Y X <= v)%R).
  { rewrite pB_at, BQ, BU. unfold v. rewrite !pB_at.
    set (a1 := ((1 - sy) * (1 - tx))%R) in *. set (a2 := ((1 - sy) * tx)%R) in *. set (a3 := (sy * (1 - tx))%R) in *. set (a4 := (sy * tx)%R) in *.
    eapply Rle_trans; [apply norm_add|]. rewrite (norm_scale a4) by exact w4. apply Rplus_le_compat_r.
    eapply Rle_trans; [apply norm_add|]. rewrite (norm_scale a3) by exact w3. apply Rplus_le_compat_r.
    eapply Rle_trans; [apply norm_add|]. rewrite (norm_scale a1), (norm_scale a2) by assumption. lra. }
  assert (Bi : forall a : arr R, rows a = r -> cols a = c -> bilinear a (spread r h Y) (spread c w X)
    ((1 - sy) * (1 - tx) * cell a i j + (1 - sy) * tx * cell a i (j + 1)%Z + sy * (1 - tx) * cell a (i + 1)%Z j + sy * tx * cell a (i + 1)%Z (j + 1)%Z)%R).
  { intros a Ra Ca. exists i, j, sy, tx. rewrite Ra, Ca. repeat (split; [assumption|]). reflexivity. }
  rewrite BI, BQ, BU. split; [apply Bi; assumption|]. split; [apply Bi; assumption|]. split; [apply Bi; assumption|]. split.
  { exists v. split; [apply (Bi (pB s)); assumption|exact PB]. }
  intros M Hn HM HD. rewrite DoLP_at. 
  assert (RB : forall y x, 0 <= y < r -> 0 <= x < c -> (0 <= cell (sI s) y x /\ cell (pB s) y x <= M * cell (sI s) y x)%R).
  { intros y x Hy' Hx'. apply (raw_bounds dic b data s y x M Hd Hm Hn Es Hy' Hx'). apply HD; assumption. }
  destruct (RB i j) as (N00 & P00); [lia|lia|]. destruct (RB i (j + 1)) as (N01 & P01); [lia|lia|].
  destruct (RB (i + 1) j) as (N10 & P10); [lia|lia|]. destruct (RB (i + 1) (j + 1)) as (N11 & P11); [lia|lia|].
  set (a1 := ((1 - sy) * (1 - tx))%R) in *. set (a2 := ((1 - sy) * tx)%R) in *. set (a3 := (sy * (1 - tx))%R) in *. set (a4 := (sy * tx)%R) in *.
  pose proof (Rmult_le_pos _ _ w1 N00). pose proof (Rmult_le_pos _ _ w2 N01). pose proof (Rmult_le_pos _ _ w3 N10). pose proof (Rmult_le_pos _ _ w4 N11).
  pose proof (Rmult_le_compat_l _ _ _ w1 P00). pose proof (Rmult_le_compat_l _ _ _ w2 P01). pose proof (Rmult_le_compat_l _ _ _ w3 P10).
  pose proof (Rmult_le_compat_l _ _ _ w4 P11).
  apply degree_le; [rewrite BI; lra|exact HM|]. apply Rle_trans with (1 := PB). rewrite BI. unfold v. lra.
Qed.

Lemma c122_loses :
  let a : arr Q := of_list 0%Q 3 2 [0; 0; 1; 1; 0; 0]%Q in
  Qeq (cell a 1 0) 1 /\ Qeq (cell (congrid (congrid a 4 2) 3 2) 1 0) (2 # 3).
Proof. split; vm_compute; reflexivity. Qed.
