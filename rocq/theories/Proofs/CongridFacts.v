(** Linear resampling. *)
From Coq Require Import Reals Lra.
From Verif Require Import Base.Base Base.BaseFacts Base.Num Model.Demosaic Model.Stokes Model.Congrid
  Spec.MosaicSpec Spec.InterpSpec Proofs.DemosaicFacts Proofs.MosaicFacts.

Lemma searchsorted_ceil (x : R) m : 0 <= m -> (IZR (m - 1) < x <= IZR m)%R ->
  forall n, 0 <= n -> searchsorted n x = Z.min n m.
Proof.
  intros Hm [L U] n Hn. unfold searchsorted. pattern n. apply natlike_ind; [|clear n Hn; intros n Hn IH|exact Hn].
  - rewrite zrange_0. cbn. lia.
  - unfold Z.succ. rewrite zrange_succ by exact Hn. rewrite filter_app, app_length, Nat2Z.inj_add, IH.
    cbn [filter]. change (nltb (nofZ n) x) with (Rltb (IZR n) x). unfold Rltb.
    destruct (Rlt_dec (IZR n) x) as [Hlt|Hge].
    + assert (n < m) by (apply lt_IZR; lra). cbn [length]. lia.
    + assert (m - 1 < n) by (apply lt_IZR; lra). cbn [length]. lia.
Qed.

Lemma ceil_exists x : exists m, (IZR (m - 1) < x <= IZR m)%R.
Proof.
  exists (1 - up (- x)). destruct (archimed (- x)) as [L U]. rewrite !minus_IZR. lra.
Qed.

Lemma interp1d_polygon n (f : Z -> R) p : 2 <= n -> (0 <= p <= IZR (n - 1))%R ->
  on_polygon n f p (interp1d n f p).
Proof.
  intros Hn [P0 P1]. destruct (ceil_exists p) as (m & Hm).
  assert (0 <= m). { assert (-1 < m) by (apply lt_IZR; lra). lia. }
  assert (m <= n - 1). { assert (m - 1 < n - 1) by (apply lt_IZR; lra). lia. }
  unfold interp1d. rewrite (searchsorted_ceil p m) by (assumption || lia).
  set (i := Z.min (Z.max (Z.min n m) 1) (n - 1)). assert (Ei : i = Z.max m 1) by (unfold i; lia). clearbody i.
  exists (i - 1), (p - IZR (i - 1))%R. split; [lia|]. split.
  { rewrite minus_IZR. assert ((IZR i <= 1)%R \/ i = m) as [Hi|Hi].
    - destruct (Z_le_gt_dec m 1); [left; apply (IZR_le i 1); lia|right; lia].
    - assert (H1 : i = 1) by (assert (i <= 1) by (apply le_IZR; exact Hi); lia). rewrite H1.
      assert (p <= 1)%R. { assert (IZR m <= 1)%R by (apply (IZR_le m 1); lia). lra. }
      lra.
    - subst m. rewrite minus_IZR in Hm. lra. }
  split; [lra|]. cbn [nsub nadd nmul ndiv nofZ Num_R]. replace (i - 1 + 1) with i by lia.
  rewrite (minus_IZR i 1). field. lra.
Qed.

(** The samples themselves. *)
Lemma polygon_at n f k v : 0 <= k <= n - 1 -> on_polygon n f (IZR k) v -> v = f k.
Proof.
  intros Hk (i & t & Hi & Ht & E & ->).
  assert (D : i = k /\ t = 0%R \/ i + 1 = k /\ t = 1%R).
  { assert (Ht' : t = IZR (k - i)) by (rewrite minus_IZR; lra).
    rewrite Ht' in Ht. destruct Ht as [T0 T1]. apply le_IZR in T0. apply (le_IZR _ 1) in T1.
    assert (k - i = 0 \/ k - i = 1) as [D|D] by lia; rewrite D in Ht'; [left|right]; split; lra || lia. }
  destruct D as [[<- ->]|[<- ->]]; lra.
Qed.

Lemma polygon_range n f p v lo hi : (forall i, 0 <= i < n -> (lo <= f i <= hi)%R) -> on_polygon n f p v -> (lo <= v <= hi)%R.
Proof.
  intros Hf (i & t & Hi & Ht & _ & ->). pose proof (Hf i ltac:(lia)). pose proof (Hf (i + 1) ltac:(lia)). split; nra.
Qed.

Lemma position_spread n m k : 2 <= m -> position n m k = spread n m k.
Proof.
  intros Hm. unfold position, spread. cbn [nmul ndiv nofZ Num_R]. field. apply not_0_IZR. lia.
Qed.
Lemma spread_range n m k : 2 <= n -> 2 <= m -> 0 <= k <= m - 1 -> (0 <= spread n m k <= IZR (n - 1))%R.
Proof.
  intros Hn Hm Hk. unfold spread.
  assert (0 < IZR (m - 1))%R by (apply (IZR_lt 0); lia). assert (0 < IZR (n - 1))%R by (apply (IZR_lt 0); lia).
  assert (0 <= IZR k)%R by (apply (IZR_le 0); lia). assert (IZR k <= IZR (m - 1))%R by (apply IZR_le; lia).
  split; [apply Rmult_le_pos; [nra|left; apply Rinv_0_lt_compat; assumption]|].
  apply (Rmult_le_reg_r (IZR (m - 1))); [assumption|]. unfold Rdiv. rewrite Rmult_assoc, Rinv_l by lra. nra.
Qed.
Lemma spread_same n k : 2 <= n -> spread n n k = IZR k.
Proof. intros Hn. unfold spread. field. apply not_0_IZR. lia. Qed.
Lemma spread_first n m : spread n m 0 = 0%R.
Proof. unfold spread, Rdiv. rewrite !Rmult_0_l. reflexivity. Qed.
Lemma spread_last n m : 2 <= m -> spread n m (m - 1) = IZR (n - 1).
Proof. intros Hm. unfold spread. field. apply not_0_IZR. lia. Qed.

Section Grid.
  Variables (a : arr R) (h w : Z).
  Hypotheses (Hr : 2 <= rows a) (Hc : 2 <= cols a) (Hh : 2 <= h) (Hw : 2 <= w).

  Lemma congrid_steps y x : 0 <= y < h -> 0 <= x < w ->
    exists g : Z -> R, (forall i, on_polygon (cols a) (cell a i) (spread (cols a) w x) (g i)) /\
      on_polygon (rows a) g (spread (rows a) h y) (cell (congrid a h w) y x).
  Proof.
    intros Hy Hx. unfold congrid. cbn [cell rows cols].
    exists (fun i => interp1d (cols a) (fun x => cell a i x) (position (cols a) w x)). split.
    - intros i. rewrite position_spread by exact Hw. apply interp1d_polygon; [exact Hc|apply spread_range; lia].
    - rewrite (position_spread (rows a)) by exact Hh. apply interp1d_polygon; [exact Hr|apply spread_range; lia].
  Qed.

  Lemma congrid_bilinear y x : 0 <= y < h -> 0 <= x < w ->
    bilinear a (spread (rows a) h y) (spread (cols a) w x) (cell (congrid a h w) y x).
  Proof.
    intros Hy Hx. destruct (congrid_steps y x Hy Hx) as (g & Hg & (i & s & Hi & Hs & Ep & Ev)).
    rewrite Ep, Ev.
    (* the column is placed in the same interval for every row *)
    destruct (Hg i) as (j & t & Hj & Ht & Eq & Eg). destruct (Hg (i + 1)) as (j' & t' & Hj' & Ht' & Eq' & Eg').
    exists i, j, s, t. repeat (split; [assumption || lia || lra|]).
    assert (Same : g (i + 1) = ((1 - t) * cell a (i + 1) j + t * cell a (i + 1) (j + 1))%R).
    { rewrite Eg'. assert (D : t' = (t + IZR (j - j'))%R) by (rewrite minus_IZR; lra).
      assert (B : (-2 < IZR (j - j') < 2)%R) by lra. destruct B as [B1 B2].
      apply (lt_IZR (-2)) in B1. apply (lt_IZR _ 2) in B2.
      assert (j - j' = -1 \/ j - j' = 0 \/ j - j' = 1) as [J|[J|J]] by lia; rewrite J in D.
      - assert (t = 1%R /\ t' = 0%R) as [-> ->] by lra. replace (j + 1) with j' by lia. lra.
      - assert (Tt : t' = t) by lra. rewrite Tt. replace j' with j by lia. reflexivity.
      - assert (t = 0%R /\ t' = 1%R) as [-> ->] by lra. replace (j' + 1) with j by lia. lra. }
    rewrite Same, Eg. ring.
  Qed.

  Lemma congrid_range lo hi y x :
    (forall i j, 0 <= i < rows a -> 0 <= j < cols a -> (lo <= cell a i j <= hi)%R) ->
    0 <= y < h -> 0 <= x < w -> (lo <= cell (congrid a h w) y x <= hi)%R.
  Proof.
    intros Hb Hy Hx. destruct (congrid_steps y x Hy Hx) as (g & Hg & Hv).
    apply (polygon_range _ _ _ _ lo hi) with (2 := Hv). intros i Hi.
    apply (polygon_range _ _ _ _ lo hi) with (2 := Hg i). intros j Hj. apply Hb; assumption.
  Qed.

  (** Where both positions fall on samples. *)
  Lemma congrid_sample y x i j : 0 <= y < h -> 0 <= x < w -> 0 <= i < rows a -> 0 <= j < cols a ->
    spread (rows a) h y = IZR i -> spread (cols a) w x = IZR j -> cell (congrid a h w) y x = cell a i j.
  Proof.
    intros Hy Hx Hi Hj Ei Ej. destruct (congrid_steps y x Hy Hx) as (g & Hg & Hv).
    rewrite Ei in Hv. apply polygon_at in Hv; [|lia]. rewrite Hv. specialize (Hg i). rewrite Ej in Hg.
    apply polygon_at in Hg; [exact Hg|lia].
  Qed.

  Lemma congrid_corners :
    cell (congrid a h w) 0 0 = cell a 0 0 /\
    cell (congrid a h w) 0 (w - 1) = cell a 0 (cols a - 1) /\
    cell (congrid a h w) (h - 1) 0 = cell a (rows a - 1) 0 /\
    cell (congrid a h w) (h - 1) (w - 1) = cell a (rows a - 1) (cols a - 1).
  Proof.
    repeat split; apply congrid_sample; try lia; (apply spread_first || apply spread_last; assumption).
  Qed.
End Grid.

Lemma congrid_same (a : arr R) y x : 2 <= rows a -> 2 <= cols a -> 0 <= y < rows a -> 0 <= x < cols a ->
  cell (congrid a (rows a) (cols a)) y x = cell a y x.
Proof. intros. apply congrid_sample; try assumption; apply spread_same; assumption. Qed.

Lemma congrid_ext (a b : arr R) h w : rows a = rows b -> cols a = cols b -> (forall y x, cell a y x = cell b y x) ->
  rows (congrid a h w) = rows (congrid b h w) /\ forall y x, cell (congrid a h w) y x = cell (congrid b h w) y x.
Proof.
  intros Hr Hc He. split; [reflexivity|]. intros y x. unfold congrid. cbn [cell rows cols].
  rewrite Hr, Hc. unfold interp1d. rewrite !He. reflexivity.
Qed.

Lemma image_congrid_ok (data : arr R) (S : stokes R) ny nx :
  mosaic data -> 4 <= rows data -> 4 <= cols data -> 4 <= ny -> 4 <= nx ->
  let h := ny - ny mod 2 in let w := nx - nx mod 2 in
  exists d T, image_congrid data S ny nx = Ok (d, T) /\
    (rows d = h /\ cols d = w) /\
    (forall k Y X, 0 <= k < 4 -> 0 <= Y < h / 2 -> 0 <= X < w / 2 ->
       bilinear (family_image data k) (spread (rows data / 2) (h / 2) Y) (spread (cols data / 2) (w / 2) X)
         (sample d k Y X)) /\
    (rows (sI T) = h /\ cols (sI T) = w) /\ (rows (sQ T) = h /\ cols (sQ T) = w) /\ (rows (sU T) = h /\ cols (sU T) = w).
Proof.
  intros (H1 & H2 & H3 & H4) Hr Hc Hy Hx h w.
  destruct (split_spec data) as (q & Eq & Hq); [split; assumption|assumption|assumption|].
  assert (2 <= h / 2 /\ 2 <= w / 2 /\ h mod 2 = 0 /\ w mod 2 = 0) as (B1 & B2 & B3 & B4).
  { unfold h, w. pose proof (Z.div_mod ny 2). pose proof (Z.div_mod nx 2).
    pose proof (Z.mod_pos_bound ny 2). pose proof (Z.mod_pos_bound nx 2).
    replace (ny - ny mod 2) with (2 * (ny / 2)) by lia. replace (nx - nx mod 2) with (2 * (nx / 2)) by lia.
    rewrite !(Z.mul_comm 2), !Z.div_mul, !Z.mod_mul by lia. repeat split; lia. }
  unfold image_congrid. rewrite Eq; cbn [bind]. unfold trim. fold h w. do 2 eexists. split; [reflexivity|].
  split.
  { rewrite merge_rows, merge_cols. cbn [quad_map q0 congrid rows cols].
    pose proof (Z.div_mod h 2). pose proof (Z.div_mod w 2). lia. }
  split; [|repeat split].
  intros k Y X Hk HY HX. unfold sample. rewrite merge_cell.
  assert (K : k = 0 \/ k = 1 \/ k = 2 \/ k = 3) by lia.
  replace (2 * ((2 * Y + k / 2) mod 2) + (2 * X + k mod 2) mod 2) with k.
  2: { rewrite (Z.add_comm (2 * Y)), (Z.add_comm (2 * X)), !(Z.mul_comm 2), !Z.mod_add by lia.
       destruct K as [-> | [-> | [-> | ->]]]; reflexivity. }
  replace ((2 * Y + k / 2) / 2) with Y.
  2: { rewrite (Z.add_comm (2 * Y)), (Z.mul_comm 2), Z.div_add by lia.
       destruct K as [-> | [-> | [-> | ->]]]; cbn; lia. }
  replace ((2 * X + k mod 2) / 2) with X.
  2: { rewrite (Z.add_comm (2 * X)), (Z.mul_comm 2), Z.div_add by lia.
       destruct K as [-> | [-> | [-> | ->]]]; cbn; lia. }
  replace (qnth (quad_map (fun a => congrid a (h / 2) (w / 2)) q) k) with (congrid (qnth q k) (h / 2) (w / 2))
    by (destruct K as [-> | [-> | [-> | ->]]]; reflexivity).
  destruct (Hq k Hk) as (Rk & Ck & Ek).
  destruct (congrid_ext (qnth q k) (family_image data k) (h / 2) (w / 2)) as [_ ->]; [exact Rk|exact Ck|exact Ek|].
  apply (congrid_bilinear (family_image data k)); cbn [family_image rows cols]; try assumption.
  - pose proof (Z.div_le_lower_bound (rows data) 2 2 ltac:(lia)). lia.
  - pose proof (Z.div_le_lower_bound (cols data) 2 2 ltac:(lia)). lia.
Qed.
