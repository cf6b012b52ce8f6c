From Coq Require Import Reals Lra.
From Verif Require Import Base.Base Base.Num Base.Bcast Base.BaseFacts Model.Roi Model.Pol
  Model.Codec Model.Stokes Spec.RoiSpec Spec.PixelSpec Spec.MosaicSpec Spec.CodecSpec
  Spec.StokesSpec Proofs.PolFacts Proofs.RawFacts Proofs.RoiFacts Proofs.StokesFacts.
From Coq Require Import ZifyBool.
Local Open Scope Z_scope.

(** Integer centre and radii, full circle, superpixel mode. *)
Lemma roi_super_Z {A} (data : arr A) y0 x0 r1 r2 fill :
  mosaic data ->
  exists m out,
    roi_boolean data (Some (IZR y0, IZR x0)) (Some (IZR r1, IZR r2)) full_circle true = Ok m /\
    roi_from_polar data (Some (IZR y0, IZR x0)) (Some (IZR r1, IZR r2)) full_circle fill true = Ok out /\
    same_shape m data /\
    (forall y x, 0 <= y < rows data -> 0 <= x < cols data ->
       (cell m y x = true <->
        (IZR (Z.quot r1 2) < dist (y / 2) (x / 2) (Z.quot y0 2) (Z.quot x0 2) <= IZR (Z.quot r2 2))%R)) /\
    holds out data (fun y x => if cell m y x then cell data y x else fill).
Proof.
  intros Hm.
  destruct (c35_super data (IZR y0) (IZR x0) (IZR r1) (IZR r2) 0 360 _ _ _ _ fill Hm
              (truncated_half y0) (truncated_half x0) (truncated_half r1) (truncated_half r2))
    as (m & out & E1 & E2 & Hs & Hv & Ho).
  exists m, out. split; [exact E1|]. split; [exact E2|]. split; [exact Hs|]. split; [|exact Ho].
  intros y x Hy Hx. rewrite Hv by assumption. rewrite sector_full, rho_at_Z. reflexivity.
Qed.

(** Integer centre and radii, full circle, pixel mode. *)
Lemma roi_pixel_Z {A} (data : arr A) y0 x0 r1 r2 fill :
  exists m out,
    roi_boolean data (Some (IZR y0, IZR x0)) (Some (IZR r1, IZR r2)) full_circle false = Ok m /\
    roi_from_polar data (Some (IZR y0, IZR x0)) (Some (IZR r1, IZR r2)) full_circle fill false = Ok out /\
    same_shape m data /\
    (forall y x, 0 <= y < rows data -> 0 <= x < cols data ->
       (cell m y x = true <-> (IZR r1 < dist y x y0 x0 <= IZR r2)%R)) /\
    holds out data (fun y x => if cell m y x then cell data y x else fill).
Proof.
  destruct (c35_pixel data (IZR y0) (IZR x0) (IZR r1) (IZR r2) 0 360 fill)
    as (m & out & E1 & E2 & Hs & Hv & Ho).
  exists m, out. split; [exact E1|]. split; [exact E2|]. split; [exact Hs|]. split; [|exact Ho].
  intros y x Hy Hx. rewrite Hv by assumption. rewrite sector_full, rho_at_Z. reflexivity.
Qed.

Lemma dist_le y x y' x' n :
  0 <= n -> (y - y') * (y - y') + (x - x') * (x - x') <= n * n -> (dist y x y' x' <= IZR n)%R.
Proof.
  intros Hn H. unfold dist. rewrite <- (sqrt_square (IZR n)) by (apply IZR_le; exact Hn).
  apply sqrt_le_1.
  - apply IZR_le. pose proof (Z.square_nonneg (y - y')). pose proof (Z.square_nonneg (x - x')). lia.
  - apply Rmult_le_pos; apply IZR_le; exact Hn.
  - rewrite <- mult_IZR. apply IZR_le. exact H.
Qed.

Lemma dist_pos y x y' x' : (y, x) <> (y', x') -> (0 < dist y x y' x')%R.
Proof.
  intros H. unfold dist. apply sqrt_lt_R0. apply IZR_lt.
  pose proof (Z.square_nonneg (y - y')). pose proof (Z.square_nonneg (x - x')).
  assert (P : forall t, t <> 0 -> 0 < t * t) by (intros t Ht; nia).
  destruct (Z.eq_dec y y') as [->|Hy]; destruct (Z.eq_dec x x') as [->|Hx].
  - contradiction.
  - pose proof (P (x - x') ltac:(lia)). lia.
  - pose proof (P (y - y') ltac:(lia)). lia.
  - pose proof (P (y - y') ltac:(lia)). lia.
Qed.

Lemma dist_self y x : dist y x y x = 0%R.
Proof. unfold dist. rewrite !Z.sub_diag. cbn. apply sqrt_0. Qed.

(** Pixel of a mosaic that belongs to superpixel (Y, X). *)
Lemma sample_in {A} (d : arr A) k Y X :
  mosaic d -> 0 <= k < 4 -> 0 <= Y < rows d / 2 -> 0 <= X < cols d / 2 ->
  0 <= 2 * Y + k / 2 < rows d /\ 0 <= 2 * X + k mod 2 < cols d /\
  (2 * Y + k / 2) / 2 = Y /\ (2 * X + k mod 2) / 2 = X.
Proof.
  intros (M1 & M2 & M3 & M4) Hk HY HX.
  assert (0 <= k / 2 < 2) by (split; [apply Z.div_pos; lia|apply Z.div_lt_upper_bound; lia]).
  pose proof (Z.mod_pos_bound k 2 ltac:(lia)).
  pose proof (Z.div_mod (rows d) 2 ltac:(lia)). pose proof (Z.div_mod (cols d) 2 ltac:(lia)).
  split; [lia|]. split; [lia|].
  split; symmetry; [apply (Z.div_unique_pos _ _ _ (k / 2))|apply (Z.div_unique_pos _ _ _ (k mod 2))]; lia.
Qed.

Lemma even_halves n : 0 <= n -> n mod 2 = 0 -> n = 2 * (n / 2).
Proof. intros H0 H. pose proof (Z.div_mod n 2 ltac:(lia)). lia. Qed.

(** ** C37 *)
Lemma c37_consistent dic a (data : arr R) s y0 x0 r over :
  describes dic a -> mosaic data -> data_stokes dic data = Ok s ->
  exists data' s' t,
    mask_raw data s y0 x0 r over 0%R = Ok (data', s') /\
    data_stokes dic data' = Ok t /\
    stokes_is s' (rows data / 2) (cols data / 2) (cell (sI t)) (cell (sQ t)) (cell (sU t)).
Proof.
  intros Hd Hm Es.
  destruct (data_stokes_spec dic a data Hd Hm) as (s1 & E1 & (I1 & I2) & (Q1 & Q2) & (U1 & U2) & Vs).
  rewrite Es in E1. injection E1 as <-.
  set (big := 2 * Z.max (rows data) (cols data)).
  destruct (roi_super_Z data y0 x0 (r + over) big 0%R Hm) as (m & d' & Em & Ed & Sm & Vm & (Rd & Cd & Vd)).
  assert (Hcomp : forall c : arr R, rows c = rows data / 2 -> cols c = cols data / 2 ->
    exists c', roi_from_polar c (Some (IZR (Z.quot y0 2), IZR (Z.quot x0 2)))
      (Some (IZR (Z.quot (r + over) 2), IZR (2 * Z.max (rows c) (cols c)))) full_circle 0%R false = Ok c' /\
      rows c' = rows data / 2 /\ cols c' = cols data / 2 /\
      forall Y X, 0 <= Y < rows data / 2 -> 0 <= X < cols data / 2 ->
        cell c' Y X = if cell m (2 * Y) (2 * X) then cell c Y X else 0%R).
  { intros c Rc Cc.
    destruct (roi_pixel_Z c (Z.quot y0 2) (Z.quot x0 2) (Z.quot (r + over) 2)
                (2 * Z.max (rows c) (cols c)) 0%R) as (mc & c' & Emc & Ec & Smc & Vmc & (Rc' & Cc' & Vc')).
    exists c'. split; [exact Ec|]. split; [congruence|]. split; [congruence|].
    intros Y X HY HX. rewrite Vc' by (rewrite ?Rc, ?Cc; assumption).
    destruct Hm as (M1 & M2 & M3 & M4).
    pose proof (even_halves _ M1 M3) as Hr2. pose proof (even_halves _ M2 M4) as Hc2.
    assert (Eb : Z.quot big 2 = 2 * Z.max (rows c) (cols c)).
    { unfold big. rewrite (Z.mul_comm 2), Z.quot_mul by discriminate. rewrite Rc, Cc. lia. }
    assert (Eqv : cell mc Y X = cell m (2 * Y) (2 * X)).
    { apply Bool.eq_iff_eq_true. rewrite Vmc by (rewrite ?Rc, ?Cc; assumption).
      rewrite Vm by lia. rewrite Eb.
      rewrite (Z.mul_comm 2 Y), (Z.mul_comm 2 X), !Z.div_mul by lia. reflexivity. }
    rewrite Eqv. reflexivity. }
  destruct (Hcomp (sI s) I1 I2) as (i' & Ei & Ri & Ci & Vi).
  destruct (Hcomp (sQ s) Q1 Q2) as (q' & Eq & Rq & Cq & Vq).
  destruct (Hcomp (sU s) U1 U2) as (u' & Eu & Ru & Cu & Vu).
  assert (Hm' : mosaic d') by (unfold mosaic in *; rewrite Rd, Cd; exact Hm).
  destruct (data_stokes_spec dic a d' Hd Hm') as (t & Et & _ & _ & _ & Vt).
  exists d', (mkstokes i' q' u'), t. unfold mask_raw. fold big. rewrite Ed. cbn [bind].
  rewrite Ei. cbn [bind]. rewrite Eq. cbn [bind]. rewrite Eu. cbn [bind].
  split; [reflexivity|]. split; [exact Et|].
  unfold stokes_is. cbn [sI sQ sU]. split; [auto|]. split; [auto|]. split; [auto|].
  intros Y X HY HX. rewrite Rd, Cd in Vt. destruct (Vt Y X HY HX) as (T1 & T2 & T3).
  destruct (Vs Y X HY HX) as (S1 & S2 & S3).
  assert (Hsam : forall k, 0 <= k < 4 ->
    sample d' k Y X = if cell m (2 * Y) (2 * X) then sample data k Y X else 0%R).
  { intros k Hk. destruct (sample_in data k Y X Hm Hk HY HX) as (B1 & B2 & B3 & B4).
    unfold sample. rewrite Vd by assumption.
    assert (Eqv : cell m (2 * Y + k / 2) (2 * X + k mod 2) = cell m (2 * Y) (2 * X)).
    { apply Bool.eq_iff_eq_true.
      destruct (sample_in data 0 Y X Hm ltac:(lia) HY HX) as (D1 & D2 & D3 & D4).
      change (0 / 2) with 0 in *. change (0 mod 2) with 0 in *. rewrite !Z.add_0_r in *.
      rewrite !Vm by assumption. rewrite B3, B4, D3, D4. reflexivity. }
    rewrite Eqv. reflexivity. }
  destruct Hd as ((A1 & A2 & A3 & A4 & _) & _).
  rewrite T1, T2, T3, Vi, Vq, Vu, S1, S2, S3 by assumption. rewrite !Hsam by lia.
  destruct (cell m (2 * Y) (2 * X)); cbn; repeat split; lra.
Qed.

(** Pixels of superpixels outside the occulter keep their value, the others get [fill]. *)
Lemma c37_data (data : arr R) s y0 x0 r over fill data' s' :
  mosaic data -> rows (sI s) = rows data / 2 -> cols (sI s) = cols data / 2 ->
  0 <= y0 < rows data -> 0 <= x0 < cols data ->
  mask_raw data s y0 x0 r over fill = Ok (data', s') ->
  holds data' data (fun y x =>
    if Rlt_dec (IZR (Z.quot (r + over) 2)) (dist (y / 2) (x / 2) (y0 / 2) (x0 / 2))
    then cell data y x else fill) /\
  holds (sI s') (sI s) (fun Y X =>
    if Rlt_dec (IZR (Z.quot (r + over) 2)) (dist Y X (y0 / 2) (x0 / 2))
    then cell (sI s) Y X else fill).
Proof.
  intros Hm Hrs Hcs Hy0 Hx0 E. unfold mask_raw in E.
  set (big := 2 * Z.max (rows data) (cols data)) in *.
  destruct (roi_super_Z data y0 x0 (r + over) big fill Hm) as (m & d' & Em & Ed & Sm & Vm & (Rd & Cd & Vd)).
  rewrite Ed in E. cbn [bind] in E.
  destruct (roi_pixel_Z (sI s) (Z.quot y0 2) (Z.quot x0 2) (Z.quot (r + over) 2)
    (2 * Z.max (rows (sI s)) (cols (sI s))) fill) as (mi & i' & Emi & Ei & Smi & Vmi & (Ri & Ci & Vi)).
  rewrite Ei in E. cbn [bind] in E.
  destruct (roi_from_polar (sQ s) _ _ _ _ _) as [q'| |]; cbn [bind] in E; try discriminate.
  destruct (roi_from_polar (sU s) _ _ _ _ _) as [u'| |]; cbn [bind] in E; try discriminate.
  injection E as <- <-.
  destruct Hm as (M1 & M2 & M3 & M4).
  pose proof (even_halves _ M1 M3) as Hr2. pose proof (even_halves _ M2 M4) as Hc2.
  assert (Qy : Z.quot y0 2 = y0 / 2) by (apply Z.quot_div_nonneg; lia).
  assert (Qx : Z.quot x0 2 = x0 / 2) by (apply Z.quot_div_nonneg; lia).
  rewrite Qy, Qx in *.
  assert (Far : forall Y X, 0 <= Y < rows data / 2 -> 0 <= X < cols data / 2 ->
    (dist Y X (y0 / 2) (x0 / 2) <= IZR (Z.max (rows data) (cols data)))%R).
  { intros Y X HY HX. apply dist_le; [lia|].
    assert (0 <= y0 / 2 < rows data / 2) by
      (split; [apply Z.div_pos; lia|apply Z.div_lt_upper_bound; lia]).
    assert (0 <= x0 / 2 < cols data / 2) by
      (split; [apply Z.div_pos; lia|apply Z.div_lt_upper_bound; lia]).
    set (M := Z.max (rows data) (cols data)) in *.
    assert (- M <= 2 * (Y - y0 / 2) <= M) by lia.
    assert (- M <= 2 * (X - x0 / 2) <= M) by lia. nia. }
  split.
  - repeat split; [exact Rd|exact Cd|].
    intros y x Hy Hx. rewrite Vd by assumption.
    assert (HY : 0 <= y / 2 < rows data / 2) by
      (split; [apply Z.div_pos; lia|apply Z.div_lt_upper_bound; lia]).
    assert (HX : 0 <= x / 2 < cols data / 2) by
      (split; [apply Z.div_pos; lia|apply Z.div_lt_upper_bound; lia]).
    assert (Eb : Z.quot big 2 = Z.max (rows data) (cols data))
      by (unfold big; rewrite (Z.mul_comm 2), Z.quot_mul by discriminate; reflexivity).
    pose proof (Vm y x Hy Hx) as V. rewrite Eb in V. specialize (Far _ _ HY HX).
    destruct (Rlt_dec _ _) as [L|L]; destruct (cell m y x) eqn:Ec; try reflexivity.
    + exfalso. assert (false = true) by (apply V; split; assumption). discriminate.
    + exfalso. apply L. apply V. reflexivity.
  - repeat split; [exact Ri|exact Ci|].
    intros Y X HY HX. rewrite Vi by assumption.
    pose proof (Vmi Y X HY HX) as V. rewrite Hrs in HY, V. rewrite Hcs in HX, V. specialize (Far _ _ HY HX).
    assert (Eb : 2 * Z.max (rows data / 2) (cols data / 2) = Z.max (rows data) (cols data)) by lia.
    rewrite Eb in V.
    destruct (Rlt_dec _ _) as [L|L]; destruct (cell mi Y X) eqn:Ec; try reflexivity.
    + exfalso. assert (false = true) by (apply V; split; assumption). discriminate.
    + exfalso. apply L. apply V. reflexivity.
Qed.

(** ** C38 *)
Lemma c38_partition {A} (data : arr A) y0 x0 r big m1 m2 y x :
  mosaic data -> 0 <= r ->
  roi_boolean data (Some (IZR y0, IZR x0)) (Some (0%R, IZR r)) full_circle true = Ok m1 ->
  roi_boolean data (Some (IZR y0, IZR x0)) (Some (IZR r, IZR big)) full_circle true = Ok m2 ->
  0 <= y < rows data -> 0 <= x < cols data ->
  (dist (y / 2) (x / 2) (Z.quot y0 2) (Z.quot x0 2) <= IZR (Z.quot big 2))%R ->
  (y / 2, x / 2) <> (Z.quot y0 2, Z.quot x0 2) ->
  xorb (cell m1 y x) (cell m2 y x) = true.
Proof.
  intros Hm Hr0 E1 E2 Hy Hx Hb Hc.
  change 0%R with (IZR 0) in E1.
  destruct (roi_super_Z data y0 x0 0 r (cell data 0 0) Hm) as (n1 & o1 & F1 & _ & _ & V1 & _).
  destruct (roi_super_Z data y0 x0 r big (cell data 0 0) Hm) as (n2 & o2 & F2 & _ & _ & V2 & _).
  rewrite E1 in F1. injection F1 as <-. rewrite E2 in F2. injection F2 as <-.
  specialize (V1 y x Hy Hx). specialize (V2 y x Hy Hx). apply dist_pos in Hc.
  change (Z.quot 0 2) with 0 in V1.
  destruct (cell m1 y x) eqn:C1; destruct (cell m2 y x) eqn:C2; try reflexivity; exfalso.
  - destruct V1 as [V1 _]. destruct V2 as [V2 _]. specialize (V1 eq_refl). specialize (V2 eq_refl). lra.
  - destruct V1 as [_ V1]. destruct V2 as [_ V2].
    destruct (Rle_dec (dist (y / 2) (x / 2) (Z.quot y0 2) (Z.quot x0 2)) (IZR (Z.quot r 2))) as [L|L].
    + assert (false = true) by (apply V1; split; assumption). discriminate.
    + assert (false = true) by (apply V2; split; [lra|assumption]). discriminate.
Qed.

Lemma c38_center {A} (data : arr A) y0 x0 r big m1 m2 y x :
  mosaic data -> 0 <= r ->
  roi_boolean data (Some (IZR y0, IZR x0)) (Some (0%R, IZR r)) full_circle true = Ok m1 ->
  roi_boolean data (Some (IZR y0, IZR x0)) (Some (IZR r, IZR big)) full_circle true = Ok m2 ->
  0 <= y < rows data -> 0 <= x < cols data ->
  (y / 2, x / 2) = (Z.quot y0 2, Z.quot x0 2) ->
  cell m1 y x = false /\ cell m2 y x = false.
Proof.
  intros Hm Hr0 E1 E2 Hy Hx Hc. injection Hc as Hcy Hcx.
  change 0%R with (IZR 0) in E1.
  destruct (roi_super_Z data y0 x0 0 r (cell data 0 0) Hm) as (n1 & o1 & F1 & _ & _ & V1 & _).
  destruct (roi_super_Z data y0 x0 r big (cell data 0 0) Hm) as (n2 & o2 & F2 & _ & _ & V2 & _).
  rewrite E1 in F1. injection F1 as <-. rewrite E2 in F2. injection F2 as <-.
  specialize (V1 y x Hy Hx). specialize (V2 y x Hy Hx).
  rewrite Hcy, Hcx, dist_self in V1, V2. change (Z.quot 0 2) with 0 in V1.
  assert (0 <= IZR (Z.quot r 2))%R by (apply IZR_le, Z.quot_pos; lia).
  split.
  - destruct (cell m1 y x); [|reflexivity]. destruct V1 as [V1 _]. specialize (V1 eq_refl). lra.
  - destruct (cell m2 y x); [|reflexivity]. destruct V2 as [V2 _]. specialize (V2 eq_refl). lra.
Qed.

Lemma c38_refuted :
  exists (data : arr R) y0 x0 r big m1 m2 y x,
    mosaic data /\ 0 <= r < big /\ 0 <= y < rows data /\ 0 <= x < cols data /\
    roi_boolean data (Some (IZR y0, IZR x0)) (Some (0%R, IZR r)) full_circle true = Ok m1 /\
    roi_boolean data (Some (IZR y0, IZR x0)) (Some (IZR r, IZR big)) full_circle true = Ok m2 /\
    cell m1 y x = false /\ cell m2 y x = false.
Proof.
  assert (Hm : mosaic (full 4 4 0%R)) by (repeat split; cbn; lia || reflexivity).
  destruct (roi_super_Z (full 4 4 0%R) 2 2 0 2 0%R Hm) as (m1 & _ & E1 & _).
  destruct (roi_super_Z (full 4 4 0%R) 2 2 2 100 0%R Hm) as (m2 & _ & E2 & _).
  exists (full 4 4 0%R), 2, 2, 2, 100, m1, m2, 2, 2.
  split; [exact Hm|]. split; [lia|]. split; [cbn; lia|]. split; [cbn; lia|].
  split; [exact E1|]. split; [exact E2|].
  apply (c38_center (full 4 4 0%R) 2 2 2 100); try assumption; try lia; try (cbn; lia). reflexivity.
Qed.

(** ** C40 *)
Lemma c40_mask over rmax y0 x0 r h w :
  0 <= h -> 0 <= w -> h mod 2 = 0 -> w mod 2 = 0 ->
  exists m,
    occulter_mask (mkcamera h w (Some (y0, x0, r))) over rmax = Ok m /\ rows m = h /\ cols m = w /\
    let outer := match rmax with None => Z.min y0 x0 | Some v => v end in
    forall y x, 0 <= y < h -> 0 <= x < w ->
      (cell m y x = true <->
       (IZR (Z.quot (r + over) 2) < dist (y / 2) (x / 2) (Z.quot y0 2) (Z.quot x0 2)
        <= IZR (Z.quot outer 2))%R).
Proof.
  intros H1 H2 H3 H4. unfold occulter_mask. cbn [occulter_pos_last h_image w_image].
  set (outer := match rmax with None => Z.min y0 x0 | Some v => v end).
  assert (Hm : mosaic (full h w 1%R)) by (repeat split; assumption).
  destruct (roi_super_Z (full h w 1%R) y0 x0 (r + over) outer 0%R Hm)
    as (m & o & Em & Eo & Sm & Vm & (Ro & Co & Vo)).
  rewrite Eo. cbn [bind]. eexists; split; [reflexivity|]. cbn [amap rows cols cell].
  split; [exact Ro|]. split; [exact Co|]. cbn zeta.
  intros y x Hy Hx. rewrite Vo by assumption. rewrite <- (Vm y x Hy Hx). cbn [full cell].
  destruct (cell m y x).
  - assert (E : Reqb 1 0 = false) by (apply Reqb_false; lra). rewrite E. cbn. tauto.
  - assert (E : Reqb 0 0 = true) by (apply Reqb_true; lra). rewrite E. cbn. split; discriminate.
Qed.

Lemma c40_roi {A} (data : arr A) fill over :
  mosaic data -> rows data <= 1952 -> cols data <= 1952 ->
  exists o, occulter_roi PolarCam data fill over = Ok o /\
    holds o data (fun y x =>
      if Rlt_dec (IZR (Z.quot (536 + over) 2)) (dist (y / 2) (x / 2) 459 470)
      then cell data y x else fill).
Proof.
  intros Hm Hr Hc. unfold occulter_roi. cbn [occulter_pos_last PolarCam].
  destruct (roi_super_Z data 919 941 (536 + over) 5000 fill Hm) as (m & o & Em & Eo & Sm & Vm & (Ro & Co & Vo)).
  exists o. split; [exact Eo|]. repeat split; [exact Ro|exact Co|].
  intros y x Hy Hx. rewrite Vo by assumption.
  pose proof (Vm y x Hy Hx) as V.
  change (Z.quot 919 2) with 459 in V. change (Z.quot 941 2) with 470 in V.
  change (Z.quot 5000 2) with 2500 in V.
  assert (Far : (dist (y / 2) (x / 2) 459 470 <= IZR 2500)%R).
  { assert (0 <= y / 2 < 976) by (split; [apply Z.div_pos; lia|apply Z.div_lt_upper_bound; lia]).
    assert (0 <= x / 2 < 976) by (split; [apply Z.div_pos; lia|apply Z.div_lt_upper_bound; lia]).
    apply dist_le; [lia|]. nia. }
  destruct (Rlt_dec _ _) as [L|L]; destruct (cell m y x) eqn:Ec; try reflexivity.
  - exfalso. assert (false = true) by (apply V; split; assumption). discriminate.
  - exfalso. apply L. apply V. reflexivity.
Qed.

Lemma c37_case :
  let data := full 8 8 3%R in
  describes polarcam_angles (mkarrangement 0 1 2 3) /\ mosaic data /\
  exists s data' s', data_stokes polarcam_angles data = Ok s /\
    rows (sI s) = rows data / 2 /\ cols (sI s) = cols data / 2 /\
    mask_raw data s 4 3 2 0 0%R = Ok (data', s').
Proof.
  cbn zeta.
  assert (Hd : describes polarcam_angles (mkarrangement 0 1 2 3)).
  { unfold describes, arrangement_ok, polarcam_angles; cbn [p0 p45 pm45 p90 map fst].
    repeat split; try lia; try (repeat constructor; cbn; intuition lia); cbn; auto. }
  assert (Hm : mosaic (full 8 8 3%R)) by (repeat split; cbn; lia || reflexivity).
  split; [exact Hd|]. split; [exact Hm|].
  destruct (data_stokes_spec _ _ _ Hd Hm) as (s & Es & (I1 & I2) & _).
  destruct (c37_consistent _ _ _ s 4 3 2 0 Hd Hm Es) as (d' & s' & _ & E & _).
  exists s, d', s'. auto.
Qed.
