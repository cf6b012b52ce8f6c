From Coq Require Import Reals Lra.
From Verif Require Import Base.Base Base.Num Base.Bcast Base.BaseFacts Model.Roi Model.Pol
  Model.Codec Model.Stokes Spec.RoiSpec Spec.PixelSpec Spec.MosaicSpec Spec.CodecSpec
  Proofs.PolFacts Proofs.RawFacts.
From Verif Require Proofs.UtilFacts.
From Coq Require Import ZifyBool.
Local Open Scope R_scope.

Lemma Int_part_IZR z : Int_part (IZR z) = z.
Proof.
  destruct (base_Int_part (IZR z)) as [H1 H2].
  apply le_IZR in H1. assert (IZR z < IZR (Int_part (IZR z) + 1)) by (rewrite plus_IZR; lra).
  apply lt_IZR in H. lia.
Qed.

Lemma fmod360_spec v : 0 <= fmod360 v < 360 /\ exists k : Z, fmod360 v = v - 360 * IZR k.
Proof.
  unfold fmod360. split; [|eexists; reflexivity].
  destruct (base_Int_part (v / 360)) as [H1 H2].
  assert (E : v = 360 * (v / 360)) by field. lra.
Qed.

Lemma polar_at yc xc y x :
  polar_of (IZR y - yc) (IZR x - xc) (rho_at yc xc y x) (phi_at yc xc y x).
Proof.
  unfold polar_of, phi_at. pose proof PI_RGT_0 as Hpi.
  destruct (atan2_spec (IZR y - yc) (IZR x - xc)) as (Hb & Ex & Ey).
  fold (rho_at yc xc y x) in Ex, Ey.
  set (a := atan2 _ _) in *.
  destruct (fmod360_spec (a * 180 / PI + 360)) as (Hr & k & Hk).
  assert (Ea : fmod360 (a * 180 / PI + 360) / 180 * PI = a + 2 * IZR (1 - k) * PI).
  { rewrite Hk, minus_IZR. field. lra. }
  split; [apply sqrt_pos|]. split; [exact Hr|].
  rewrite Ea. destruct (trig_period (1 - k) a) as [-> ->].
  split; [exact Ex|]. split; [exact Ey|].
  intros H0. rewrite H0, Rmult_0_l in Ex, Ey.
  assert (Ha : a = 0).
  { unfold a. rewrite Ex, Ey. unfold atan2.
    assert (E : Rltb 0 0 = false) by (apply Rltb_false; lra). rewrite !E. reflexivity. }
  rewrite Ha. unfold fmod360.
  replace (0 * 180 / PI + 360) with 360 by (field; lra).
  replace (360 / 360) with (IZR 1) by field.
  rewrite Int_part_IZR. lra.
Qed.

Lemma polar_unique dy dx r p r' p' :
  polar_of dy dx r p -> polar_of dy dx r' p' -> r = r' /\ p = p'.
Proof.
  intros (Hr & Hp & Ex & Ey & H0) (Hr' & Hp' & Ex' & Ey' & H0').
  pose proof PI_RGT_0 as Hpi.
  assert (Sq : forall q : R, cos q * cos q + sin q * sin q = 1).
  { intros q. pose proof (sin2_cos2 q) as E. unfold Rsqr in E. lra. }
  assert (E1 : r * r = dx * dx + dy * dy).
  { rewrite Ex, Ey. pose proof (Sq (p / 180 * PI)). nra. }
  assert (E2 : r' * r' = dx * dx + dy * dy).
  { rewrite Ex', Ey'. pose proof (Sq (p' / 180 * PI)). nra. }
  assert (Er : r = r') by nra. subst r'. split; [reflexivity|].
  destruct (Req_dec r 0) as [Hz|Hz]; [rewrite H0, H0' by assumption; reflexivity|].
  destruct (angle_unique (p / 180 * PI) (p' / 180 * PI)) as [k Hk].
  - apply (Rmult_eq_reg_l r); lra.
  - apply (Rmult_eq_reg_l r); lra.
  - assert (Ed : p = p' + 360 * IZR k).
    { apply (Rmult_eq_reg_r (PI / 180)); [|lra]. lra. }
    assert (-1 < IZR k < 1) by lra.
    assert (k = 0)%Z as ->.
    { assert (-1 < k < 1)%Z; [|lia]. split; apply lt_IZR; lra. }
    lra.
Qed.

Lemma sector_iff yc xc r1 r2 t1 t2 y x :
  (Rltb r1 (rho_at yc xc y x) && Rleb (rho_at yc xc y x) r2) &&
  (Rleb t1 (phi_at yc xc y x) && Rltb (phi_at yc xc y x) t2) = true <->
  in_sector (IZR y - yc) (IZR x - xc) r1 r2 t1 t2.
Proof.
  rewrite !andb_true_iff, !Rltb_true, !Rleb_true. unfold in_sector. split.
  - intros [Hr Ht]. eexists _, _. split; [apply polar_at|]. auto.
  - intros (rho & phi & Hp & Hr & Ht).
    destruct (polar_unique _ _ _ _ _ _ (polar_at yc xc y x) Hp) as [-> ->]. auto.
Qed.

(** The full circle imposes no condition on the angle. *)
Lemma sector_full yc xc r1 r2 y x :
  in_sector (IZR y - yc) (IZR x - xc) r1 r2 0 360 <-> r1 < rho_at yc xc y x <= r2.
Proof.
  split.
  - intros (rho & phi & Hp & Hr & Ht).
    destruct (polar_unique _ _ _ _ _ _ (polar_at yc xc y x) Hp) as [-> _]. exact Hr.
  - intros H. eexists _, _. split; [apply polar_at|]. split; [exact H|].
    destruct (polar_at yc xc y x) as (_ & Hp & _). exact Hp.
Qed.

Lemma rho_at_Z yc xc y x : rho_at (IZR yc) (IZR xc) y x = dist y x yc xc.
Proof.
  unfold rho_at, dist. f_equal. rewrite plus_IZR, !mult_IZR, !minus_IZR. ring.
Qed.

Lemma int_half_unique v z : truncated (v / 2) z -> int_half v = IZR z.
Proof.
  intros H. unfold int_half. f_equal. exact (truncated_unique _ _ _ (rtrunc_spec _) H).
Qed.

Lemma truncated_half n : truncated (IZR n / 2) (Z.quot n 2).
Proof.
  pose proof (Z.quot_rem n 2 ltac:(lia)) as E.
  apply (f_equal IZR) in E. rewrite plus_IZR, mult_IZR in E.
  split; intros H.
  - assert (Hn : (0 <= n)%Z) by (apply le_IZR; lra).
    destruct (Z.rem_bound_pos n 2 Hn ltac:(lia)) as [B1 B2].
    assert (B3 : (Z.rem n 2 <= 1)%Z) by lia.
    apply IZR_le in B1, B3. lra.
  - assert (Hn : (n < 0)%Z) by (apply lt_IZR; lra).
    pose proof (Z.rem_bound_pos (- n) 2 ltac:(lia) ltac:(lia)) as B.
    rewrite Z.rem_opp_l in B by lia.
    assert (B1 : (-1 <= Z.rem n 2)%Z) by lia. assert (B2 : (Z.rem n 2 <= 0)%Z) by lia.
    apply IZR_le in B1, B2. lra.
Qed.

Lemma int_half_Z n : int_half (IZR n) = IZR (Z.quot n 2).
Proof. apply int_half_unique, truncated_half. Qed.

Section Roi.
  Context {A : Type}.
  Implicit Type data : arr A.

  Lemma roi_cond_super data cy cx r1 r2 t1 t2 zy zx z1 z2 :
    truncated (cy / 2) zy -> truncated (cx / 2) zx ->
    truncated (r1 / 2) z1 -> truncated (r2 / 2) z2 ->
    exists c, roi_condition data (Some (cy, cx)) (Some (r1, r2)) (t1, t2) true = Ok c /\
      rows c = (2 * Z.quot (rows data) 2)%Z /\ cols c = (2 * Z.quot (cols data) 2)%Z /\
      forall y x, cell c y x = true <->
        in_sector (IZR (y / 2) - IZR zy) (IZR (x / 2) - IZR zx) (IZR z1) (IZR z2) t1 t2.
  Proof.
    intros Hy Hx H1 H2. unfold roi_condition, roi_condition_from, map_polar_coordinates.
    rewrite (int_half_unique _ _ Hy), (int_half_unique _ _ Hx),
      (int_half_unique _ _ H1), (int_half_unique _ _ H2).
    eexists; split; [reflexivity|]. cbn [repeat2 amap2 amap rows cols cell].
    split; [reflexivity|]. split; [reflexivity|].
    intros y x. apply sector_iff.
  Qed.

  Lemma roi_cond_pixel data cy cx r1 r2 t1 t2 :
    exists c, roi_condition data (Some (cy, cx)) (Some (r1, r2)) (t1, t2) false = Ok c /\
      rows c = rows data /\ cols c = cols data /\
      forall y x, cell c y x = true <-> in_sector (IZR y - cy) (IZR x - cx) r1 r2 t1 t2.
  Proof.
    unfold roi_condition, roi_condition_from, map_polar_coordinates.
    eexists; split; [reflexivity|]. cbn [amap2 amap rows cols cell].
    split; [reflexivity|]. split; [reflexivity|].
    intros y x. apply sector_iff.
  Qed.

  Lemma roi_center_default data rho theta incl :
    roi_condition data None rho theta incl =
    roi_condition data (Some (IZR (Z.quot (rows data) 2), IZR (Z.quot (cols data) 2))) rho theta incl.
  Proof. reflexivity. Qed.

  Lemma where_fill_same (c : arr bool) data fill :
    same_shape c data ->
    exists out, where_fill c data fill = Ok out /\
      holds out data (fun y x => if cell c y x then cell data y x else fill).
  Proof.
    intros Hs. unfold where_fill.
    destruct (UtilFacts.bmap2_same (fun (b : bool) (v : A) => if b then v else fill) c data Hs)
      as (o & Ho & Hr & Hc & Hv).
    exists o. split; [exact Ho|]. destruct Hs as [S1 S2].
    split; [congruence|]. split; [congruence|].
    intros y x Hy' Hx'. apply Hv; congruence.
  Qed.

  Lemma even_quot n : (0 <= n)%Z -> (n mod 2 = 0)%Z -> (2 * Z.quot n 2 = n)%Z.
  Proof.
    intros H0 H. rewrite Z.quot_div_nonneg by lia.
    pose proof (Z.div_mod n 2 ltac:(lia)). lia.
  Qed.

  Lemma c35_super data cy cx r1 r2 t1 t2 zy zx z1 z2 fill :
    mosaic data ->
    truncated (cy / 2) zy -> truncated (cx / 2) zx ->
    truncated (r1 / 2) z1 -> truncated (r2 / 2) z2 ->
    exists m out,
      roi_boolean data (Some (cy, cx)) (Some (r1, r2)) (t1, t2) true = Ok m /\
      roi_from_polar data (Some (cy, cx)) (Some (r1, r2)) (t1, t2) fill true = Ok out /\
      same_shape m data /\
      (forall y x, (0 <= y < rows data)%Z -> (0 <= x < cols data)%Z ->
         (cell m y x = true <->
          in_sector (IZR (y / 2) - IZR zy) (IZR (x / 2) - IZR zx) (IZR z1) (IZR z2) t1 t2)) /\
      holds out data (fun y x => if cell m y x then cell data y x else fill).
  Proof.
    intros (M1 & M2 & M3 & M4) Hy Hx H1 H2.
    destruct (roi_cond_super data cy cx r1 r2 t1 t2 zy zx z1 z2 Hy Hx H1 H2)
      as (c & Ec & Rc & Cc & Vc).
    rewrite even_quot in Rc, Cc by assumption.
    destruct (where_fill_same c data fill (conj Rc Cc)) as (out & Eo & Ho).
    exists c, out. unfold roi_boolean, roi_from_polar. rewrite Ec. cbn [bind].
    split; [reflexivity|]. split; [exact Eo|]. split; [split; assumption|].
    split; [intros; apply Vc|exact Ho].
  Qed.

  Lemma c35_pixel data cy cx r1 r2 t1 t2 fill :
    exists m out,
      roi_boolean data (Some (cy, cx)) (Some (r1, r2)) (t1, t2) false = Ok m /\
      roi_from_polar data (Some (cy, cx)) (Some (r1, r2)) (t1, t2) fill false = Ok out /\
      same_shape m data /\
      (forall y x, (0 <= y < rows data)%Z -> (0 <= x < cols data)%Z ->
         (cell m y x = true <-> in_sector (IZR y - cy) (IZR x - cx) r1 r2 t1 t2)) /\
      holds out data (fun y x => if cell m y x then cell data y x else fill).
  Proof.
    destruct (roi_cond_pixel data cy cx r1 r2 t1 t2) as (c & Ec & Rc & Cc & Vc).
    destruct (where_fill_same c data fill (conj Rc Cc)) as (out & Eo & Ho).
    exists c, out. unfold roi_boolean, roi_from_polar. rewrite Ec. cbn [bind].
    split; [reflexivity|]. split; [exact Eo|]. split; [split; assumption|].
    split; [intros; apply Vc|exact Ho].
  Qed.

  Lemma odd_quot n : (0 < n)%Z -> (n mod 2 <> 0)%Z -> (2 * Z.quot n 2 = n - 1)%Z.
  Proof.
    intros H0 H. rewrite Z.quot_div_nonneg by lia.
    pose proof (Z.div_mod n 2 ltac:(lia)). pose proof (Z.mod_pos_bound n 2 ltac:(lia)). lia.
  Qed.

  Lemma c35_odd data center r1 r2 t1 t2 fill :
    (1 < rows data)%Z -> (1 < cols data)%Z ->
    (rows data mod 2 <> 0 \/ cols data mod 2 <> 0)%Z ->
    roi_from_polar data center (Some (r1, r2)) (t1, t2) fill true = Raise ValueError.
  Proof.
    intros Hr Hc Ho. unfold roi_from_polar.
    assert (E : exists c, roi_condition data center (Some (r1, r2)) (t1, t2) true = Ok c /\
      rows c = (2 * Z.quot (rows data) 2)%Z /\ cols c = (2 * Z.quot (cols data) 2)%Z).
    { destruct center as [[cy cx]|]; [|rewrite roi_center_default];
      [destruct (roi_cond_super data cy cx r1 r2 t1 t2 _ _ _ _ (rtrunc_spec _) (rtrunc_spec _)
         (rtrunc_spec _) (rtrunc_spec _)) as (c & E1 & E2 & E3 & _)
      |destruct (roi_cond_super data (IZR (Z.quot (rows data) 2)) (IZR (Z.quot (cols data) 2))
         r1 r2 t1 t2 _ _ _ _ (rtrunc_spec _) (rtrunc_spec _) (rtrunc_spec _) (rtrunc_spec _))
         as (c & E1 & E2 & E3 & _)]; exists c; auto. }
    destruct E as (c & -> & Er & Ec). cbn [bind]. unfold where_fill.
    apply UtilFacts.bmap2_bad. rewrite Er, Ec.
    assert (N2 : forall n, (n mod 2 <> 0 -> n <> 2)%Z) by (intros n Hn ->; apply Hn; reflexivity).
    destruct Ho as [Ho|Ho]; [left|right]; pose proof (N2 _ Ho); rewrite odd_quot by lia; lia.
  Qed.

  Lemma c35_one_row data w r1 r2 t1 t2 fill :
    (0 <= w)%Z -> rows data = 1%Z -> cols data = (2 * w)%Z ->
    exists out, roi_from_polar data None (Some (r1, r2)) (t1, t2) fill true = Ok out /\
      rows out = 0%Z /\ cols out = (2 * w)%Z.
  Proof.
    intros Hw Hr Hc. unfold roi_from_polar. rewrite roi_center_default.
    destruct (roi_cond_super data (IZR (Z.quot (rows data) 2)) (IZR (Z.quot (cols data) 2))
      r1 r2 t1 t2 _ _ _ _ (rtrunc_spec _) (rtrunc_spec _) (rtrunc_spec _) (rtrunc_spec _))
      as (c & -> & Er & Ec & _).
    cbn [bind]. unfold where_fill, bmap2. rewrite Er, Ec, Hr, Hc.
    assert (Eq : Z.quot (2 * w) 2 = w) by (rewrite (Z.mul_comm 2 w); apply Z.quot_mul; discriminate).
    rewrite Eq, UtilFacts.bdim_same.
    assert (E0 : bdim (2 * Z.quot 1 2) 1 = Some 0%Z) by reflexivity. rewrite E0.
    eexists; split; [reflexivity|]. split; reflexivity.
  Qed.
End Roi.

Lemma c35_center {A} (data : arr A) rho theta fill incl :
  roi_from_polar data None rho theta fill incl =
  roi_from_polar data (Some (IZR (Z.quot (rows data) 2), IZR (Z.quot (cols data) 2))) rho theta fill incl.
Proof. reflexivity. Qed.

Lemma c36_none {A} (data : arr A) center theta fill incl :
  roi_from_polar data center None theta fill incl = Raise TypeError.
Proof. unfold roi_from_polar, roi_condition, roi_condition_from. destruct theta. reflexivity. Qed.
