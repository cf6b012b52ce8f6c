(** Masking the occulter of an image object. *)
From Coq Require Import Reals Lra ZifyBool.
From Verif Require Import Base.Base Base.BaseFacts Base.Num Base.Bcast Model.Demosaic Model.Rebin Model.Shift
  Model.Ifov Model.Stokes Model.Utils Model.Roi Model.Demodulate Model.ImageObj Spec.MosaicSpec Spec.CodecSpec
  Spec.PixelSpec Spec.RoiSpec Spec.StokesSpec Spec.ImageSpec Proofs.DemosaicFacts Proofs.MosaicFacts
  Proofs.StokesFacts Proofs.MaskFacts Proofs.ObjFacts Proofs.ObjInv Proofs.ObjExec Proofs.ObjViews Proofs.ObjMore
  Proofs.ObjWitness.

(** The calls of [mask_occulter], one after the other. *)
Definition limit (x : image) : R := IZR (2 * Z.max (i_height x) (i_width x)).
Definition masked_data (x : image) (y0 x0 r : Z) (fill : R) (d : arr R) : result (arr R) :=
  roi_from_polar d (Some (IZR y0, IZR x0)) (Some (IZR r, limit x)) full_circle fill true.
Definition masked_part (y0 x0 r : Z) (fill : R) (c : arr R) : result (arr R) :=
  roi_from_polar c (Some (IZR y0, IZR x0)) (Some (IZR r, IZR (2 * Z.max (rows c) (cols c)))) full_circle fill false.
Definition with_quad (p : nat) (x : image) : image :=
  mkimage (i_data x) (i_height x) (i_width x) (i_header x) (i_stokes x) (Some p)
    (i_dic x) true (i_demodulated x) (i_dark x) (i_flat x).
Definition add_quad (q : quad R) (h : heap) : heap :=
  mkheap (arrays h) (headers h) (vectors h) (quads h ++ [q]) (images h) (default_angles h).

Lemma mask_raw_is x h y0 x0 r over fill d d' :
  i_demosaiced x = false -> nth_error (arrays h) (i_data x) = Some d ->
  masked_data x y0 x0 (r + over) fill d = Ok d' ->
  mask_occulter y0 x0 r over fill (x, h) =
    overwrite_vector (masked_part (Z.quot y0 2) (Z.quot x0 2) (Z.quot (r + over) 2) fill) (i_stokes x)
      (with_data (length (arrays h)) d' x, after_data d' x h).
Proof.
  intros F Ed E. unfold mask_occulter. cbv zeta. unfold mbind at 1, self at 1. cbn [fst].
  unfold mbind at 1. unfold my_data, mbind at 1, self at 1, deref at 1. cbn [fst snd]. rewrite Ed.
  unfold mbind at 1, lift at 1. unfold masked_data, limit in E. rewrite E.
  unfold mbind at 1. rewrite set_data_is. unfold mbind at 1, self at 1. cbn [fst].
  cbn [with_data i_demosaiced]. rewrite F. reflexivity.
Qed.
Lemma mask_demosaiced_is x h y0 x0 r over fill d d' p q :
  i_demosaiced x = true -> nth_error (arrays h) (i_data x) = Some d ->
  masked_data x y0 x0 (r + over) fill d = Ok d' -> i_demos x = Some p -> nth_error (quads h) p = Some q ->
  mask_occulter y0 x0 r over fill (x, h) =
    match mask_quad (masked_data x y0 x0 (r + over) fill) q with
    | Ok q' =>
        overwrite_vector (masked_part y0 x0 (r + over) fill) (i_stokes x)
          (with_quad (length (quads h)) (with_data (length (arrays h)) d' x), add_quad q' (after_data d' x h))
    | Raise e => ((with_data (length (arrays h)) d' x, after_data d' x h), Raise e)
    | NoFuel => ((with_data (length (arrays h)) d' x, after_data d' x h), NoFuel)
    end.
Proof.
  intros F Ed E Ep Eq. unfold mask_occulter. cbv zeta. unfold mbind at 1, self at 1. cbn [fst].
  unfold mbind at 1. unfold my_data, mbind at 1, self at 1, deref at 1. cbn [fst snd]. rewrite Ed.
  unfold mbind at 1, lift at 1. unfold masked_data at 1, limit at 1 in E. rewrite E.
  unfold mbind at 1. rewrite set_data_is. unfold mbind at 1, self at 1. cbn [fst].
  cbn [with_data i_demosaiced i_demos i_stokes]. rewrite F, Ep.
  unfold mbind at 1. unfold mbind at 1. unfold deref at 1. cbn [snd after_data quads]. rewrite Eq.
  unfold mbind at 1, lift at 1. fold (limit x).
  change (mask_quad (fun a => roi_from_polar a (Some (IZR y0, IZR x0)) (Some (IZR (r + over), limit x)) full_circle fill true) q)
    with (mask_quad (masked_data x y0 x0 (r + over) fill) q).
  destruct (mask_quad (masked_data x y0 x0 (r + over) fill) q) as [q'|e|]; reflexivity.
Qed.

Definition put_vector (p : nat) (t : stokes R) (h : heap) : heap :=
  mkheap (arrays h) (headers h) (replace (vectors h) p t) (quads h) (images h) (default_angles h).
Lemma overwrite_done f p im h s t :
  nth_error (vectors h) p = Some s -> f (sI s) = Ok (sI t) -> f (sQ s) = Ok (sQ t) -> f (sU s) = Ok (sU t) ->
  overwrite_vector f p (im, h) = ((im, put_vector p t h), Ok tt).
Proof.
  intros E Ei Eq Eu. unfold overwrite_vector, mbind, deref, lift, write_vector. cbn [fst snd]. rewrite E, Ei, Eq, Eu.
  cbn [vectors arrays headers quads images default_angles]. unfold put_vector.
  assert (Hr : forall (l : list (stokes R)) q x y, replace (replace l q x) q y = replace l q y).
  { induction l as [|z l IH]; intros [|q] x y; cbn; try reflexivity. rewrite IH. reflexivity. }
  rewrite !Hr. destruct t; reflexivity.
Qed.

(** ** A raw image *)
Lemma masked_part_ok y0 x0 r fill c : exists c', masked_part y0 x0 r fill c = Ok c'.
Proof.
  destruct (roi_pixel_Z c y0 x0 r (2 * Z.max (rows c) (cols c)) fill) as (m & c' & _ & E & _).
  exists c'. exact E.
Qed.
Lemma masked_data_ok x y0 x0 r fill d : mosaic d -> exists d', masked_data x y0 x0 r fill d = Ok d' /\ same_shape d' d.
Proof.
  intros Hm. destruct (roi_super_Z d y0 x0 r (2 * Z.max (i_height x) (i_width x)) fill Hm)
    as (m & d' & _ & E & _ & _ & (R & C & _)).
  exists d'. split; [exact E|]. split; assumption.
Qed.


(** What is seen of an object whose data and vector were replaced. *)
Lemma look_masked h x v d' t :
  look h x = Some v ->
  look (put_vector (i_stokes x) t (after_data d' x h)) (with_data (length (arrays h)) d' x) =
  Some (mkview d' (rows d') (cols d') (mkheader (cols d') (rows d')) t (v_quad v) (v_dic v)
          (v_demosaiced v) (v_demodulated v) (v_dark v) (v_flat v)).
Proof.
  intros El. pose proof (look_inv _ _ _ El) as (L1 & L2 & L3 & L4 & L5 & L6 & L7 & L8 & L9 & L10 & L11).
  unfold look. cbn [arrays headers vectors quads put_vector after_data with_data i_data i_header i_stokes i_demos
      i_height i_width i_dic i_demosaiced i_demodulated i_dark i_flat].
  rewrite nth_error_app2, Nat.sub_diag by lia. cbn [nth_error].
  rewrite replace_same by exact (lt_nth_error _ _ _ L2). rewrite replace_same by exact (lt_nth_error _ _ _ L3).
  rewrite L7, L8, L9, L10, L11. destruct (i_demos x) as [p|].
  - destruct L4 as (q & E1 & E2). rewrite E1, E2. reflexivity.
  - rewrite L4. reflexivity.
Qed.
Lemma look_put_images l h x : look (put_images l h) x = look h x.
Proof. reflexivity. Qed.

Lemma c102_raw hist h i v W y0 x0 r over fill :
  reached hist h -> view_of h i = Some v -> v_demosaiced v = false ->
  exists h' u, exec W (MaskOcculter i y0 x0 r over fill) h = (h', Ok None) /\ view_of h' i = Some u /\
    mask_raw (v_data v) (v_vector v) y0 x0 r over fill = Ok (v_data u, v_vector u) /\
    v_demosaiced u = false /\ v_dic u = v_dic v /\ header_fits u.
Proof.
  intros Hr Ev Hf. pose proof (reached_ok _ _ Hr) as Hok. apply view_inv in Ev. destruct Ev as (x & Ex & El).
  pose proof (obj_ok_at _ _ _ Hok Ex) as Ox. pose proof (look_inv _ _ _ El) as (L1 & L2 & L3 & L4 & L5 & L6 & L7 & L8 & _).
  destruct (ok_data _ _ Ox) as (d & Ed & Hm & Hh & Hw). assert (d = v_data v) as -> by congruence.
  destruct (masked_data_ok x y0 x0 (r + over) fill _ Hm) as (d' & Ed' & Hs').
  set (f := masked_part (Z.quot y0 2) (Z.quot x0 2) (Z.quot (r + over) 2) fill).
  destruct (masked_part_ok (Z.quot y0 2) (Z.quot x0 2) (Z.quot (r + over) 2) fill (sI (v_vector v))) as (ti & Ei).
  destruct (masked_part_ok (Z.quot y0 2) (Z.quot x0 2) (Z.quot (r + over) 2) fill (sQ (v_vector v))) as (tq & Eq).
  destruct (masked_part_ok (Z.quot y0 2) (Z.quot x0 2) (Z.quot (r + over) 2) fill (sU (v_vector v))) as (tu & Eu).
  assert (Em : mask_occulter y0 x0 r over fill (x, h) =
    ((with_data (length (arrays h)) d' x, put_vector (i_stokes x) (mkstokes ti tq tu) (after_data d' x h)), Ok tt)).
  { rewrite (mask_raw_is x h y0 x0 r over fill (v_data v) d') by (congruence || assumption).
    apply (overwrite_done _ _ _ _ (v_vector v)); cbn [after_data vectors]; assumption. }
  cbn [exec]. unfold in_place. rewrite Ex, Em. cbn [on_ok].
  eexists. eexists. split; [reflexivity|]. split.
  { unfold view_of. cbn [put_images images put_vector after_data]. rewrite replace_same by exact (lt_nth_error _ _ _ Ex).
    exact (look_masked h x v d' (mkstokes ti tq tu) El). }
  cbn [v_data v_vector v_demosaiced v_dic]. split.
  { unfold mask_raw. cbv zeta. unfold masked_data, limit in Ed'. rewrite Hh, Hw in Ed'. rewrite Ed'. cbn [bind].
    unfold masked_part in Ei, Eq, Eu. rewrite Ei. cbn [bind]. rewrite Eq. cbn [bind]. rewrite Eu. reflexivity. }
  split; [exact Hf|]. split; [reflexivity|]. split; reflexivity.
Qed.

(** Data and vector lose the light of the same superpixels. *)
Lemma mask_cells (data : arr R) s y0 x0 r over fill data' s' :
  mosaic data -> (rows (sI s) = rows data / 2 /\ cols (sI s) = cols data / 2) ->
  (rows (sQ s) = rows data / 2 /\ cols (sQ s) = cols data / 2) ->
  (rows (sU s) = rows data / 2 /\ cols (sU s) = cols data / 2) ->
  mask_raw data s y0 x0 r over fill = Ok (data', s') ->
  exists keep : Z -> Z -> bool,
    same_shape data' data /\
    (forall y x, 0 <= y < rows data -> 0 <= x < cols data ->
       cell data' y x = if keep (y / 2) (x / 2) then cell data y x else fill) /\
    stokes_is s' (rows data / 2) (cols data / 2)
      (fun Y X => if keep Y X then cell (sI s) Y X else fill)
      (fun Y X => if keep Y X then cell (sQ s) Y X else fill)
      (fun Y X => if keep Y X then cell (sU s) Y X else fill).
Proof.
  intros Hm (I1 & I2) (Q1 & Q2) (U1 & U2) E.
  set (big := 2 * Z.max (rows data) (cols data)).
  destruct (roi_super_Z data y0 x0 (r + over) big fill Hm) as (m & d' & Em & Ed & Sm & Vm & (Rd & Cd & Vd)).
  pose (keep := fun Y X => cell m (2 * Y) (2 * X)).
  pose proof Hm as (M1 & M2 & M3 & M4).
  pose proof (even_halves _ M1 M3) as Hr2. pose proof (even_halves _ M2 M4) as Hc2.
  assert (Hcomp : forall c : arr R, rows c = rows data / 2 -> cols c = cols data / 2 ->
    exists c', roi_from_polar c (Some (IZR (Z.quot y0 2), IZR (Z.quot x0 2)))
      (Some (IZR (Z.quot (r + over) 2), IZR (2 * Z.max (rows c) (cols c)))) full_circle fill false = Ok c' /\
      rows c' = rows data / 2 /\ cols c' = cols data / 2 /\
      forall Y X, 0 <= Y < rows data / 2 -> 0 <= X < cols data / 2 ->
        cell c' Y X = if keep Y X then cell c Y X else fill).
  { intros c Rc Cc.
    destruct (roi_pixel_Z c (Z.quot y0 2) (Z.quot x0 2) (Z.quot (r + over) 2)
                (2 * Z.max (rows c) (cols c)) fill) as (mc & c' & Emc & Ec & Smc & Vmc & (Rc' & Cc' & Vc')).
    exists c'. split; [exact Ec|]. split; [congruence|]. split; [congruence|].
    intros Y X HY HX. rewrite Vc' by (rewrite ?Rc, ?Cc; assumption).
    assert (Eb : Z.quot big 2 = 2 * Z.max (rows c) (cols c)).
    { unfold big. rewrite (Z.mul_comm 2), Z.quot_mul by discriminate. rewrite Rc, Cc. lia. }
    assert (Eqv : cell mc Y X = keep Y X).
    { apply Bool.eq_iff_eq_true. unfold keep. rewrite Vmc by (rewrite ?Rc, ?Cc; assumption).
      rewrite Vm by lia. rewrite Eb.
      rewrite (Z.mul_comm 2 Y), (Z.mul_comm 2 X), !Z.div_mul by lia. reflexivity. }
    rewrite Eqv. reflexivity. }
  destruct (Hcomp (sI s) I1 I2) as (i' & Ei & Ri & Ci & Vi).
  destruct (Hcomp (sQ s) Q1 Q2) as (q' & Eq & Rq & Cq & Vq).
  destruct (Hcomp (sU s) U1 U2) as (u' & Eu & Ru & Cu & Vu).
  unfold mask_raw in E. fold big in E. rewrite Ed in E. cbn [bind] in E.
  rewrite Ei in E. cbn [bind] in E. rewrite Eq in E. cbn [bind] in E. rewrite Eu in E. cbn [bind] in E.
  injection E as <- <-. exists keep. split; [split; assumption|]. split.
  - intros y x Hy Hx. rewrite Vd by assumption.
    assert (Y0 : 0 <= y / 2 < rows data / 2) by (split; [apply Z.div_pos; lia|apply Z.div_lt_upper_bound; lia]).
    assert (X0 : 0 <= x / 2 < cols data / 2) by (split; [apply Z.div_pos; lia|apply Z.div_lt_upper_bound; lia]).
    assert (Eqv : cell m y x = keep (y / 2) (x / 2)).
    { apply Bool.eq_iff_eq_true. unfold keep. rewrite !Vm by lia.
      rewrite !(Z.mul_comm 2), !Z.div_mul by lia. reflexivity. }
    rewrite Eqv. reflexivity.
  - cbn [stokes_is]. unfold stokes_is. cbn [sI sQ sU]. split; [auto|]. split; [auto|]. split; [auto|].
    intros Y X HY HX. split; [|split]; auto.
Qed.

Lemma mask_shows a (data : arr R) s y0 x0 r over data' s' :
  arrangement_ok a -> mosaic data ->
  (let p := sample data in stokes_is s (rows data / 2) (cols data / 2)
     (fun Y X => (p 0%Z Y X + p 1%Z Y X + p 2%Z Y X + p 3%Z Y X) / 2)%R
     (fun Y X => p (p0 a) Y X - p (p90 a) Y X)%R (fun Y X => p (p45 a) Y X - p (pm45 a) Y X)%R) ->
  mask_raw data s y0 x0 r over 0%R = Ok (data', s') ->
  (let p := sample data' in stokes_is s' (rows data' / 2) (cols data' / 2)
     (fun Y X => (p 0%Z Y X + p 1%Z Y X + p 2%Z Y X + p 3%Z Y X) / 2)%R
     (fun Y X => p (p0 a) Y X - p (p90 a) Y X)%R (fun Y X => p (p45 a) Y X - p (pm45 a) Y X)%R).
Proof.
  cbv zeta. intros (A1 & A2 & A3 & A4 & _) Hm (I0 & Q0 & U0 & V0) E.
  destruct (mask_cells data s y0 x0 r over 0%R data' s' Hm I0 Q0 U0 E) as (keep & (Rd & Cd) & Vd & (I1 & Q1 & U1 & V1)).
  rewrite Rd, Cd. split; [exact I1|]. split; [exact Q1|]. split; [exact U1|]. intros Y X HY HX.
  destruct (V1 Y X HY HX) as (W1 & W2 & W3). destruct (V0 Y X HY HX) as (T1 & T2 & T3).
  rewrite W1, W2, W3, T1, T2, T3.
  assert (Hsam : forall k, 0 <= k < 4 -> sample data' k Y X = if keep Y X then sample data k Y X else 0%R).
  { intros k Hk. destruct (sample_in data k Y X Hm Hk HY HX) as (B1 & B2 & B3 & B4).
    unfold sample. rewrite Vd by assumption. rewrite B3, B4. reflexivity. }
  rewrite !Hsam by lia. destruct (keep Y X); repeat split; lra.
Qed.

Lemma c102_shows hist h i v W y0 x0 r over :
  reached hist h -> view_of h i = Some v -> v_demosaiced v = false -> shows_its_data v ->
  exists h' u, exec W (MaskOcculter i y0 x0 r over 0%R) h = (h', Ok None) /\ view_of h' i = Some u /\
    v_demosaiced u = false /\ shows_its_data u.
Proof.
  intros Hr Ev Hf (Hm & Hs). destruct (c102_raw hist h i v W y0 x0 r over 0%R Hr Ev Hf) as (h' & u & E & Eu & Ew & Fu & Du & _).
  exists h', u. split; [exact E|]. split; [exact Eu|]. split; [exact Fu|].
  assert (Sh : same_shape (v_data u) (v_data v)).
  { unfold mask_raw in Ew. apply bind_ok in Ew. destruct Ew as (d & Ed & Ew).
    destruct (roi_super_Z (v_data v) y0 x0 (r + over) (2 * Z.max (rows (v_data v)) (cols (v_data v))) 0%R Hm)
      as (m & d' & _ & Ed' & _ & _ & (R & C & _)). rewrite Ed in Ed'. injection Ed' as <-.
    apply bind_ok in Ew. destruct Ew as (ti & _ & Ew). apply bind_ok in Ew. destruct Ew as (tq & _ & Ew).
    apply bind_ok in Ew. destruct Ew as (tu & _ & Ew). injection Ew as <- _. split; assumption. }
  split; [exact (mosaic_shape _ _ Sh Hm)|]. rewrite Du. intros a Ha.
  exact (mask_shows a _ _ _ _ _ _ _ _ (proj1 Ha) Hm (Hs a Ha) Ew).
Qed.

(** ** Other images *)
Lemma mask_stokes x h y0 x0 r over fill x' h' res :
  obj_ok h x -> mask_occulter y0 x0 r over fill (x, h) = ((x', h'), res) -> i_stokes x' = i_stokes x.
Proof.
  intros Ox E. destruct (ok_data _ _ Ox) as (d & Ed & Hm & _).
  destruct (masked_data_ok x y0 x0 (r + over) fill _ Hm) as (d' & Ed' & _).
  destruct (i_demosaiced x) eqn:F.
  - destruct Ox as [_ _ _ O4 O5 O6]. destruct (i_demos x) as [p|] eqn:Ep; [|exfalso; exact (O5 F eq_refl)].
    destruct (nth_error_lt _ _ (O4 p eq_refl)) as (q & Eq).
    rewrite (mask_demosaiced_is x h y0 x0 r over fill d d' p q F Ed Ed' Ep Eq) in E.
    destruct (mask_quad (masked_data x y0 x0 (r + over) fill) q) as [q'|e|].
    + pose proof (overwrite_same (masked_part y0 x0 (r + over) fill) (i_stokes x)
        (with_quad (length (quads h)) (with_data (length (arrays h)) d' x)) (add_quad q' (after_data d' x h))) as Hs.
      rewrite E in Hs. cbn [fst] in Hs. subst x'. reflexivity.
    + injection E as <- _ _. reflexivity.
    + injection E as <- _ _. reflexivity.
  - rewrite (mask_raw_is x h y0 x0 r over fill d d' F Ed Ed') in E.
    pose proof (overwrite_same (masked_part (Z.quot y0 2) (Z.quot x0 2) (Z.quot (r + over) 2) fill) (i_stokes x)
      (with_data (length (arrays h)) d' x) (after_data d' x h)) as Hs.
    rewrite E in Hs. cbn [fst] in Hs. subst x'. reflexivity.
Qed.

Lemma c102_others hist h i j u v W y0 x0 r over fill h' res :
  reached hist h -> i <> j -> view_of h i = Some u -> view_of h j = Some v -> header_fits u ->
  exec W (MaskOcculter i y0 x0 r over fill) h = (h', res) ->
  view_of h' j = Some v \/
  (v_vector v = v_vector u /\
   exists w, view_of h' i = Some w /\ view_of h' j = Some (with_vector v (v_vector w))).
Proof.
  intros Hr Hij Eu Ev Hfit E. pose proof (reached_ok _ _ Hr) as Hok. apply view_inv in Eu. destruct Eu as (x & Ex & El).
  pose proof (obj_ok_at _ _ _ Hok Ex) as Ox. pose proof (look_inv _ _ _ El) as (L1 & L2 & L3 & _).
  apply view_inv in Ev. destruct Ev as (xj & Exj & Elj). pose proof (look_inv _ _ _ Elj) as (N1 & N2 & N3 & N4 & N5 & N6 & N7 & N8 & N9 & N10 & N11).
  cbn [exec] in E. unfold in_place in E. rewrite Ex in E.
  destruct (mask_occulter y0 x0 r over fill (x, h)) as [[x' h1] r1] eqn:Em.
  injection E as <- _. pose proof (sat_mask _ _ _ _ _ _ _ _ _ _ Em) as V.
  pose proof (mask_stokes _ _ _ _ _ _ _ _ _ _ Ox Em) as Hst.
  pose proof (invs_mask (rows (v_data u)) (cols (v_data u)) y0 x0 r over fill (x, h) (conj Ox Hok)) as Hz.
  assert (Hz0 : sized (rows (v_data u)) (cols (v_data u)) (x, h)) by (exists (v_data u); auto).
  specialize (Hz Hz0). rewrite Em in Hz. destruct Hz as (A1 & Hz & _).
  assert (Hh : headers h1 = headers h).
  { eapply headers_kept; [exact V|exact Ox| |exact Hz]. rewrite L2. destruct Hfit as (F1 & F2).
    rewrite <- F1, <- F2. destruct (v_header u); reflexivity. }
  rewrite (ev_images _ _ _ _ _ V).
  assert (Ej : nth_error (replace (images h) i x') j = Some xj) by (rewrite replace_other by congruence; exact Exj).
  assert (Ei : nth_error (replace (images h) i x') i = Some x') by (apply replace_same; exact (lt_nth_error _ _ _ Ex)).
  assert (Hl : forall s, nth_error (vectors h1) (i_stokes xj) = Some s -> look h1 xj = Some (with_vector v s)).
  { intros s Es. unfold look. rewrite (ev_arrays _ _ _ _ _ V _ _ N1), Hh, N2, Es. unfold with_vector.
    rewrite <- N5, <- N6, <- N7, <- N8, <- N9, <- N10, <- N11. destruct (i_demos xj) as [p|].
    - destruct N4 as (q & Q1 & Q2). rewrite (ev_quads _ _ _ _ _ V _ _ Q1), Q2. reflexivity.
    - rewrite N4. reflexivity. }
  destruct (ev_vectors _ _ _ _ _ V _ _ N3) as [Es|(_ & Ep)].
  - left. unfold view_of. cbn [put_images images]. rewrite Ej, look_put_images, (Hl _ Es).
    unfold with_vector. destruct v; reflexivity.
  - right. split; [congruence|]. destruct (look_ok _ _ (proj1 A1)) as (w & Ew). exists w.
    unfold view_of. cbn [put_images images]. rewrite Ei, Ej, !look_put_images. split; [exact Ew|]. apply Hl.
    apply look_inv in Ew. cbn [fst snd] in Ew. destruct Ew as (_ & _ & W3 & _). congruence.
Qed.

(** ** A copy *)
Lemma c102_copy hist h i v W W' y0 x0 r over fill :
  reached hist h -> view_of h i = Some v -> v_demosaiced v = false ->
  exists h1 k h2 u w,
    exec W (CopyOf i None None None) h = (h1, Ok (Some k)) /\ k <> i /\ view_of h1 k = Some v /\
    exec W' (MaskOcculter k y0 x0 r over fill) h1 = (h2, Ok None) /\
    view_of h2 i = Some u /\ view_of h2 k = Some w /\ v_data u = v_data v /\
    mask_raw (v_data v) (v_vector v) y0 x0 r over fill = Ok (v_data w, v_vector u).
Proof.
  intros Hr Ev Hf. destruct (c62_ignored W h i v None Ev) as (h1 & k & Ec & Ek).
  assert (Hr1 : reached (hist ++ [(W, CopyOf i None None None)]) h1).
  { destruct Hr as (Ha & Eh). split.
    - apply Forall_app. split; [exact Ha|]. repeat constructor.
    - rewrite run_app. cbn [fst snd]. rewrite <- Eh, Ec. reflexivity. }
  destruct (c102_raw _ h1 k v W' y0 x0 r over fill Hr1 Ek Hf) as (h2 & w & Em & Ew & Er & _).
  pose proof (reached_ok _ _ Hr) as Hok. pose proof (reached_ok _ _ Hr1) as Hok1.
  apply view_inv in Ev. destruct Ev as (x & Ex & El).
  assert (Hx : nth_error (images h1) k = Some x /\ nth_error (images h1) i = Some x /\ k <> i /\ look h1 x = Some v).
  { cbn [exec] in Ec. rewrite Ex in Ec. unfold copy_of in Ec. pose proof (look_choose None h x) as Hl.
    destruct (choose_grows None h) as (_ & Gi).
    destruct (choose_dic None h) as [d0 h0]. cbn [snd] in Hl, Gi.
    unfold returning, corrections, mbind, ret in Ec. injection Ec as <- <-. cbn [put_images images]. rewrite Gi.
    split; [rewrite nth_error_app2, Nat.sub_diag by lia; reflexivity|].
    split; [rewrite nth_error_app1 by exact (lt_nth_error _ _ _ Ex); exact Ex|].
    split; [pose proof (lt_nth_error _ _ _ Ex); lia|]. rewrite look_put_images. congruence. }
  destruct Hx as (Ek1 & Ei1 & Hne & El1). pose proof (obj_ok_at _ _ _ Hok1 Ek1) as Ox.
  pose proof Em as Em'. cbn [exec] in Em'. unfold in_place in Em'. rewrite Ek1 in Em'.
  destruct (mask_occulter y0 x0 r over fill (x, h1)) as [[x' h3] r3] eqn:E3. injection Em' as <- _.
  pose proof (sat_mask _ _ _ _ _ _ _ _ _ _ E3) as V. pose proof (mask_stokes _ _ _ _ _ _ _ _ _ _ Ox E3) as Hst.
  assert (Ei3 : nth_error (images (put_images (replace (images h3) k x') h3)) i = Some x).
  { cbn [put_images images]. rewrite replace_other by congruence. rewrite (ev_images _ _ _ _ _ V). exact Ei1. }
  assert (Ek3 : nth_error (images (put_images (replace (images h3) k x') h3)) k = Some x').
  { cbn [put_images images]. apply replace_same. rewrite (ev_images _ _ _ _ _ V). exact (lt_nth_error _ _ _ Ek1). }
  assert (Ox3 : obj_ok h3 x) by exact (obj_ok_evolves _ _ _ _ _ _ V Ox).
  destruct (look_ok _ _ Ox3) as (u & Eu). exists h1, k. eexists. exists u, w.
  split; [exact Ec|]. split; [exact Hne|]. split; [exact Ek|]. split; [exact Em|].
  split; [unfold view_of; rewrite Ei3; exact Eu|]. split; [exact Ew|].
  unfold view_of in Ew. rewrite Ek3, look_put_images in Ew.
  apply look_inv in Eu. apply look_inv in Ew. apply look_inv in El1.
  destruct Eu as (U1 & _ & U3 & _). destruct Ew as (_ & _ & W3 & _). destruct El1 as (L1 & _).
  split; [pose proof (ev_arrays _ _ _ _ _ V _ _ L1); congruence|].
  rewrite Er. do 2 f_equal. congruence.
Qed.

(** ** A demosaiced image *)
Lemma masked_data_far (x : image) (d d' : arr R) y0 x0 r fill :
  mosaic d -> i_height x = rows d -> i_width x = cols d -> 0 <= y0 < rows d -> 0 <= x0 < cols d ->
  masked_data x y0 x0 r fill d = Ok d' ->
  holds d' d (fun y x => if Rlt_dec (IZR (Z.quot r 2)) (dist (y / 2) (x / 2) (y0 / 2) (x0 / 2))
                         then cell d y x else fill).
Proof.
  intros Hm Hh Hw Hy0 Hx0 E. unfold masked_data, limit in E. rewrite Hh, Hw in E.
  pose (z := mkarr (rows d / 2) (cols d / 2) (fun _ _ => 0%R)).
  destruct (mask_raw d (mkstokes z z z) y0 x0 r 0 fill) as [[d1 s1]|e|] eqn:Er.
  - destruct (c37_data d (mkstokes z z z) y0 x0 r 0 fill d1 s1 Hm eq_refl eq_refl Hy0 Hx0 Er) as (H1 & _).
    rewrite Z.add_0_r in H1.
    unfold mask_raw in Er. cbv zeta in Er. rewrite Z.add_0_r, E in Er. cbn [bind] in Er.
    apply bind_ok in Er. destruct Er as (ti & _ & Er). apply bind_ok in Er. destruct Er as (tq & _ & Er).
    apply bind_ok in Er. destruct Er as (tu & _ & Er). injection Er as -> _. exact H1.
  - exfalso. unfold mask_raw in Er. cbv zeta in Er. rewrite Z.add_0_r, E in Er. cbn [bind sI sQ sU] in Er.
    destruct (masked_part_ok (Z.quot y0 2) (Z.quot x0 2) (Z.quot r 2) fill z) as (z' & Ez). unfold masked_part in Ez.
    rewrite Ez in Er. cbn [bind] in Er. discriminate.
  - exfalso. unfold mask_raw in Er. cbv zeta in Er. rewrite Z.add_0_r, E in Er. cbn [bind sI sQ sU] in Er.
    destruct (masked_part_ok (Z.quot y0 2) (Z.quot x0 2) (Z.quot r 2) fill z) as (z' & Ez). unfold masked_part in Ez.
    rewrite Ez in Er. cbn [bind] in Er. discriminate.
Qed.
Lemma masked_part_far (c c' : arr R) y0 x0 r fill :
  0 <= y0 < rows c -> 0 <= x0 < cols c -> masked_part y0 x0 r fill c = Ok c' ->
  holds c' c (fun y x => if Rlt_dec (IZR r) (dist y x y0 x0) then cell c y x else fill).
Proof.
  intros Hy0 Hx0 E. unfold masked_part in E.
  destruct (roi_pixel_Z c y0 x0 r (2 * Z.max (rows c) (cols c)) fill) as (m & c1 & _ & E1 & Sm & Vm & (R & C & V)).
  rewrite E in E1. injection E1 as <-. split; [exact R|]. split; [exact C|]. intros y x Hy Hx. rewrite V by assumption.
  assert (Far : (dist y x y0 x0 <= IZR (2 * Z.max (rows c) (cols c)))%R).
  { apply dist_le; [lia|]. set (M := Z.max (rows c) (cols c)) in *.
    assert (- M <= y - y0 <= M) by lia. assert (- M <= x - x0 <= M) by lia. nia. }
  destruct (cell m y x) eqn:Em.
  - apply Vm in Em; [|assumption..]. destruct (Rlt_dec (IZR r) (dist y x y0 x0)); [reflexivity|]. exfalso. lra.
  - destruct (Rlt_dec (IZR r) (dist y x y0 x0)) as [Hlt|]; [|reflexivity]. exfalso.
    assert (cell m y x = true) by (apply Vm; [assumption|assumption|split; lra]). congruence.
Qed.

Lemma c102_demosaiced hist h i v q W y0 x0 r over fill :
  reached hist h -> view_of h i = Some v -> v_demosaiced v = true -> v_quad v = Some q ->
  0 <= y0 < rows (v_data v) -> 0 <= x0 < cols (v_data v) ->
  (forall k, 0 <= k < 4 -> same_shape (qnth q k) (v_data v)) ->
  same_shape (sI (v_vector v)) (v_data v) -> same_shape (sQ (v_vector v)) (v_data v) ->
  same_shape (sU (v_vector v)) (v_data v) ->
  exists h' u q', exec W (MaskOcculter i y0 x0 r over fill) h = (h', Ok None) /\
    view_of h' i = Some u /\ v_demosaiced u = true /\ v_quad u = Some q' /\
    (let beyond y x := Rlt_dec (IZR (Z.quot (r + over) 2)) (dist (y / 2) (x / 2) (y0 / 2) (x0 / 2)) in
     holds (v_data u) (v_data v) (fun y x => if beyond y x then cell (v_data v) y x else fill) /\
     forall k, 0 <= k < 4 -> holds (qnth q' k) (qnth q k) (fun y x => if beyond y x then cell (qnth q k) y x else fill)) /\
    (let beyond y x := Rlt_dec (IZR (r + over)) (dist y x y0 x0) in
     stokes_is (v_vector u) (rows (v_data v)) (cols (v_data v))
       (fun y x => if beyond y x then cell (sI (v_vector v)) y x else fill)
       (fun y x => if beyond y x then cell (sQ (v_vector v)) y x else fill)
       (fun y x => if beyond y x then cell (sU (v_vector v)) y x else fill)).
Proof.
  intros Hr Ev Hf Hq Hy0 Hx0 Sq SI SQ SU. pose proof (reached_ok _ _ Hr) as Hok. apply view_inv in Ev. destruct Ev as (x & Ex & El).
  pose proof (obj_ok_at _ _ _ Hok Ex) as Ox. pose proof (look_inv _ _ _ El) as (L1 & L2 & L3 & L4 & L5 & L6 & L7 & L8 & L9 & L10 & L11).
  destruct (ok_data _ _ Ox) as (d & Ed & Hm & Hh & Hw). assert (d = v_data v) as -> by congruence.
  destruct (masked_data_ok x y0 x0 (r + over) fill _ Hm) as (d' & Ed' & Hs').
  destruct (i_demos x) as [p|] eqn:Ep; [|congruence]. destruct L4 as (q1 & Eq & Eq1). assert (q1 = q) as -> by congruence.
  assert (Mk : forall k, 0 <= k < 4 -> mosaic (qnth q k)) by (intros k Hk; exact (mosaic_shape _ _ (Sq k Hk) Hm)).
  destruct (masked_data_ok x y0 x0 (r + over) fill _ (Mk 0 ltac:(lia))) as (a0 & Ea0 & _).
  destruct (masked_data_ok x y0 x0 (r + over) fill _ (Mk 1 ltac:(lia))) as (a1 & Ea1 & _).
  destruct (masked_data_ok x y0 x0 (r + over) fill _ (Mk 2 ltac:(lia))) as (a2 & Ea2 & _).
  destruct (masked_data_ok x y0 x0 (r + over) fill _ (Mk 3 ltac:(lia))) as (a3 & Ea3 & _).
  set (q' := mkquad a0 a1 a2 a3).
  assert (Emq : mask_quad (masked_data x y0 x0 (r + over) fill) q = Ok q').
  { unfold mask_quad. change (q0 q) with (qnth q 0). change (Demosaic.q1 q) with (qnth q 1).
    change (q2 q) with (qnth q 2). change (q3 q) with (qnth q 3).
    rewrite Ea0. cbn [bind]. rewrite Ea1. cbn [bind]. rewrite Ea2. cbn [bind]. rewrite Ea3. reflexivity. }
  destruct (masked_part_ok y0 x0 (r + over) fill (sI (v_vector v))) as (ti & Ei).
  destruct (masked_part_ok y0 x0 (r + over) fill (sQ (v_vector v))) as (tq & Etq).
  destruct (masked_part_ok y0 x0 (r + over) fill (sU (v_vector v))) as (tu & Eu).
  assert (Em : mask_occulter y0 x0 r over fill (x, h) =
    ((with_quad (length (quads h)) (with_data (length (arrays h)) d' x),
      put_vector (i_stokes x) (mkstokes ti tq tu) (add_quad q' (after_data d' x h))), Ok tt)).
  { rewrite (mask_demosaiced_is x h y0 x0 r over fill (v_data v) d' p q) by (congruence || assumption).
    rewrite Emq. apply (overwrite_done _ _ _ _ (v_vector v)); cbn [add_quad after_data vectors]; assumption. }
  cbn [exec]. unfold in_place. rewrite Ex, Em. cbn [on_ok].
  eexists. exists (mkview d' (rows d') (cols d') (mkheader (cols d') (rows d')) (mkstokes ti tq tu) (Some q') (v_dic v)
    true (v_demodulated v) (v_dark v) (v_flat v)), q'.
  split; [reflexivity|]. split.
  { unfold view_of. cbn [put_images images put_vector add_quad after_data]. rewrite replace_same by exact (lt_nth_error _ _ _ Ex).
    unfold look. cbn [put_images arrays headers vectors quads put_vector add_quad after_data with_quad with_data i_data i_header i_stokes i_demos
      i_height i_width i_dic i_demosaiced i_demodulated i_dark i_flat].
    rewrite nth_error_app2, Nat.sub_diag by lia. cbn [nth_error].
    rewrite replace_same by exact (lt_nth_error _ _ _ L2). rewrite replace_same by exact (lt_nth_error _ _ _ L3).
    rewrite nth_error_app2, Nat.sub_diag by lia. cbn [nth_error option_map].
    rewrite L7, L9, L10, L11. reflexivity. }
  cbn [v_demosaiced v_quad v_data v_vector]. split; [reflexivity|]. split; [reflexivity|]. split.
  - cbv zeta. split; [exact (masked_data_far x _ _ _ _ _ _ Hm Hh Hw Hy0 Hx0 Ed')|].
    assert (G : forall k b, 0 <= k < 4 -> masked_data x y0 x0 (r + over) fill (qnth q k) = Ok b ->
      holds b (qnth q k) (fun y x => if Rlt_dec (IZR (Z.quot (r + over) 2)) (dist (y / 2) (x / 2) (y0 / 2) (x0 / 2))
        then cell (qnth q k) y x else fill)).
    { intros k b Hk Eb. destruct (Sq k Hk) as (S1 & S2).
      exact (masked_data_far x _ _ _ _ _ _ (Mk k Hk) (eq_trans Hh (eq_sym S1)) (eq_trans Hw (eq_sym S2))
        ltac:(rewrite S1; exact Hy0) ltac:(rewrite S2; exact Hx0) Eb). }
    intros k Hk. assert (k = 0 \/ k = 1 \/ k = 2 \/ k = 3) as [->|[->|[->| ->]]] by lia; apply G; assumption || lia.
  - cbv zeta. destruct SI as (S1 & S2), SQ as (S3 & S4), SU as (S5 & S6).
    destruct (masked_part_far _ _ _ _ _ _ ltac:(rewrite S1; exact Hy0) ltac:(rewrite S2; exact Hx0) Ei) as (R1 & C1 & V1).
    destruct (masked_part_far _ _ _ _ _ _ ltac:(rewrite S3; exact Hy0) ltac:(rewrite S4; exact Hx0) Etq) as (R2 & C2 & V2).
    destruct (masked_part_far _ _ _ _ _ _ ltac:(rewrite S5; exact Hy0) ltac:(rewrite S6; exact Hx0) Eu) as (R3 & C3 & V3).
    unfold stokes_is. cbn [sI sQ sU]. split; [split; congruence|]. split; [split; congruence|]. split; [split; congruence|].
    intros y z Hy Hz. rewrite V1, V2, V3 by lia. auto.
Qed.

(** ** Concrete images *)
Lemma c102_dark :
  exists h u q, reached (after_calls [Create (ones 4 4) None None None; DemosaicImage 0 "adjacent";
                                      MaskOcculter 0 0 0 1 0 0%R]) h /\
    view_of h 0 = Some u /\ v_demosaiced u = true /\ v_quad u = Some q /\
    (cell (v_data u) 1 1 = 0 /\ (forall k, (0 <= k < 4)%Z -> cell (qnth q k) 1 1 = 0) /\
     cell (sI (v_vector u)) 1 1 = 2)%R.
Proof.
  set (h1 := run_history (after_calls [Create (ones 4 4) None None None; DemosaicImage 0 "adjacent"]) empty_heap).
  assert (Hr : reached (after_calls [Create (ones 4 4) None None None; DemosaicImage 0 "adjacent"]) h1).
  { split; [|reflexivity]. unfold arrays_exist, after_calls. cbn. repeat constructor; cbn; lia. }
  assert (Hv : exists v, view_of h1 0 = Some v /\
    (v_demosaiced v = true /\ (rows (v_data v) = 4 /\ cols (v_data v) = 4) /\
     (exists q, v_quad v = Some q /\ forall k, 0 <= k < 4 -> rows (qnth q k) = 4 /\ cols (qnth q k) = 4) /\
     (rows (sI (v_vector v)) = 4 /\ cols (sI (v_vector v)) = 4) /\
     (rows (sQ (v_vector v)) = 4 /\ cols (sQ (v_vector v)) = 4) /\
     (rows (sU (v_vector v)) = 4 /\ cols (sU (v_vector v)) = 4) /\ cell (sI (v_vector v)) 1 1 = 2%R)).
  { apply shown. cbv -[Rleb Rplus Rminus Rmult Rdiv IZR Rle_dec qnth Z.le Z.lt]. split; [reflexivity|]. split; [auto|].
    split; [|split; [auto|split; [auto|split; [auto|lra]]]].
    eexists. split; [reflexivity|]. intros k Hk.
    assert (k = 0 \/ k = 1 \/ k = 2 \/ k = 3) as [->|[->|[->| ->]]] by lia; split; reflexivity. }
  destruct Hv as (v & Ev & Hd & (D1 & D2) & (q & Eq & Hq) & (I1 & I2) & (Q1 & Q2) & (U1 & U2) & Hi).
  destruct (c102_demosaiced _ h1 0 v q still 0 0 1 0 0%R Hr Ev Hd Eq) as (h2 & u & q' & E & Eu & Hu & Equ & (Hdata & Hquad) & (_ & _ & _ & Hvec)).
  - rewrite D1. lia.
  - rewrite D2. lia.
  - intros k Hk. destruct (Hq k Hk). split; congruence.
  - split; congruence.
  - split; congruence.
  - split; congruence.
  - exists h2, u, q'. split.
    { split.
      - unfold arrays_exist, after_calls. cbn. repeat constructor; cbn; lia.
      - change (after_calls [Create (ones 4 4) None None None; DemosaicImage 0 "adjacent"; MaskOcculter 0 0 0 1 0 0%R])
          with (after_calls [Create (ones 4 4) None None None; DemosaicImage 0 "adjacent"] ++ [(still, MaskOcculter 0 0 0 1 0 0%R)]).
        rewrite run_app. cbn [fst snd]. fold h1. rewrite E. reflexivity. }
    split; [exact Eu|]. split; [exact Hu|]. split; [exact Equ|].
    assert (Hno : ~ (IZR (Z.quot (1 + 0) 2) < dist (1 / 2) (1 / 2) (0 / 2) (0 / 2))%R).
    { change (1 / 2) with 0. change (0 / 2) with 0. rewrite dist_self. change (Z.quot (1 + 0) 2) with 0. lra. }
    assert (Hyes : (IZR (1 + 0) < dist 1 1 0 0)%R).
    { unfold dist. cbn. rewrite <- sqrt_1 at 1. apply sqrt_lt_1; lra. }
    split; [|split].
    + destruct Hdata as (_ & _ & V). rewrite V by lia.
      destruct (Rlt_dec (IZR (Z.quot (1 + 0) 2)) (dist (1 / 2) (1 / 2) (0 / 2) (0 / 2))); [contradiction|reflexivity].
    + intros k Hk. destruct (Hquad k Hk) as (_ & _ & V). destruct (Hq k Hk) as (K1 & K2). rewrite V by lia.
      destruct (Rlt_dec (IZR (Z.quot (1 + 0) 2)) (dist (1 / 2) (1 / 2) (0 / 2) (0 / 2))); [contradiction|reflexivity].
    + destruct (Hvec 1 1 ltac:(lia) ltac:(lia)) as (V & _). rewrite V.
      destruct (Rlt_dec (IZR (1 + 0)) (dist 1 1 0 0)); [exact Hi|contradiction].
Qed.

Lemma c102_case :
  let calls := [Create (ones 4 4) None None None] in
  let hist := after_calls calls in
  let h := run_history hist empty_heap in
  reached hist h /\
  (exists v, view_of h 0 = Some v /\ v_demosaiced v = false /\ header_fits v /\ shows_its_data v) /\
  exists h2 u, run_history (after_calls [CopyOf 0 None None None; MaskOcculter 1 0 0 1 0 0%R]) h = h2 /\
    view_of h2 0 = Some u /\ (cell (v_data u) 0 0 = 1 /\ cell (sI (v_vector u)) 0 0 = 0)%R.
Proof.
  cbv zeta. set (hist := after_calls [Create (ones 4 4) None None None]). set (h := run_history hist empty_heap).
  assert (Hr : reached hist h).
  { split; [|reflexivity]. unfold hist, arrays_exist, after_calls. cbn. repeat constructor; cbn; lia. }
  assert (Hv : exists v, view_of h 0 = Some v /\
    (header_fits v /\ v_data v = ones 4 4 /\ rows (sI (v_vector v)) = 2 /\ cols (sI (v_vector v)) = 2)).
  { apply shown. vm_compute. auto 6. }
  destruct Hv as (v & Ev & Hf & Hd & R1 & C1).
  destruct (c55_reflects hist h 0 v Hr ltac:(unfold hist, after_calls; cbn; repeat constructor) Ev) as (Hn & Hs).
  split; [exact Hr|]. split; [exists v; auto|].
  destruct (c102_copy hist h 0 v still still 0 0 1 0 0%R Hr Ev Hn)
    as (h1 & k & h2 & u & w & E1 & Hne & Ek & E2 & Eu & Ew & Du & Em).
  assert (k = 1%nat) as ->.
  { assert (Ek' : snd (exec still (CopyOf 0 None None None) h) = Ok (Some 1%nat)) by (vm_compute; reflexivity).
    rewrite E1 in Ek'. cbn [snd] in Ek'. congruence. }
  exists h2, u. split.
  { unfold after_calls, run_history. cbn [map fold_left fst snd]. rewrite E1. cbn [fst]. rewrite E2. reflexivity. }
  split; [exact Eu|]. split; [rewrite Du, Hd; reflexivity|].
  assert (Hm : mosaic (v_data v)) by apply Hs.
  destruct (c37_data (v_data v) (v_vector v) 0 0 1 0 0%R _ _ Hm ltac:(rewrite Hd; exact R1) ltac:(rewrite Hd; exact C1)
    ltac:(rewrite Hd; cbn; lia) ltac:(rewrite Hd; cbn; lia) Em) as (_ & (_ & _ & V)).
  rewrite V by lia. change (0 / 2) with 0. rewrite dist_self. change (Z.quot (1 + 0) 2) with 0.
  destruct (Rlt_dec 0 0); [lra|reflexivity].
Qed.
