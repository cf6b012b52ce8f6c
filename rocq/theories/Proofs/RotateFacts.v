(** Rotation of images by quarter turns. *)
From Coq Require Import Reals Lra Lia.
From Flocq Require Import Core Relative.
From Verif Require Import Base.Base Base.BaseFacts Base.Num Model.Demosaic Model.Stokes Model.ImageObj Model.Rotate
  Proofs.DemosaicFacts Proofs.MosaicFacts Proofs.StokesFacts Proofs.ObjFacts Proofs.ObjInv Proofs.ObjExec Proofs.ObjViews Proofs.ObjMore Spec.ImageSpec Spec.MosaicSpec Spec.RotateSpec.
Local Open Scope R_scope.

(** ** 24-bit floats *)
#[local] Instance p24 : Prec_gt_0 24 := eq_refl.
#[local] Instance v24 : Valid_exp (FLT_exp (-149) 24) := FLT_exp_valid (-149) 24.

Lemma single_exact v : fits_single v -> single v = v.
Proof.
  intros (m & e & (Hm & He) & ->). unfold single. apply round_generic; [apply valid_rnd_N|].
  apply generic_format_FLT. exists (Float radix2 m e); cbn [Fnum Fexp].
  - unfold F2R. cbn [Fnum Fexp]. rewrite bpow_powerRZ. reflexivity.
  - exact Hm.
  - exact He.
Qed.
Lemma single_twice v : single (single v) = single v.
Proof. unfold single. apply round_generic; [apply valid_rnd_N|]. apply generic_format_round; [apply v24|apply valid_rnd_N]. Qed.
Lemma single_error v : powerRZ 2 (-126) <= Rabs v -> Rabs (single v - v) <= / 2 ^ 24 * Rabs v.
Proof.
  intros H. unfold single. replace (/ 2 ^ 24) with (/ 2 * bpow radix2 (- 24 + 1)).
  - apply relative_error_N_FLT; [reflexivity|]. rewrite bpow_powerRZ. exact H.
  - rewrite bpow_powerRZ. change (powerRZ (IZR radix2) (- 24 + 1)) with (/ (2 ^ 23)). cbn [pow]. lra.
Qed.
Lemma single_0 : single 0 = 0.
Proof. apply round_0. apply valid_rnd_N. Qed.
Lemma single_pos v : 0 <= v -> 0 <= single v.
Proof. intros H. rewrite <- single_0. unfold single. apply round_le; [apply v24|apply valid_rnd_N|exact H]. Qed.
Lemma single_neg v : v <= 0 -> single v <= 0.
Proof. intros H. apply Rle_trans with (single 0); [|rewrite single_0; lra]. unfold single. apply round_le; [apply v24|apply valid_rnd_N|exact H]. Qed.

(** ** Pictures *)
Lemma quarter_angle q : IZR (90 * q) - 360 * IZR (Zfloor (IZR (90 * q) / 360)) = IZR (90 * (q mod 4)).
Proof.
  replace (IZR (90 * q) / 360) with (IZR q / IZR 4) by (rewrite mult_IZR; field). rewrite Zfloor_div by lia.
  rewrite <- mult_IZR, <- minus_IZR. f_equal. rewrite (Z.div_mod q 4) at 1 by lia. lia.
Qed.
Lemma Reqb_IZR a b : Reqb (IZR a) (IZR b) = (a =? b)%Z.
Proof. unfold Reqb. destruct (Req_EM_T (IZR a) (IZR b)) as [E|E]; destruct (Z.eqb_spec a b) as [F|F]; try reflexivity; [apply eq_IZR in E; contradiction|subst; contradiction]. Qed.

Definition quarter (q : Z) (a : arr R) : arr R :=
  let p := amap single a in
  let h := rows p in
  let w := cols p in
  if (q =? 0)%Z then p
  else if (q =? 2)%Z then mkarr h w (fun y x => cell p (h - 1 - y) (w - 1 - x))
  else if (q =? 1)%Z && (w =? h)%Z then mkarr w h (fun y x => cell p x (w - 1 - y))
  else if (q =? 3)%Z && (w =? h)%Z then mkarr w h (fun y x => cell p (h - 1 - x) y)
  else if (q =? 1)%Z then affine p (fun y x => ((2 * x + 1 + (h - w)) / 2, (h + w - (2 * y + 1)) / 2)%Z)
  else affine p (fun y x => ((h + w - (2 * x + 1)) / 2, (2 * y + 1 + (w - h)) / 2)%Z).
Lemma pil_quarter other q a : pil_rotate other (IZR (90 * q)) a = quarter (q mod 4) a.
Proof.
  unfold pil_rotate. rewrite quarter_angle. cbv zeta. rewrite !Reqb_IZR.
  assert (H : (0 <= q mod 4 < 4)%Z) by (apply Z.mod_pos_bound; lia). revert H. generalize (q mod 4)%Z. intros r Hr.
  assert (r = 0 \/ r = 1 \/ r = 2 \/ r = 3)%Z as [->|[->|[->| ->]]] by lia; reflexivity.
Qed.

Lemma quarter_shape q a : same_shape (quarter q a) a.
Proof.
  unfold quarter. cbv zeta. change (rows (amap single a)) with (rows a). change (cols (amap single a)) with (cols a).
  destruct (q =? 0)%Z; [split; reflexivity|]. destruct (q =? 2)%Z; [split; reflexivity|].
  destruct (Z.eqb_spec (cols a) (rows a)) as [E|E].
  - rewrite !Bool.andb_true_r. destruct (q =? 1)%Z; [split; cbn; congruence|]. destruct (q =? 3)%Z; [split; cbn; congruence|]. split; reflexivity.
  - rewrite !Bool.andb_false_r. destruct (q =? 1)%Z; split; reflexivity.
Qed.

Lemma affine_in p src y x i j : src y x = (i, j) -> inside (rows p) (cols p) i j -> cell (affine p src) y x = cell p i j.
Proof.
  intros E (H1 & H2). unfold affine. cbn [cell]. rewrite E. 
  replace ((0 <=? i)%Z && (i <? rows p)%Z && (0 <=? j)%Z && (j <? cols p)%Z) with true; [reflexivity|]. symmetry. lia.
Qed.
Lemma affine_out p src y x i j : src y x = (i, j) -> ~ inside (rows p) (cols p) i j -> cell (affine p src) y x = 0.
Proof.
  intros E H. unfold affine. cbn [cell]. rewrite E. 
  destruct ((0 <=? i)%Z && (i <? rows p)%Z && (0 <=? j)%Z && (j <? cols p)%Z) eqn:B; [|reflexivity]. exfalso. apply H. unfold inside. lia.
Qed.

Lemma quarter_turned q a : turned_picture q a (quarter (q mod 4) a).
Proof.
  destruct (quarter_shape (q mod 4) a) as (S1 & S2). split; [exact S1|]. split; [exact S2|]. clear S1 S2. unfold turned. cbv zeta.
  assert (Hr : (0 <= q mod 4 < 4)%Z) by (apply Z.mod_pos_bound; lia). revert Hr. generalize (q mod 4)%Z. clear q. intros r Hr.
  change single with (fun v => single v). 
  assert (C : forall y x, cell (amap single a) y x = single (cell a y x)) by reflexivity.
  unfold quarter. cbv zeta. change (rows (amap single a)) with (rows a). change (cols (amap single a)) with (cols a).
  assert (r = 0 \/ r = 1 \/ r = 2 \/ r = 3)%Z as [->|[->|[->| ->]]] by lia; cbn [Z.eqb Pos.eqb andb].
  - split; intros y x y' x' I I' T; assert (y' = y /\ x' = x) as (-> & ->) by lia; [apply C|contradiction].
  - destruct (Z.eqb_spec (cols a) (rows a)) as [E|E].
    + split; intros y x y' x' I I' T; assert (x' = y /\ cols a - 1 - y' = x)%Z as (E1 & E2) by lia; cbn [cell].
      * rewrite E1, E2. apply C.
      * exfalso. apply I. unfold inside in *. lia.
    + split; intros y x y' x' I I' T; (assert (F : ((2 * x' + 1 + (rows a - cols a)) / 2 = y /\ (rows a + cols a - (2 * y' + 1)) / 2 = x)%Z)
        by (clear - T; Z.to_euclidean_division_equations; lia)); destruct F as (F1 & F2).
      * rewrite (affine_in _ _ _ _ y x); [apply C|rewrite F1, F2; reflexivity|exact I].
      * apply (affine_out _ _ _ _ y x); [rewrite F1, F2; reflexivity|exact I].
  - split; intros y x y' x' I I' T; assert (rows a - 1 - y' = y /\ cols a - 1 - x' = x)%Z as (E1 & E2) by lia; cbn [cell].
    + rewrite E1, E2. apply C.
    + exfalso. apply I. unfold inside in *. lia.
  - destruct (Z.eqb_spec (cols a) (rows a)) as [E|E].
    + split; intros y x y' x' I I' T; assert (y' = x /\ rows a - 1 - x' = y)%Z as (E1 & E2) by lia; cbn [cell].
      * rewrite E1, E2. apply C.
      * exfalso. apply I. unfold inside in *. lia.
    + split; intros y x y' x' I I' T; (assert (F : ((rows a + cols a - (2 * x' + 1)) / 2 = y /\ (2 * y' + 1 + (cols a - rows a)) / 2 = x)%Z)
        by (clear - T; Z.to_euclidean_division_equations; lia)); destruct F as (F1 & F2).
      * rewrite (affine_in _ _ _ _ y x); [apply C|rewrite F1, F2; reflexivity|exact I].
      * apply (affine_out _ _ _ _ y x); [rewrite F1, F2; reflexivity|exact I].
Qed.

Lemma quarter_corners q a : turned_to_corners q a (quarter (q mod 4) a).
Proof.
  destruct (quarter_shape (q mod 4) a) as (S1 & S2). split; [exact S1|]. split; [exact S2|]. clear S1 S2. unfold turned_corner. cbv zeta.
  assert (Hr : (0 <= q mod 4 < 4)%Z) by (apply Z.mod_pos_bound; lia). revert Hr. generalize (q mod 4)%Z. clear q. intros r Hr.
  assert (C : forall y x, cell (amap single a) y x = single (cell a y x)) by reflexivity.
  unfold quarter. cbv zeta. change (rows (amap single a)) with (rows a). change (cols (amap single a)) with (cols a).
  assert (r = 0 \/ r = 1 \/ r = 2 \/ r = 3)%Z as [->|[->|[->| ->]]] by lia; cbn [Z.eqb Pos.eqb andb].
  - split; intros y x y' x' I I' T; exfalso; clear - T; lia.
  - destruct (Z.eqb_spec (cols a) (rows a)) as [E|E]; [split; intros y x y' x' I I' T; exfalso; clear - T E; lia|].
    split; intros y x y' x' I I' T; (assert (F : ((2 * x' + 1 + (rows a - cols a)) / 2 = y /\ (rows a + cols a - (2 * y' + 1)) / 2 = x)%Z)
        by (clear - T; Z.to_euclidean_division_equations; lia)); destruct F as (F1 & F2).
    + rewrite (affine_in _ _ _ _ y x); [apply C|rewrite F1, F2; reflexivity|exact I].
    + apply (affine_out _ _ _ _ y x); [rewrite F1, F2; reflexivity|exact I].
  - split; intros y x y' x' I I' T; exfalso; clear - T; lia.
  - destruct (Z.eqb_spec (cols a) (rows a)) as [E|E]; [split; intros y x y' x' I I' T; exfalso; clear - T E; lia|].
    split; intros y x y' x' I I' T; (assert (F : ((rows a + cols a - (2 * x' + 1)) / 2 = y /\ (2 * y' + 1 + (cols a - rows a)) / 2 = x)%Z)
        by (clear - T; Z.to_euclidean_division_equations; lia)); destruct F as (F1 & F2).
    + rewrite (affine_in _ _ _ _ y x); [apply C|rewrite F1, F2; reflexivity|exact I].
    + apply (affine_out _ _ _ _ y x); [rewrite F1, F2; reflexivity|exact I].
Qed.

Lemma corner_covers q h w y' x' : ~ fits q h w -> exists y x, turned_corner q h w y x y' x'.
Proof.
  intros F. unfold turned_corner, fits in *. cbv zeta.
  assert (Hr : (0 <= q mod 4 < 4)%Z) by (apply Z.mod_pos_bound; lia).
  assert (G : ((h + w) mod 2 = 1 /\ q mod 2 = 1)%Z) by (clear - F; Z.to_euclidean_division_equations; lia). destruct G as (G & K). clear F.
  assert (q mod 4 = 1 \/ q mod 4 = 3)%Z as [E|E] by (clear - Hr K; Z.to_euclidean_division_equations; lia).
  - exists (x' + (h - w + 1) / 2)%Z, ((h + w + 1) / 2 - y' - 1)%Z. right. left. clear - E G. Z.to_euclidean_division_equations. lia.
  - exists ((h + w + 1) / 2 - x' - 1)%Z, (y' + (w - h + 1) / 2)%Z. right. right. right. clear - E G. Z.to_euclidean_division_equations. lia.
Qed.
Lemma corner_unique q h w y x y' x' z t : turned_corner q h w y x y' x' -> turned_corner q h w z t y' x' -> y = z /\ x = t.
Proof. unfold turned_corner. cbv zeta. intros [A|[A|[A|A]]] [B|[B|[B|B]]]; lia. Qed.

Lemma turned_covers q h w y' x' : fits q h w -> exists y x, turned q h w y x y' x'.
Proof.
  intros F. unfold turned. cbv zeta.
  assert (Hr : (0 <= q mod 4 < 4)%Z) by (apply Z.mod_pos_bound; lia).
  assert (q mod 4 = 0 \/ q mod 4 = 1 \/ q mod 4 = 2 \/ q mod 4 = 3)%Z as [E|[E|[E|E]]] by lia.
  - exists y', x'. left. lia.
  - assert (G : ((h + w) mod 2 = 0)%Z) by (destruct F as [F|F]; [exfalso; clear - E F; Z.to_euclidean_division_equations; lia|exact F]).
    exists (x' + (h - w) / 2)%Z, ((h + w) / 2 - y' - 1)%Z. right. left. clear - E G. Z.to_euclidean_division_equations. lia.
  - exists (h - 1 - y')%Z, (w - 1 - x')%Z. right. right. left. lia.
  - assert (G : ((h + w) mod 2 = 0)%Z) by (destruct F as [F|F]; [exfalso; clear - E F; Z.to_euclidean_division_equations; lia|exact F]).
    exists ((h + w) / 2 - x' - 1)%Z, (y' + (w - h) / 2)%Z. right. right. right. clear - E G. Z.to_euclidean_division_equations. lia.
Qed.

Lemma turned_unique q h w y x y' x' z t : turned q h w y x y' x' -> turned q h w z t y' x' -> y = z /\ x = t.
Proof. unfold turned. cbv zeta. intros [A|[A|[A|A]]] [B|[B|[B|B]]]; lia. Qed.

(** ** Objects *)
Lemma keep_shape_ok f (T : arr R -> arr R) a : (forall b, f b = Ok (T b)) -> same_shape (T a) a -> keep_shape f a = Ok (T a).
Proof.
  intros Hf (S1 & S2). unfold keep_shape. rewrite Hf. cbn [bind]. unfold same_shapeb. rewrite S1, S2, !Z.eqb_refl. reflexivity.
Qed.

Lemma rotate_exec hist h W i angle v (T : arr R -> arr R) : reached hist h -> view_of h i = Some v ->
  (forall b, turn W angle b = Ok (T b)) -> (forall b, same_shape (T b) b) ->
  exists h' k n, exec W (Rotate i angle) h = (h', Ok (Some k)) /\ view_of h' k = Some n /\
    v_data n = merge_polarizations (mkquad (T (family_image (v_data v) 0)) (T (family_image (v_data v) 1)) (T (family_image (v_data v) 2)) (T (family_image (v_data v) 3))) /\
    v_vector n = mkstokes (T (sI (v_vector v))) (T (sQ (v_vector v))) (T (sU (v_vector v))) /\ v_dic n = v_dic v /\ mosaic (v_data v).
Proof.
  intros Hr Ev Ht Hs. pose proof (reached_ok _ _ Hr) as Hok. apply view_inv in Ev. destruct Ev as (x & Ex & El).
  pose proof (obj_ok_at _ _ _ Hok Ex) as Ox. apply look_inv in El. destruct El as (L1 & _ & L3 & _ & _ & _ & L7 & _).
  destruct (ok_data _ _ Ox) as (d & Ed & Hm & _). assert (d = v_data v) as -> by congruence.
  destruct (split_ok_mosaic _ Hm) as (s & Es). pose proof (split_families _ _ Hm Es) as ->.
  assert (K : forall a, keep_shape (turn W angle) a = Ok (T a)) by (intros a; apply keep_shape_ok; auto).
  set (q := mkquad _ _ _ _). set (t := mkstokes _ _ _).
  assert (E : exists h1 x1, exec W (Rotate i angle) h = (put_images (images h1 ++ [x1]) h1, Ok (Some (length (images h1)))) /\
     nth_error (arrays h1) (i_data x1) = Some (merge_polarizations q) /\ nth_error (vectors h1) (i_stokes x1) = Some t /\ i_dic x1 = i_dic x).
  { cbn [exec]. unfold on_copy. rewrite Ex. unfold my_data, mbind, self, deref, lift, ret. cbn [fst snd]. rewrite L1, Es.
    unfold mask_quad. cbn [q0 q1 q2 q3]. rewrite !K. cbn [bind]. fold q.
    unfold overwrite_vector, mbind, deref, lift, write_vector. cbn [fst snd]. rewrite L3, !K. fold t.
    cbn [vectors arrays headers quads images default_angles].
    set (h1 := mkheap _ _ _ _ _ _). unfold returning, copy_of. destruct (choose_dic None h1) as [dd h2] eqn:Ec.
    rewrite set_data_is. eexists _, _. split; [reflexivity|].
    assert (A2 : vectors h2 = vectors h1).
    { unfold choose_dic in Ec. destruct (default_angles h1); injection Ec as <- <-; reflexivity. }
    unfold with_data, after_data. cbn [arrays vectors i_data i_stokes i_dic]. rewrite nth_error_app2, Nat.sub_diag by lia. cbn [nth_error].
    split; [reflexivity|]. split; [|reflexivity]. rewrite A2. unfold h1. cbn [vectors].
    assert (Hrep : forall (l : list (stokes R)) p a b, replace (replace l p a) p b = replace l p b).
    { induction l as [|z l IH]; intros [|p] a b; cbn; try reflexivity. rewrite IH. reflexivity. }
    rewrite !Hrep. apply replace_same. exact (lt_nth_error _ _ _ L3). }
  destruct E as (h1 & x1 & E & D1 & D2 & D3). eexists _, _. set (h' := put_images _ _) in *.
  assert (Hr' : reached (hist ++ [(W, Rotate i angle)]) h').
  { destruct Hr as (R1 & ->). split; [unfold arrays_exist; apply Forall_app; split; [exact R1|repeat constructor]|].
    rewrite run_app. cbn [fst snd]. rewrite E. reflexivity. }
  destruct (c55_views _ _ (length (images h1)) Hr') as (n & En & _).
  { unfold h'. cbn [put_images images]. rewrite app_length. cbn [length]. lia. }
  exists n. split; [exact E|]. split; [exact En|].
  unfold view_of, h' in En. cbn [put_images images] in En. rewrite nth_error_app2, Nat.sub_diag in En by lia. cbn [nth_error] in En.
  apply look_inv in En. destruct En as (N1 & _ & N3 & _ & _ & _ & N7 & _). cbn [put_images arrays vectors] in N1, N3.
  split; [congruence|]. split; [congruence|]. split; [congruence|exact Hm].
Qed.

Lemma merge_sample (q : quad R) h w k Y X : rows (q0 q) = h -> cols (q0 q) = w -> (0 <= k < 4)%Z -> 
  sample (merge_polarizations q) k Y X = cell (qnth q k) Y X.
Proof.
  intros Hh Hw Hk. unfold sample. rewrite merge_cell. 
  assert (k = 0 \/ k = 1 \/ k = 2 \/ k = 3)%Z as [->|[->|[->| ->]]] by lia; cbn [Z.div Z.modulo Z.div_eucl Z.pos_div_eucl]; f_equal; try (f_equal; Z.to_euclidean_division_equations; lia); Z.to_euclidean_division_equations; lia.
Qed.

Lemma turned_ext q (a b c : arr R) : turned_picture q a b -> rows c = rows b -> cols c = cols b ->
  (forall y x, inside (rows b) (cols b) y x -> cell c y x = cell b y x) -> turned_picture q a c.
Proof.
  intros (H1 & H2 & H3 & H4) E1 E2 E. split; [congruence|]. split; [congruence|]. rewrite H1, H2 in E.
  split; intros y x y' x' I I' Tq; rewrite E by exact I'; [exact (H3 y x y' x' I I' Tq)|exact (H4 y x y' x' I I' Tq)].
Qed.

Lemma c153_gen (P : arr R -> arr R -> Prop) hist h W i q v : (forall a, P a (quarter (q mod 4) a)) ->
  (forall a b c, P a b -> rows b = rows a -> cols b = cols a -> rows c = rows b -> cols c = cols b ->
     (forall y x, inside (rows b) (cols b) y x -> cell c y x = cell b y x) -> P a c) -> reached hist h -> view_of h i = Some v -> pillow W ->
  exists h' k n, exec W (Rotate i (IZR (90 * q))) h = (h', Ok (Some k)) /\ view_of h' k = Some n /\
    rows (v_data n) = rows (v_data v) /\ cols (v_data n) = cols (v_data v) /\ v_dic n = v_dic v /\
    (forall f, (0 <= f < 4)%Z -> P (family_image (v_data v) f) (family_image (v_data n) f)) /\
    P (sI (v_vector v)) (sI (v_vector n)) /\ P (sQ (v_vector v)) (sQ (v_vector n)) /\
    P (sU (v_vector v)) (sU (v_vector n)).
Proof.
  intros HP Hext Hr Hv (other & HW).
  destruct (rotate_exec hist h W i (IZR (90 * q)) v (quarter (q mod 4)) Hr Hv) as (h' & k & n & E & V & D & S & Dc & M).
  { intros b. rewrite HW, pil_quarter. reflexivity. }
  { intros b. apply quarter_shape. }
  exists h', k, n. split; [exact E|]. split; [exact V|]. pose proof M as (M1 & M2 & M3 & M4).
  assert (Rn : rows (v_data n) = rows (v_data v) /\ cols (v_data n) = cols (v_data v)).
  { rewrite D, merge_rows, merge_cols. cbn [q0]. destruct (quarter_shape (q mod 4) (family_image (v_data v) 0)) as (-> & ->). cbn [family_image rows cols].
    clear - M1 M2 M3 M4. Z.to_euclidean_division_equations. lia. }
  split; [exact (proj1 Rn)|]. split; [exact (proj2 Rn)|]. split; [exact Dc|]. split.
  - intros f Hf. apply (Hext _ (quarter (q mod 4) (family_image (v_data v) f))); [apply HP|apply quarter_shape|apply quarter_shape| | |].
    + cbn [family_image rows]. rewrite (proj1 Rn). symmetry. apply (quarter_shape (q mod 4) (family_image (v_data v) f)).
    + cbn [family_image cols]. rewrite (proj2 Rn). symmetry. apply (quarter_shape (q mod 4) (family_image (v_data v) f)).
    + intros Y X _. cbn [family_image cell]. rewrite D. rewrite (merge_sample _ _ _ f Y X eq_refl eq_refl Hf).
      assert (f = 0 \/ f = 1 \/ f = 2 \/ f = 3)%Z as [->|[->|[->| ->]]] by lia; reflexivity.
  - rewrite S. cbn [sI sQ sU]. split; [|split]; apply HP.
Qed.

Lemma c153_rotate hist h W i q v : reached hist h -> view_of h i = Some v -> pillow W ->
  exists h' k n, exec W (Rotate i (IZR (90 * q))) h = (h', Ok (Some k)) /\ view_of h' k = Some n /\
    rows (v_data n) = rows (v_data v) /\ cols (v_data n) = cols (v_data v) /\ v_dic n = v_dic v /\
    (forall f, (0 <= f < 4)%Z -> turned_picture q (family_image (v_data v) f) (family_image (v_data n) f)) /\
    turned_picture q (sI (v_vector v)) (sI (v_vector n)) /\ turned_picture q (sQ (v_vector v)) (sQ (v_vector n)) /\
    turned_picture q (sU (v_vector v)) (sU (v_vector n)).
Proof.
  apply (c153_gen (turned_picture q)).
  - intros a. apply quarter_turned.
  - intros a b c T _ _ R1 C1 E. exact (turned_ext q a b c T R1 C1 E).
Qed.

Lemma c153_corners hist h W i q v : reached hist h -> view_of h i = Some v -> pillow W ->
  exists h' k n, exec W (Rotate i (IZR (90 * q))) h = (h', Ok (Some k)) /\ view_of h' k = Some n /\
    rows (v_data n) = rows (v_data v) /\ cols (v_data n) = cols (v_data v) /\ v_dic n = v_dic v /\
    (forall f, (0 <= f < 4)%Z -> turned_to_corners q (family_image (v_data v) f) (family_image (v_data n) f)) /\
    turned_to_corners q (sI (v_vector v)) (sI (v_vector n)) /\ turned_to_corners q (sQ (v_vector v)) (sQ (v_vector n)) /\
    turned_to_corners q (sU (v_vector v)) (sU (v_vector n)).
Proof.
  apply (c153_gen (turned_to_corners q)).
  - intros a. apply quarter_corners.
  - intros a b c (H1 & H2 & H3 & H4) _ _ E1 E2 E. split; [congruence|]. split; [congruence|]. rewrite H1, H2 in E.
    split; intros y x y' x' I I' Tq; rewrite E by exact I'; [exact (H3 y x y' x' I I' Tq)|exact (H4 y x y' x' I I' Tq)].
Qed.

(** ** Corollaries *)
Lemma whole_fits c : (Z.abs c < 2 ^ 24)%Z -> fits_single (IZR c).
Proof. intros H. exists c, 0%Z. split; [lia|]. cbn [powerRZ]. ring. Qed.
Lemma half_fits c : (Z.abs c < 2 ^ 24)%Z -> fits_single (IZR c / 2).
Proof. intros H. exists c, (-1)%Z. split; [lia|]. change (powerRZ 2 (-1)) with (/ (2 ^ 1)). field. Qed.

Lemma single_odd : single (IZR (2 ^ 24 + 1)) = IZR (2 ^ 24).
Proof.
  unfold single, round. set (v := IZR (2 ^ 24 + 1)).
  assert (Mv : mag radix2 v = 25%Z :> Z).
  { apply mag_unique. rewrite !bpow_powerRZ. unfold v. rewrite Rabs_pos_eq by (apply IZR_le; lia).
    change (powerRZ (IZR radix2) (25 - 1)) with (2 ^ 24). change (powerRZ (IZR radix2) 25) with (2 ^ 25).
    change (2 ^ 24 + 1)%Z with 16777217%Z. cbn [pow]. lra. }
  assert (Ce : cexp radix2 (FLT_exp (-149) 24) v = 1%Z) by (unfold cexp; rewrite Mv; reflexivity).
  unfold scaled_mantissa. rewrite Ce. change (bpow radix2 (- (1))) with (/ 2).
  assert (F : Zfloor (v * / 2) = 8388608%Z) by (apply Zfloor_imp; unfold v; change (2 ^ 24 + 1)%Z with 16777217%Z; cbn [Z.add Pos.add Pos.succ]; lra).
  assert (N : ZnearestE (v * / 2) = 8388608%Z).
  { unfold Znearest. rewrite F. rewrite Rcompare_Eq; [reflexivity|]. unfold v. change (2 ^ 24 + 1)%Z with 16777217%Z. lra. }
  rewrite N. unfold F2R. cbn [Fnum Fexp]. change (bpow radix2 1) with 2. change (2 ^ 24)%Z with 16777216%Z. lra.
Qed.

Lemma picture_exact q a b y x y' x' : turned_picture q a b -> inside (rows a) (cols a) y x -> inside (rows a) (cols a) y' x' ->
  turned q (rows a) (cols a) y x y' x' -> fits_single (cell a y x) -> cell b y' x' = cell a y x.
Proof. intros (_ & _ & H & _) I I' Tq F. rewrite (H y x y' x' I I' Tq). apply single_exact. exact F. Qed.
Lemma picture_error q a b y x y' x' : turned_picture q a b -> inside (rows a) (cols a) y x -> inside (rows a) (cols a) y' x' ->
  turned q (rows a) (cols a) y x y' x' -> powerRZ 2 (-126) <= Rabs (cell a y x) -> Rabs (cell b y' x' - cell a y x) <= / 2 ^ 24 * Rabs (cell a y x).
Proof. intros (_ & _ & H & _) I I' Tq F. rewrite (H y x y' x' I I' Tq). apply single_error. exact F. Qed.
Lemma picture_unturned a b y x : turned_picture 0 a b -> inside (rows a) (cols a) y x -> cell a y x = IZR (2 ^ 24 + 1) -> cell b y x = IZR (2 ^ 24).
Proof.
  intros (_ & _ & H & _) I E. rewrite (H y x y x I I); [rewrite E; exact single_odd|]. left. cbv zeta. split; [reflexivity|]. lia.
Qed.
Lemma picture_crop q a b y x : turned_picture q a b -> (q mod 2 = 1)%Z -> ((rows a + cols a) mod 2 = 0)%Z ->
  inside (rows a) (cols a) y x -> (rows a < Z.abs (2 * x + 1 - cols a))%Z -> cell b y x = 0.
Proof.
  intros (_ & _ & _ & H) Hq Hp I Hx. destruct (turned_covers q (rows a) (cols a) y x (or_intror Hp)) as (z & t & Tq).
  apply (H z t y x); [|exact I|exact Tq]. intros (Z1 & Z2). unfold turned in Tq. cbv zeta in Tq.
  assert (q mod 4 = 1 \/ q mod 4 = 3)%Z by (clear - Hq; Z.to_euclidean_division_equations; lia). lia.
Qed.
Lemma picture_direction q a b y x y' x' : turned_picture q a b -> inside (rows a) (cols a) y x -> inside (rows a) (cols a) y' x' ->
  turned q (rows a) (cols a) y x y' x' -> cell b y' x' = - cell a y x -> cell a y x = 0.
Proof.
  intros (_ & _ & H & _) I I' Tq E. rewrite (H y x y' x' I I' Tq) in E.
  destruct (Rle_lt_dec 0 (cell a y x)) as [P|P]; [pose proof (single_pos _ P)|pose proof (single_neg (cell a y x) ltac:(lra))]; lra.
Qed.

Lemma picture_compose p q (a b c d : arr R) y x : turned_picture p a b -> turned_picture q b c -> turned_picture (p + q) a d -> rows a = cols a ->
  inside (rows a) (cols a) y x -> cell c y x = cell d y x.
Proof.
  intros Hp Hq Hd Sq I. pose proof Hp as (P1 & P2 & P3 & _). pose proof Hq as (Q1 & Q2 & Q3 & _). pose proof Hd as (D1 & D2 & D3 & _).
  rewrite P1, P2 in Q3.
  assert (Fp : forall r, fits r (rows a) (cols a)) by (intros r; right; rewrite Sq; clear; Z.to_euclidean_division_equations; lia).
  destruct (turned_covers q _ _ y x (Fp q)) as (z & t & Tq). destruct (turned_covers p _ _ z t (Fp p)) as (u & s & Tp).
  assert (Td : turned (p + q) (rows a) (cols a) u s y x).
  { unfold turned in *. cbv zeta in *. assert (M : ((p + q) mod 4 = p mod 4 + q mod 4 \/ (p + q) mod 4 = p mod 4 + q mod 4 - 4)%Z)
      by (clear; Z.to_euclidean_division_equations; lia).
    assert (0 <= (p + q) mod 4 < 4)%Z by (apply Z.mod_pos_bound; lia). clear - Tq Tp M H Sq.
    destruct M as [M|M]; destruct Tq as [Tq|[Tq|[Tq|Tq]]]; destruct Tp as [Tp|[Tp|[Tp|Tp]]];
      first [exfalso; lia|left; lia|right; left; lia|right; right; left; lia|right; right; right; lia]. }
  assert (I1 : inside (rows a) (cols a) z t) by (clear - Tq I Sq; unfold turned, inside in *; cbv zeta in *; destruct Tq as [Tq|[Tq|[Tq|Tq]]]; lia).
  assert (I2 : inside (rows a) (cols a) u s) by (clear - Tp I1 Sq; unfold turned, inside in *; cbv zeta in *; destruct Tp as [Tp|[Tp|[Tp|Tp]]]; lia).
  rewrite (D3 u s y x I2 I Td), (Q3 z t y x I1 I Tq), (P3 u s z t I2 I1 Tp). apply single_twice.
Qed.

Lemma rotate_shows hist h W i q v : reached hist h -> view_of h i = Some v -> pillow W -> shows_its_data v ->
  fits q (rows (v_data v) / 2) (cols (v_data v) / 2) ->
  (forall y x, inside (rows (v_data v)) (cols (v_data v)) y x -> exists c : Z, cell (v_data v) y x = IZR c /\ (Z.abs c < 2 ^ 21)%Z) ->
  exists h' k n, exec W (Rotate i (IZR (90 * q))) h = (h', Ok (Some k)) /\ view_of h' k = Some n /\ shows_its_data n.
Proof.
  intros Hr Hv HW (M & Sh) Hf Hc. destruct (c153_rotate hist h W i q v Hr Hv HW) as (h' & k & n & E & V & Rn & Cn & Dn & Fn & In & Qn & Un).
  exists h', k, n. split; [exact E|]. split; [exact V|]. split; [unfold mosaic in *; rewrite Rn, Cn; exact M|].
  intros a Ha. rewrite Dn in Ha. specialize (Sh a Ha). cbv zeta in Sh. destruct Sh as ((I1 & I2) & (Q1 & Q2) & (U1 & U2) & Sh).
  destruct Ha as ((A0 & A45 & Am45 & A90 & _) & _). rewrite Rn, Cn.
  set (hh := (rows (v_data v) / 2)%Z) in *. set (ww := (cols (v_data v) / 2)%Z) in *. intros s.
  pose proof In as (In1 & In2 & In3 & In4). pose proof Qn as (Qn1 & Qn2 & Qn3 & Qn4). pose proof Un as (Un1 & Un2 & Un3 & Un4).
  split; [split; congruence|]. split; [split; congruence|]. split; [split; congruence|]. intros y x Hy Hx.
  rewrite I1, I2 in In3, In4. rewrite Q1, Q2 in Qn3, Qn4. rewrite U1, U2 in Un3, Un4.
  assert (Iyx : inside hh ww y x) by (split; assumption).
  destruct (turned_covers q hh ww y x Hf) as (z & t & Tq).
  assert (Count : forall f, (0 <= f < 4)%Z -> inside hh ww z t -> exists c : Z, sample (v_data v) f z t = IZR c /\ (Z.abs c < 2 ^ 21)%Z).
  { intros f Hff (Z1 & Z2). apply Hc. unfold hh, ww, inside in *. destruct M as (M1 & M2 & M3 & M4). clear - Hff Z1 Z2 M1 M2 M3 M4.
    Z.to_euclidean_division_equations. lia. }
  assert (In_dec : inside hh ww z t \/ ~ inside hh ww z t) by (unfold inside; lia).
  destruct In_dec as [Izt|Nzt].
  - assert (Same : forall f, (0 <= f < 4)%Z -> s f y x = sample (v_data v) f z t).
    { intros f Hff. destruct (Count f Hff Izt) as (c & Ec & Bc). destruct (Fn f Hff) as (_ & _ & F3 & _). cbn [family_image rows cols cell] in F3.
      unfold s. rewrite (F3 z t y x Izt Iyx Tq). apply single_exact. rewrite Ec. apply whole_fits. lia. }
    rewrite !Same by (assumption || lia). rewrite (In3 z t y x Izt Iyx Tq), (Qn3 z t y x Izt Iyx Tq), (Un3 z t y x Izt Iyx Tq).
    destruct Izt as (Z1 & Z2). destruct (Sh z t Z1 Z2) as (-> & -> & ->). 
    destruct (Count 0%Z ltac:(lia) (conj Z1 Z2)) as (c0 & E0 & B0). destruct (Count 1%Z ltac:(lia) (conj Z1 Z2)) as (c1 & E1 & B1).
    destruct (Count 2%Z ltac:(lia) (conj Z1 Z2)) as (c2 & E2 & B2). destruct (Count 3%Z ltac:(lia) (conj Z1 Z2)) as (c3 & E3 & B3).
    destruct (Count (p0 a) A0 (conj Z1 Z2)) as (d0 & F0 & G0). destruct (Count (p90 a) A90 (conj Z1 Z2)) as (d1 & F1 & G1).
    destruct (Count (p45 a) A45 (conj Z1 Z2)) as (d2 & F2 & G2). destruct (Count (pm45 a) Am45 (conj Z1 Z2)) as (d3 & F3 & G3).
    rewrite E0, E1, E2, E3, F0, F1, F2, F3, <- !plus_IZR, <- !minus_IZR.
    split; [apply single_exact, half_fits; lia|]. split; apply single_exact, whole_fits; lia.
  - assert (Zero : forall f, (0 <= f < 4)%Z -> s f y x = 0).
    { intros f Hff. destruct (Fn f Hff) as (_ & _ & _ & F4). cbn [family_image rows cols cell] in F4. exact (F4 z t y x Nzt Iyx Tq). }
    rewrite !Zero by (assumption || lia). rewrite (In4 z t y x Nzt Iyx Tq), (Qn4 z t y x Nzt Iyx Tq), (Un4 z t y x Nzt Iyx Tq).
    split; [|split]; lra.
Qed.
