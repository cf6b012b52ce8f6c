(** Which corrections can be exchanged (C124). *)
From Coq Require Import Reals Lra Lia.
From Verif Require Import Base.Base Base.Num Base.BaseFacts Model.Demosaic Model.Rebin Model.Shift Model.Stokes Model.Utils
  Spec.Terminates Spec.MosaicSpec Spec.SumSpec Spec.StokesSpec Spec.PixelSpec Spec.OrderSpec
  Proofs.MosaicFacts Proofs.MosaicProps Proofs.ShiftFacts Proofs.StokesFacts Proofs.SumFacts Proofs.BinFacts Proofs.UtilFacts.
Local Open Scope Z_scope.

(** ** Shifts *)
Definition movable (h y j : Z) : bool := (0 <=? j - 2 * y) && (j - 2 * y <? h).
Lemma shift_cells {A} `{Num A} (d : arr A) y x m : mosaic d ->
  exists r, shift_micropol d y x m = Ok r /\ rows r = rows d /\ cols r = cols d /\
    forall j i, 0 <= j < rows d -> 0 <= i < cols d ->
      cell r j i = if movable (rows d) y j && movable (cols d) x i then cell d (j - 2 * y) (i - 2 * x) else m.
Proof.
  intros Hm. destruct (mosaic_wf d Hm) as (Hw & Er & Ec). destruct (shift_micropol_spec d y x m Hw Er Ec) as (r & E & R1 & C1 & V).
  exists r. split; [exact E|]. split; [exact R1|]. split; [exact C1|]. intros j i Hj Hi. rewrite V by assumption.
  unfold movable. rewrite <- !andb_assoc. reflexivity.
Qed.

Lemma mosaic_like {A B} (a : arr A) (b : arr B) : mosaic b -> rows a = rows b -> cols a = cols b -> mosaic a.
Proof. unfold mosaic. intros Hm -> ->. exact Hm. Qed.

Lemma movable_sum h y1 y2 j : 0 <= j < h -> 0 <= y1 * y2 -> movable h (y1 + y2) j = movable h y2 j && movable h y1 (j - 2 * y2).
Proof.
  intros Hj Hs. unfold movable.
  assert (S : (0 <= y1 /\ 0 <= y2) \/ (y1 <= 0 /\ y2 <= 0)) by nia. clear Hs.
  destruct (Z.leb_spec 0 (j - 2 * (y1 + y2))), (Z.ltb_spec (j - 2 * (y1 + y2)) h), (Z.leb_spec 0 (j - 2 * y2)), (Z.ltb_spec (j - 2 * y2) h),
    (Z.leb_spec 0 (j - 2 * y2 - 2 * y1)), (Z.ltb_spec (j - 2 * y2 - 2 * y1) h); cbn [andb]; try reflexivity; exfalso; lia.
Qed.

Lemma movable_true h y j : movable h y j = true <-> 0 <= j - 2 * y < h.
Proof. unfold movable. rewrite andb_true_iff, Z.leb_le, Z.ltb_lt. reflexivity. Qed.

Lemma c124_shifts {A} `{Num A} (d : arr A) y1 x1 y2 x2 m : mosaic d -> 0 <= y1 * y2 -> 0 <= x1 * x2 ->
  exists r r' s, shift_micropol d y1 x1 m = Ok r /\ shift_micropol r y2 x2 m = Ok r' /\
    shift_micropol d (y1 + y2) (x1 + x2) m = Ok s /\ r' =a= s.
Proof.
  intros Hm Hy Hx. destruct (shift_cells d y1 x1 m Hm) as (r & E & R1 & C1 & V).
  destruct (shift_cells r y2 x2 m (mosaic_like r d Hm R1 C1)) as (r' & E' & R2 & C2 & V').
  destruct (shift_cells d (y1 + y2) (x1 + x2) m Hm) as (s & Es & R3 & C3 & V3).
  exists r, r', s. split; [exact E|]. split; [exact E'|]. split; [exact Es|]. split; [congruence|]. split; [congruence|].
  rewrite R2, C2, R1, C1. intros j i Hj Hi. rewrite V3 by assumption. rewrite V' by (rewrite ?R1, ?C1; assumption).
  rewrite (movable_sum (rows d) y1 y2 j Hj Hy), (movable_sum (cols d) x1 x2 i Hi Hx). rewrite R1, C1.
  destruct (movable (rows d) y2 j) eqn:M1; [|reflexivity]. destruct (movable (cols d) x2 i) eqn:M2; cbn [andb]; [|rewrite Bool.andb_false_r; reflexivity].
  apply movable_true in M1. apply movable_true in M2. rewrite V by assumption.
  destruct (movable (rows d) y1 (j - 2 * y2) && movable (cols d) x1 (i - 2 * x2)); [f_equal; lia|reflexivity].
Qed.

Lemma sample_shifted {A} `{Num A} (d r : arr A) y x m k j i : mosaic d ->
  (forall j i, 0 <= j < rows d -> 0 <= i < cols d ->
      cell r j i = if movable (rows d) y j && movable (cols d) x i then cell d (j - 2 * y) (i - 2 * x) else m) ->
  0 <= k < 4 -> 0 <= j < rows d / 2 -> 0 <= i < cols d / 2 ->
  sample r k j i = if (0 <=? j - y) && (j - y <? rows d / 2) && (0 <=? i - x) && (i - x <? cols d / 2) then sample d k (j - y) (i - x) else m.
Proof.
  intros (_ & _ & M1 & M2) V Hk Hj Hi.
  assert (K : 0 <= k / 2 < 2 /\ 0 <= k mod 2 < 2) by (Z.to_euclidean_division_equations; lia). destruct K as [K1 K2].
  pose proof (Z.div_mod (rows d) 2 ltac:(lia)) as D1. pose proof (Z.div_mod (cols d) 2 ltac:(lia)) as D2. rewrite M1 in D1. rewrite M2 in D2.
  unfold sample. set (h := rows d / 2) in *. set (w := cols d / 2) in *. set (a := k / 2) in *. set (b := k mod 2) in *. clearbody h w a b.
  rewrite V by lia. unfold movable.
  assert (E1 : (0 <=? 2 * j + a - 2 * y) && (2 * j + a - 2 * y <? rows d) = (0 <=? j - y) && (j - y <? h)).
  { destruct (Z.leb_spec 0 (2 * j + a - 2 * y)), (Z.ltb_spec (2 * j + a - 2 * y) (rows d)), (Z.leb_spec 0 (j - y)), (Z.ltb_spec (j - y) h); cbn; try reflexivity; lia. }
  assert (E2 : (0 <=? 2 * i + b - 2 * x) && (2 * i + b - 2 * x <? cols d) = (0 <=? i - x) && (i - x <? w)).
  { destruct (Z.leb_spec 0 (2 * i + b - 2 * x)), (Z.ltb_spec (2 * i + b - 2 * x) (cols d)), (Z.leb_spec 0 (i - x)), (Z.ltb_spec (i - x) w); cbn; try reflexivity; lia. }
  rewrite E1, E2, !andb_assoc. destruct ((0 <=? j - y) && (j - y <? h) && (0 <=? i - x) && (i - x <? w)); [|reflexivity].
  f_equal; lia.
Qed.

Lemma c124_stokes dic b (d : arr R) y x m : describes dic b -> mosaic d ->
  exists s r t TI TQ TU, data_stokes dic d = Ok s /\ shift_micropol d y x m = Ok r /\ data_stokes dic r = Ok t /\
    shift (sI s) y x (2 * m)%R = Ok TI /\ shift (sQ s) y x 0%R = Ok TQ /\ shift (sU s) y x 0%R = Ok TU /\
    sI t =a= TI /\ sQ t =a= TQ /\ sU t =a= TU.
Proof.
  intros Hd Hm. destruct (shift_cells d y x m Hm) as (r & E & R1 & C1 & V).
  destruct (data_stokes_spec dic b d Hd Hm) as (s & Es & (SI1 & SI2) & (SQ1 & SQ2) & (SU1 & SU2) & Sv).
  destruct (data_stokes_spec dic b r Hd (mosaic_like r d Hm R1 C1)) as (t & Et & (TI1 & TI2) & (TQ1 & TQ2) & (TU1 & TU2) & Tv).
  destruct (shift_spec (sI s) y x (2 * m)%R) as (TI & E1 & I1 & I2 & I3). destruct (shift_spec (sQ s) y x 0%R) as (TQ & E2 & Q1 & Q2 & Q3).
  destruct (shift_spec (sU s) y x 0%R) as (TU & E3 & U1 & U2 & U3).
  exists s, r, t, TI, TQ, TU. split; [exact Es|]. split; [exact E|]. split; [exact Et|]. split; [exact E1|]. split; [exact E2|]. split; [exact E3|].
  rewrite R1, C1 in *. rewrite SI1, SI2 in *. rewrite SQ1, SQ2 in *. rewrite SU1, SU2 in *.
  destruct Hd as ((A1 & A2 & A3 & A4 & _) & _).
  split; [|split]; (split; [congruence|]; split; [congruence|]; intros j i Hj Hi).
  - rewrite TI1 in Hj. rewrite TI2 in Hi. destruct (Tv j i Hj Hi) as (-> & _ & _). rewrite I3 by assumption.
    rewrite !(sample_shifted d r y x m _ j i Hm V) by lia.
    destruct ((0 <=? j - y) && (j - y <? rows d / 2) && (0 <=? i - x) && (i - x <? cols d / 2)) eqn:B.
    + rewrite !andb_true_iff, !Z.leb_le, !Z.ltb_lt in B. destruct (Sv (j - y) (i - x) ltac:(lia) ltac:(lia)) as (-> & _ & _). reflexivity.
    + cbn [nadd nmul Num_R nhalf]. lra.
  - rewrite TQ1 in Hj. rewrite TQ2 in Hi. destruct (Tv j i Hj Hi) as (_ & -> & _). rewrite Q3 by assumption.
    rewrite !(sample_shifted d r y x m _ j i Hm V) by lia.
    destruct ((0 <=? j - y) && (j - y <? rows d / 2) && (0 <=? i - x) && (i - x <? cols d / 2)) eqn:B.
    + rewrite !andb_true_iff, !Z.leb_le, !Z.ltb_lt in B. destruct (Sv (j - y) (i - x) ltac:(lia) ltac:(lia)) as (_ & -> & _). reflexivity.
    + cbn [nsub Num_R]. lra.
  - rewrite TU1 in Hj. rewrite TU2 in Hi. destruct (Tv j i Hj Hi) as (_ & _ & ->). rewrite U3 by assumption.
    rewrite !(sample_shifted d r y x m _ j i Hm V) by lia.
    destruct ((0 <=? j - y) && (j - y <? rows d / 2) && (0 <=? i - x) && (i - x <? cols d / 2)) eqn:B.
    + rewrite !andb_true_iff, !Z.leb_le, !Z.ltb_lt in B. destruct (Sv (j - y) (i - x) ltac:(lia) ltac:(lia)) as (_ & _ & ->). reflexivity.
    + cbn [nsub Num_R]. lra.
Qed.

(** ** Binning *)
Lemma bin_cells (d : arr R) b : mosaic d -> 1 <= b ->
  exists r, evaluates (fun fuel => micropolarray_rebin fuel d b) r /\ rows r = 2 * (rows d / (2 * b)) /\ cols r = 2 * (cols d / (2 * b)) /\
    forall Y X, 0 <= Y < rows r -> 0 <= X < cols r -> cell r Y X = rsum2 b b (block d b Y X).
Proof.
  intros Hm Hb. destruct (c04_rebin d b Hm Hb) as (r & (R1 & C1 & V) & n & E). exists r. split; [exists n; exact E|].
  split; [exact R1|]. split; [exact C1|]. intros Y X HY HX. rewrite V by assumption. apply lsum_family_block.
Qed.

Lemma block_in h b Y u : 1 <= b -> 0 <= Y < 2 * (h / (2 * b)) -> 0 <= u < b -> 0 <= 2 * b * (Y / 2) + Y mod 2 + 2 * u < h.
Proof.
  intros Hb HY Hu. set (q := h / (2 * b)) in *. assert (Q : 2 * b * q <= h) by (apply Z.mul_div_le; lia). clearbody q.
  assert (Y2 : 0 <= Y / 2 < q /\ 0 <= Y mod 2 < 2) by (Z.to_euclidean_division_equations; lia). destruct Y2 as [Y1 Y2].
  set (p := Y / 2) in *. set (e := Y mod 2) in *. clearbody p e. nia.
Qed.

Lemma c124_shift_bin (d : arr R) b y x m : mosaic d -> 1 <= b -> rows d mod (2 * b) = 0 -> cols d mod (2 * b) = 0 ->
  exists d' r r' s, shift_micropol d (b * y) (b * x) m = Ok d' /\
    evaluates (fun fuel => micropolarray_rebin fuel d b) r /\ evaluates (fun fuel => micropolarray_rebin fuel d' b) r' /\
    shift_micropol r y x (IZR (b * b) * m)%R = Ok s /\ r' =a= s.
Proof.
  intros Hm Hb Hr Hc. destruct (shift_cells d (b * y) (b * x) m Hm) as (d' & E & R1 & C1 & V).
  destruct (bin_cells d b Hm Hb) as (r & Er & R2 & C2 & V2).
  destruct (bin_cells d' b (mosaic_like d' d Hm R1 C1) Hb) as (r' & Er' & R3 & C3 & V3). rewrite R1, C1 in *.
  destruct (shift_cells r y x (IZR (b * b) * m)%R (mosaic_binned d r b Hm Hb R2 C2)) as (s & Es & R4 & C4 & V4).
  exists d', r, r', s. split; [exact E|]. split; [exact Er|]. split; [exact Er'|]. split; [exact Es|]. split; [congruence|]. split; [congruence|].
  intros Y X HY HX. rewrite V3 by assumption. rewrite R3 in HY. rewrite C3 in HX. rewrite V4 by (rewrite ?R2, ?C2; assumption). rewrite R2, C2.
  pose proof (Z.div_mod (rows d) (2 * b) ltac:(lia)) as D1. pose proof (Z.div_mod (cols d) (2 * b) ltac:(lia)) as D2. rewrite Hr in D1. rewrite Hc in D2.
  set (p := rows d / (2 * b)) in *. set (q := cols d / (2 * b)) in *.
  assert (MV : forall h n Y y u, h = 2 * b * n + 0 -> 0 <= Y < 2 * n -> 0 <= u < b ->
    movable h (b * y) (2 * b * (Y / 2) + Y mod 2 + 2 * u) = movable (2 * n) y Y).
  { clear - Hb. intros h n Y y u -> HY Hu. unfold movable.
    assert (Y2 : Y = 2 * (Y / 2) + Y mod 2 /\ 0 <= Y mod 2 < 2) by (Z.to_euclidean_division_equations; lia). destruct Y2 as [Y1 Y2].
    set (c := Y / 2) in *. set (e := Y mod 2) in *. clearbody c e. subst Y.
    replace (2 * b * c + e + 2 * u - 2 * (b * y)) with (2 * b * (c - y) + (e + 2 * u)) by ring.
    replace (2 * c + e - 2 * y) with (2 * (c - y) + e) by ring. set (z := c - y). clearbody z.
    assert (T : 0 <= e + 2 * u < 2 * b) by lia. set (t := e + 2 * u) in *. clearbody t. clear Hu HY u c y.
    assert (B1 : (0 <=? 2 * b * z + t) = (0 <=? 2 * z + e)).
    { destruct (Z.leb_spec 0 (2 * b * z + t)) as [L|L], (Z.leb_spec 0 (2 * z + e)) as [L'|L']; try reflexivity; exfalso.
      - assert (z <= -1) by lia. assert (2 * b * z <= 2 * b * (-1)) by (apply Z.mul_le_mono_nonneg_l; lia). lia.
      - assert (0 <= z) by lia. assert (0 <= 2 * b * z) by (apply Z.mul_nonneg_nonneg; lia). lia. }
    assert (B2 : (2 * b * z + t <? 2 * b * n + 0) = (2 * z + e <? 2 * n)).
    { destruct (Z.ltb_spec (2 * b * z + t) (2 * b * n + 0)) as [L|L], (Z.ltb_spec (2 * z + e) (2 * n)) as [L'|L']; try reflexivity; exfalso.
      - assert (n <= z) by lia. assert (2 * b * n <= 2 * b * z) by (apply Z.mul_le_mono_nonneg_l; lia). lia.
      - assert (z + 1 <= n) by lia. assert (2 * b * (z + 1) <= 2 * b * n) by (apply Z.mul_le_mono_nonneg_l; lia). lia. }
    rewrite B1, B2. reflexivity. }
  assert (CL : forall u v, 0 <= u < b -> 0 <= v < b -> block d' b Y X u v =
    if movable (2 * p) y Y && movable (2 * q) x X then block d b (Y - 2 * y) (X - 2 * x) u v else m).
  { intros u v Hu Hv. unfold block at 1. rewrite V; [|apply block_in; assumption|apply block_in; assumption].
    rewrite (MV (rows d) p Y y u D1 HY Hu), (MV (cols d) q X x v D2 HX Hv).
    destruct (movable (2 * p) y Y && movable (2 * q) x X); [|reflexivity]. unfold block.
    assert (F : forall Y y, (Y - 2 * y) / 2 = Y / 2 - y /\ (Y - 2 * y) mod 2 = Y mod 2) by (clear; intros; Z.to_euclidean_division_equations; lia).
    destruct (F Y y) as [-> ->]. destruct (F X x) as [-> ->]. f_equal; ring. }
  rewrite (rsum2_ext b b _ _ CL). destruct (movable (2 * p) y Y && movable (2 * q) x X) eqn:M.
  - apply andb_true_iff in M. destruct M as [M1 M2]. apply movable_true in M1. apply movable_true in M2. rewrite V2 by (rewrite ?R2, ?C2; assumption). reflexivity.
  - apply rsum2_const; lia.
Qed.

(** ** Dark subtraction and binning *)
Lemma rsum2_le h w f g : (forall y x, 0 <= y < h -> 0 <= x < w -> (f y x <= g y x)%R) -> (rsum2 h w f <= rsum2 h w g)%R.
Proof. intros Hf. apply rsum_le. intros y Hy. apply rsum_le. intros x Hx. apply Hf; assumption. Qed.
Lemma rsum_split n f k : 0 <= k < n -> rsum n f = (rsum k f + f k + rsum (n - k - 1) (fun i => f (k + 1 + i)%Z))%R.
Proof.
  intros Hk. replace (rsum n f) with (rsum (k + 1 + (n - k - 1)) f) by (f_equal; lia). set (m := n - k - 1). assert (0 <= m) by (unfold m; lia). clearbody m.
  rewrite (rsum_app (k + 1) m f) by lia. rewrite (rsum_app k 1 f) by lia. f_equal. f_equal. change (f (k + 0)%Z + 0 = f k)%R. rewrite Z.add_0_r. lra.
Qed.
Lemma rsum_lt n f g k : 0 <= k < n -> (forall i, 0 <= i < n -> (f i <= g i)%R) -> (f k < g k)%R -> (rsum n f < rsum n g)%R.
Proof.
  intros Hk Hle Hlt. rewrite (rsum_split n f k Hk), (rsum_split n g k Hk).
  assert (A1 : (rsum k f <= rsum k g)%R) by (apply rsum_le; intros; apply Hle; lia).
  assert (A3 : (rsum (n - k - 1) (fun i => f (k + 1 + i)%Z) <= rsum (n - k - 1) (fun i => g (k + 1 + i)%Z))%R) by (apply rsum_le; intros; apply Hle; lia).
  lra.
Qed.
Lemma rsum2_lt h w f g a b : 0 <= a < h -> 0 <= b < w -> (forall y x, 0 <= y < h -> 0 <= x < w -> (f y x <= g y x)%R) -> (f a b < g a b)%R ->
  (rsum2 h w f < rsum2 h w g)%R.
Proof.
  intros Ha Hb Hle Hlt. apply (rsum_lt h _ _ a Ha).
  - intros y Hy. apply rsum_le. intros x Hx. apply Hle; assumption.
  - apply (rsum_lt w _ _ b Hb); [|exact Hlt]. intros x Hx. apply Hle; assumption.
Qed.
Lemma rsum2_minus h w f g : rsum2 h w (fun y x => f y x - g y x)%R = (rsum2 h w f - rsum2 h w g)%R.
Proof.
  replace (rsum2 h w f - rsum2 h w g)%R with (rsum2 h w f + (-1) * rsum2 h w g)%R by ring.
  rewrite <- rsum2_scal, <- rsum2_plus. apply rsum2_ext. intros. ring.
Qed.

Lemma c124_dark (data dark : arr R) b : same_shape data dark -> mosaic data -> 1 <= b ->
  exists c r k rc e, dark_data data dark = Ok c /\
    evaluates (fun fuel => micropolarray_rebin fuel data b) r /\ evaluates (fun fuel => micropolarray_rebin fuel dark b) k /\
    evaluates (fun fuel => micropolarray_rebin fuel c b) rc /\ dark_data r k = Ok e /\ same_shape rc e /\
    forall Y X, 0 <= Y < rows rc -> 0 <= X < cols rc ->
      (cell e Y X <= cell rc Y X)%R /\
      (all_pixels data dark b Y X Rge -> cell e Y X = cell rc Y X) /\
      (some_pixel data dark b Y X Rlt -> some_pixel data dark b Y X Rgt -> (cell e Y X < cell rc Y X)%R).
Proof.
  intros Hs Hm Hb. destruct (dark_ok data dark Hs) as (c & E & R1 & C1 & V). pose proof Hs as [S1 S2].
  destruct (bin_cells data b Hm Hb) as (r & Er & R2 & C2 & V2).
  destruct (bin_cells dark b (mosaic_like dark data Hm (eq_sym S1) (eq_sym S2)) Hb) as (k & Ek & R3 & C3 & V3).
  destruct (bin_cells c b (mosaic_like c data Hm R1 C1) Hb) as (rc & Ec & R4 & C4 & V4). rewrite R1, C1 in *. rewrite <- S1, <- S2 in *.
  destruct (dark_ok r k) as (e & Ee & R5 & C5 & V5); [split; congruence|].
  exists c, r, k, rc, e. split; [exact E|]. split; [exact Er|]. split; [exact Ek|]. split; [exact Ec|]. split; [exact Ee|]. split; [split; congruence|].
  intros Y X HY HX. rewrite V4 by assumption. rewrite R4 in HY. rewrite C4 in HX. rewrite V5 by (rewrite ?R2, ?C2; assumption).
  rewrite V2 by (rewrite ?R2, ?C2; assumption). rewrite V3 by (rewrite ?R3, ?C3; assumption). rewrite <- rsum2_minus.
  set (g := fun u v => (block data b Y X u v - block dark b Y X u v)%R).
  assert (CB : forall u v, 0 <= u < b -> 0 <= v < b -> block c b Y X u v = Rmax (g u v) 0).
  { intros u v Hu Hv. unfold block at 1. rewrite V; [reflexivity|apply block_in; assumption|apply block_in; assumption]. }
  rewrite (rsum2_ext b b _ _ CB).
  assert (L1 : (rsum2 b b g <= rsum2 b b (fun u v => Rmax (g u v) 0))%R) by (apply rsum2_le; intros; apply Rmax_l).
  assert (L0 : (0 <= rsum2 b b (fun u v => Rmax (g u v) 0))%R).
  { apply (Rle_trans _ (rsum2 b b (fun _ _ => 0%R))); [rewrite rsum2_const by lia; lra|]. apply rsum2_le. intros. apply Rmax_r. }
  split; [apply Rmax_lub; assumption|]. split.
  - intros Ha. rewrite (rsum2_ext b b (fun u v => Rmax (g u v) 0) g).
    2: { intros u v Hu Hv. apply Rmax_left. unfold g. specialize (Ha u v Hu Hv). lra. }
    apply Rmax_left. apply (Rle_trans _ (rsum2 b b (fun _ _ => 0%R))); [rewrite rsum2_const by lia; lra|]. apply rsum2_le.
    intros u v Hu Hv. unfold g. specialize (Ha u v Hu Hv). lra.
  - intros (u & v & Hu & Hv & Hlt) (u' & v' & Hu' & Hv' & Hgt). apply Rmax_lub_lt.
    + apply (rsum2_lt b b _ _ u v Hu Hv); [intros; apply Rmax_l|]. rewrite Rmax_right by (unfold g; lra). unfold g. lra.
    + apply (Rle_lt_trans _ (rsum2 b b (fun _ _ => 0%R))); [rewrite rsum2_const by lia; lra|].
      apply (rsum2_lt b b _ _ u' v' Hu' Hv'); [intros; apply Rmax_r|]. rewrite Rmax_left by (unfold g; lra). unfold g. lra.
Qed.

(** ** Flats *)
Lemma c124_flats junk (data f g : arr R) : same_shape data f -> same_shape data g -> amean f <> 0%R -> amean g <> 0%R ->
  exists a a' c c', flat_data junk data f = Ok a /\ flat_data junk a g = Ok a' /\ flat_data junk data g = Ok c /\ flat_data junk c f = Ok c' /\
    forall y x, 0 <= y < rows data -> 0 <= x < cols data -> cell f y x <> 0%R -> cell g y x <> 0%R -> cell a' y x = cell c' y x.
Proof.
  intros Sf Sg Mf Mg. pose proof Sf as [f1 f2]. pose proof Sg as [g1 g2].
  destruct (flat_ok junk data f Sf Mf) as (a & Ea & A1 & A2 & Va). destruct (flat_ok junk data g Sg Mg) as (c & Ec & C1 & C2 & Vc).
  destruct (flat_ok junk a g) as (a' & Ea' & A1' & A2' & Va'); [split; congruence|exact Mg|].
  destruct (flat_ok junk c f) as (c' & Ec' & C1' & C2' & Vc'); [split; congruence|exact Mf|].
  exists a, a', c, c'. split; [exact Ea|]. split; [exact Ea'|]. split; [exact Ec|]. split; [exact Ec'|].
  intros y x Hy Hx F0 G0. rewrite Va' by (rewrite ?A1, ?A2; assumption). rewrite Vc' by (rewrite ?C1, ?C2; assumption).
  rewrite Va, Vc by assumption. destruct (Req_EM_T (cell f y x) 0) as [Z|_]; [contradiction|]. destruct (Req_EM_T (cell g y x) 0) as [Z|_]; [contradiction|].
  field. auto.
Qed.

Lemma amean_scale k (f : arr R) : amean (amap (fun v => k * v)%R f) = (k * amean f)%R.
Proof. unfold amean. cbn [amap rows cols cell]. rewrite rsum2_scal. unfold Rdiv. ring. Qed.
Lemma c124_flat_scale junk (data f : arr R) k : same_shape data f -> amean f <> 0%R -> k <> 0%R ->
  exists a c, flat_data junk data f = Ok a /\ flat_data junk data (amap (fun v => k * v)%R f) = Ok c /\
    forall y x, 0 <= y < rows data -> 0 <= x < cols data -> cell f y x <> 0%R -> cell c y x = cell a y x.
Proof.
  intros Sf Mf Hk. destruct (flat_ok junk data f Sf Mf) as (a & Ea & A1 & A2 & Va).
  destruct (flat_ok junk data (amap (fun v => k * v)%R f)) as (c & Ec & C1 & C2 & Vc); [exact Sf|rewrite amean_scale; apply Rmult_integral_contrapositive; auto|].
  exists a, c. split; [exact Ea|]. split; [exact Ec|]. intros y x Hy Hx F0. rewrite Va, Vc by assumption. rewrite amean_scale. cbn [amap cell].
  destruct (Req_EM_T (cell f y x) 0) as [Z|_]; [contradiction|]. destruct (Req_EM_T (k * cell f y x) 0) as [Z|_].
  - apply Rmult_integral in Z. tauto.
  - field. auto.
Qed.

Lemma c124_back {A} `{Num A} (d : arr A) y x m : mosaic d ->
  exists r r', shift_micropol d y x m = Ok r /\ shift_micropol r (- y) (- x) m = Ok r' /\ same_shape r' d /\
    forall j i, 0 <= j < rows d -> 0 <= i < cols d ->
      (0 <= j + 2 * y < rows d -> 0 <= i + 2 * x < cols d -> cell r' j i = cell d j i) /\
      (~ (0 <= j + 2 * y < rows d) \/ ~ (0 <= i + 2 * x < cols d) -> cell r' j i = m).
Proof.
  intros Hm. destruct (shift_cells d y x m Hm) as (r & E & R1 & C1 & V).
  destruct (shift_cells r (- y) (- x) m (mosaic_like r d Hm R1 C1)) as (r' & E' & R2 & C2 & V').
  exists r, r'. split; [exact E|]. split; [exact E'|]. split; [split; congruence|]. intros j i Hj Hi.
  rewrite V' by (rewrite ?R1, ?C1; assumption). rewrite R1, C1. split.
  - intros Ij Ii. assert (M1 : movable (rows d) (- y) j = true) by (apply movable_true; lia).
    assert (M2 : movable (cols d) (- x) i = true) by (apply movable_true; lia). rewrite M1, M2. cbn [andb].
    rewrite V by lia. assert (M3 : movable (rows d) y (j - 2 * - y) = true) by (apply movable_true; lia).
    assert (M4 : movable (cols d) x (i - 2 * - x) = true) by (apply movable_true; lia). rewrite M3, M4. cbn [andb]. f_equal; lia.
  - intros Ho. destruct (movable (rows d) (- y) j && movable (cols d) (- x) i) eqn:M; [|reflexivity].
    apply andb_true_iff in M. destruct M as [M1 M2]. apply movable_true in M1. apply movable_true in M2. lia.
Qed.
