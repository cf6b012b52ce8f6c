(** C136: corrections made in two steps. *)
From Coq Require Import Reals Lra Floats.SpecFloat.
From Verif Require Import Base.Base Base.Num Base.Bcast Model.Demosaic Model.Shift Model.Utils Model.Roi
  Spec.MosaicSpec Spec.SumSpec Proofs.TwiceFacts.

(** Full statement: two shifts, dark or flat corrections, clamps or masks are one with the sum, product or
    intersection.  Shifts, in the same direction: *)
Theorem C136_shift_partial {A} (d : arr A) y x y' x' m : 0 <= y * y' -> 0 <= x * x' ->
  exists r r' s, shift d y x m = Ok r /\ shift r y' x' m = Ok r' /\ shift d (y + y') (x + x') m = Ok s /\ r' =a= s.
Proof. exact (c136_shift d y x y' x' m). Qed.
Print Assumptions C136_shift_partial.

Theorem C136_shift_micropol_partial {A} `{Num A} (d : arr A) y x y' x' m : mosaic d -> 0 <= y * y' -> 0 <= x * x' ->
  exists r r' s, shift_micropol d y x m = Ok r /\ shift_micropol r y' x' m = Ok r' /\ shift_micropol d (y + y') (x + x') m = Ok s /\ r' =a= s.
Proof. exact (c136_shift_micropol d y x y' x' m). Qed.
Print Assumptions C136_shift_micropol_partial.

(** Forth and back: the last row is lost. *)
Theorem C136_shift_refuted {A} (d : arr A) y m i : 0 < y <= rows d -> 0 <= i < cols d ->
  exists r r', shift d y 0 m = Ok r /\ shift r (- y) 0 m = Ok r' /\ cell r' (rows d - 1) i = m.
Proof. exact (c136_shift_back d y m i). Qed.
Print Assumptions C136_shift_refuted.

(** Two dark images are subtracted like their sum if the second is not negative. *)
Theorem C136_dark (d a b : arr R) : same_shape d a -> same_shape d b ->
  (forall y x, 0 <= y < rows d -> 0 <= x < cols d -> (0 <= cell b y x)%R) ->
  exists r r' s, dark_data d a = Ok r /\ dark_data r b = Ok r' /\ dark_data d (amap2 Rplus a b) = Ok s /\ r' =a= s.
Proof. exact (c136_dark d a b). Qed.
Print Assumptions C136_dark.

(** Two flat fields correct like their product up to one factor for the whole image. *)
Theorem C136_flat junk junk' junk'' (d f g : arr R) : same_shape d f -> same_shape d g ->
  (0 < amean f)%R -> (0 < amean g)%R -> (0 < amean (amap2 Rmult f g))%R ->
  (forall y x, 0 <= y < rows d -> 0 <= x < cols d -> (0 < cell f y x /\ 0 < cell g y x)%R) ->
  exists r r' s, flat_data junk d f = Ok r /\ flat_data junk' r g = Ok r' /\ flat_data junk'' d (amap2 Rmult f g) = Ok s /\
    same_shape r' s /\
    forall y x, 0 <= y < rows d -> 0 <= x < cols d ->
      cell r' y x = (amean f * amean g / amean (amap2 Rmult f g) * cell s y x)%R.
Proof. exact (c136_flat junk junk' junk'' d f g). Qed.
Print Assumptions C136_flat.

Theorem C136_clamp :
  (forall (d : arr R) lo hi, (lo < hi)%R -> fix_data (fix_data d (Some lo) (Some hi)) (Some lo) (Some hi) =a= fix_data d (Some lo) (Some hi)) /\
  (forall (d : arr b64) lo hi, nltb lo hi = true -> fix_data (fix_data d (Some lo) (Some hi)) (Some lo) (Some hi) =a= fix_data d (Some lo) (Some hi)).
Proof. exact c136_clamp. Qed.
Print Assumptions C136_clamp.

(** Two regions, in either order, keep the pixels of both. *)
Theorem C136_regions {A} (d : arr A) center rho theta incl b center' rho' theta' incl' b' fill :
  wf d -> (incl = true \/ incl' = true -> mosaic d) ->
  roi_boolean d center rho theta incl = Ok b -> roi_boolean d center' rho' theta' incl' = Ok b' ->
  exists r r' s s', roi_from_polar d center rho theta fill incl = Ok r /\ roi_from_polar r center' rho' theta' fill incl' = Ok r' /\
    roi_from_polar d center' rho' theta' fill incl' = Ok s /\ roi_from_polar s center rho theta fill incl = Ok s' /\ r' =a= s' /\
    forall y x, 0 <= y < rows d -> 0 <= x < cols d -> cell r' y x = if cell b y x && cell b' y x then cell d y x else fill.
Proof. exact (c136_regions d center rho theta incl b center' rho' theta' incl' b' fill). Qed.
Print Assumptions C136_regions.

Theorem C136_mask_twice {A} (d : arr A) center rho theta incl fill r : wf d -> (incl = true -> mosaic d) ->
  roi_from_polar d center rho theta fill incl = Ok r ->
  exists r', roi_from_polar r center rho theta fill incl = Ok r' /\ r' =a= r.
Proof. exact (c136_mask_twice d center rho theta incl fill r). Qed.
Print Assumptions C136_mask_twice.

Definition nine : arr Z := mkarr 3 3 (fun y x => 10 * y + x).
Definition const4 (v : R) : arr R := full 2 2 v.

Example C136_shift_case :
  bind (shift nine 1 0 7) (fun r => on_ok to_list (shift r 1 (-1) 7)) = Ok [[7; 7; 7]; [7; 7; 7]; [1; 2; 7]] /\
  on_ok to_list (shift nine (1 + 1) (0 + -1) 7) = Ok [[7; 7; 7]; [7; 7; 7]; [1; 2; 7]] /\
  bind (shift nine 1 0 7) (fun r => on_ok to_list (shift r (-1) 0 7)) = Ok [[0; 1; 2]; [10; 11; 12]; [7; 7; 7]] /\
  mosaic (full 4 4 0).
Proof. repeat split; try (vm_compute; reflexivity); discriminate. Qed.

Example C136_case :
  same_shape (const4 9) (const4 2) /\ (0 <= cell (const4 3) 1 1)%R /\ (0 < amean (const4 2))%R /\
  (0 < amean (amap2 Rmult (const4 2) (const4 3)))%R /\ (1 < 2)%R /\ nltb (nofZ 1 : b64) (nofZ 2) = true /\
  (exists b, roi_boolean (const4 9) (Some (0, 0)%R) (Some (1, 5)%R) full_circle true = Ok b).
Proof.
  split; [split; reflexivity|]. split; [cbn; lra|].
  assert (M : forall a : arr R, rows a = 2 -> cols a = 2 -> (forall y x, 0 < cell a y x)%R -> (0 < amean a)%R).
  { intros a R2 C2 Hp. unfold amean, rsum2, rsum. rewrite R2, C2. change (zrange 2) with [0; 1]. change (2 * 2) with 4. cbn [map fold_right].
    pose proof (Hp 0 0). pose proof (Hp 0 1). pose proof (Hp 1 0). pose proof (Hp 1 1). lra. }
  split; [apply M; cbn; intros; lra || reflexivity|]. split; [apply M; cbn; intros; lra || reflexivity|].
  split; [lra|]. split; [reflexivity|].
  eexists. reflexivity.
Qed.
