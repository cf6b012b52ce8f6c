(** Property C151: images of numbers with masks of truth values, and integers with floats. *)
From Coq Require Import Reals Lra Lia Floats.SpecFloat.
From Verif Require Import Base.Base Base.Num Model.Stokes Model.IntData Model.IntTypes Model.Kinds Spec.AngleSpec Spec.FloatSpec Spec.IntSpec Spec.IntTypeSpec Spec.KindSpec Spec.StokesSpec
  Proofs.ExactFacts Proofs.KindFacts.
From Verif Require Import Spec.MosaicSpec.
Local Open Scope Z_scope.

(** ** Masks *)

(** Adding masks unites what they show, multiplying them intersects it. *)
Theorem C151_union (m n : arr bool) : same_shape m n ->
  exists r, any_op Plus (Mask m) (Mask n) = Ok (Mask r) /\ same_shape r m /\
    forall y x, 0 <= y < rows m -> 0 <= x < cols m -> cell r y x = (cell m y x || cell n y x)%bool.
Proof. exact (masks_or m n). Qed.
Print Assumptions C151_union.

Theorem C151_intersection (m n : arr bool) : same_shape m n ->
  exists r, any_op Times (Mask m) (Mask n) = Ok (Mask r) /\ same_shape r m /\
    forall y x, 0 <= y < rows m -> 0 <= x < cols m -> cell r y x = (cell m y x && cell n y x)%bool.
Proof. exact (masks_and m n). Qed.
Print Assumptions C151_intersection.

(** Full statement: masks can be subtracted as well.  Truth values have no difference. *)
Theorem C151_difference_refuted (m n : arr bool) : any_op Minus (Mask m) (Mask n) = Raise TypeError.
Proof. reflexivity. Qed.
Print Assumptions C151_difference_refuted.

(** An image of integers keeps its type and the pixels that are shown. *)
Theorem C151_ints t (d : arr Z) (m : arr bool) : numpy_type t -> image_of t d -> same_shape d m ->
  exists r, any_op Times (Numbers (Ints t d)) (Mask m) = Ok (Numbers (Ints t r)) /\ same_shape r d /\
    forall y x, 0 <= y < rows d -> 0 <= x < cols d -> cell r y x = if cell m y x then cell d y x else 0.
Proof. exact (masked_ints t d m). Qed.
Print Assumptions C151_ints.

(** Full statement: an image of floats keeps, bit by bit, the pixels that are shown, and has zeros elsewhere.  Here: where the
    hidden pixels are finite. *)
Theorem C151_floats_partial (d : arr b64) (m : arr bool) : same_shape d m -> image64 d ->
  exists r, any_op Times (Numbers (Floats d)) (Mask m) = Ok (Numbers (Floats r)) /\ same_shape r d /\
    forall y x, 0 <= y < rows d -> 0 <= x < cols d ->
      (cell m y x = true -> cell r y x = cell d y x) /\ (cell m y x = false -> finite64 (cell d y x) -> is_value (cell r y x) 0).
Proof. exact (masked_floats d m). Qed.
Print Assumptions C151_floats_partial.

(** Hidden pixels that are infinite or missing come out as missing. *)
Theorem C151_floats_refuted (d : arr b64) (m : arr bool) : same_shape d m -> image64 d ->
  exists r, any_op Times (Numbers (Floats d)) (Mask m) = Ok (Numbers (Floats r)) /\
    forall y x, 0 <= y < rows d -> 0 <= x < cols d -> cell m y x = false -> ~ finite64 (cell d y x) -> cell r y x = S754_nan.
Proof. exact (masked_missing d m). Qed.
Print Assumptions C151_floats_refuted.

(** Hiding twice is hiding once with the product of the masks, bit by bit and for all binary64 numbers. *)
Theorem C151_twice (d : arr b64) (m n : arr bool) : same_shape d m -> same_shape d n -> image64 d ->
  exists r s k p, any_op Times (Numbers (Floats d)) (Mask m) = Ok (Numbers (Floats r)) /\
    any_op Times (Numbers (Floats r)) (Mask n) = Ok (Numbers (Floats s)) /\
    any_op Times (Mask m) (Mask n) = Ok (Mask k) /\ any_op Times (Numbers (Floats d)) (Mask k) = Ok (Numbers (Floats p)) /\
    same_shape p s /\ forall y x, 0 <= y < rows p -> 0 <= x < cols p -> cell p y x = cell s y x.
Proof. exact (masked_twice d m n). Qed.
Print Assumptions C151_twice.

(** The Stokes parameters of superpixels that are shown stay as they are, the others are zero. *)
Theorem C151_stokes_partial dic a (d : arr b64) (m : arr bool) M : describes dic a -> mosaic d -> same_shape d m -> whole_superpixels m M -> image64 d ->
  (forall y x, 0 <= y < rows d -> 0 <= x < cols d -> finite64 (cell d y x)) ->
  exists r s s', any_op Times (Numbers (Floats d)) (Mask m) = Ok (Numbers (Floats r)) /\ data_stokes dic d = Ok s /\ data_stokes dic r = Ok s' /\
    forall Y X, 0 <= Y < rows d / 2 -> 0 <= X < cols d / 2 ->
      (M Y X = true -> cell (sI s') Y X = cell (sI s) Y X /\ cell (sQ s') Y X = cell (sQ s) Y X /\ cell (sU s') Y X = cell (sU s) Y X) /\
      (M Y X = false -> is_value (cell (sI s') Y X) 0 /\ is_value (cell (sQ s') Y X) 0 /\ is_value (cell (sU s') Y X) 0).
Proof. exact (masked_stokes dic a d m M). Qed.
Print Assumptions C151_stokes_partial.

(** ** Integers and floats *)

(** As soon as one operand holds floats, sums, differences and products are rounded once. *)
Theorem C151_mixed op a b : height_any a = height_any b -> width_any a = width_any b -> of_floats a \/ of_floats b ->
  exists r, any_op op a b = Ok (Numbers (Floats r)) /\ rows r = height_any a /\ cols r = width_any a /\
    forall y x, 0 <= y < rows r -> 0 <= x < cols r -> plain_at a y x -> plain_at b y x ->
      nearest (cell r y x) (compute_real op (value_at a y x) (value_at b y x)).
Proof. exact (mixed_floats op a b). Qed.
Print Assumptions C151_mixed.

(** The same with a Python float *)
Theorem C151_mixed_number op a f : is_binary64 f -> finite64 f -> (Rabs (fval f) <= powerRZ 2 500)%R ->
  let r := with_float op a f in rows r = height_any a /\ cols r = width_any a /\
  forall y x, plain_at a y x -> nearest (cell r y x) (compute_real op (value_at a y x) (fval f)).
Proof. exact (mixed_number op a f). Qed.
Print Assumptions C151_mixed_number.

(** Truth values beside integers count as 0 and 1; the type stays. *)
Theorem C151_mask_ints op t (d : arr Z) (m : arr bool) : numpy_type t -> same_shape d m ->
  exists r q, any_op op (Numbers (Ints t d)) (Mask m) = Ok (Numbers (Ints t r)) /\ any_op op (Mask m) (Numbers (Ints t d)) = Ok (Numbers (Ints t q)) /\
    same_shape r d /\ same_shape q d /\
    forall y x, 0 <= y < rows d -> 0 <= x < cols d -> let b := if cell m y x then 1 else 0 in
      stored t (compute op (cell d y x) b) (cell r y x) /\ stored t (compute op b (cell d y x)) (cell q y x).
Proof. exact (mask_ints op t d m). Qed.
Print Assumptions C151_mask_ints.

(** Full statement: adding an image of zeros changes nothing.  Integers beyond 2^53 are rounded. *)
Theorem C151_large_refuted h w t :
  exists r, any_op Plus (Numbers (Ints t (full h w (2 ^ 53 + 1)))) (Numbers (Floats (full h w (nofZ 0)))) = Ok (Numbers (Floats r)) /\
    forall y x, fval (cell r y x) = IZR (2 ^ 53) /\ fval (cell r y x) <> IZR (2 ^ 53 + 1).
Proof. exact (large_rounded h w t). Qed.
Print Assumptions C151_large_refuted.

(** A Python float, even a whole one, avoids what whole numbers do to unsigned images (C142_sign_refuted). *)
Theorem C151_number op t (d : arr Z) k : Z.abs k < 2 ^ 53 ->
  let r := with_float op (Numbers (Ints t d)) (nofZ k) in
  same_shape r d /\ forall y x, Z.abs (cell d y x) < 2 ^ 53 -> Z.abs (compute op (cell d y x) k) < 2 ^ 53 ->
    is_value (cell r y x) (IZR (compute op (cell d y x) k)).
Proof. exact (float_number op t d k). Qed.
Print Assumptions C151_number.

(** A picture of counts and one with a missing pixel, behind a mask. *)
Definition corner : arr bool := mkarr 2 4 (fun _ x => x <? 2).
Definition seen : arr Z := mkarr 2 4 (fun y x => 1000 + 4 * y + x).
Definition holes : arr b64 := mkarr 2 4 (fun y x => if x =? 3 then S754_nan else nofZ (4 * y + x - 2)).
Definition show (c : contents) : list (list Z) :=
  match c with
  | Mask m => to_list (amap mask_int m)
  | Numbers (Ints _ d) => to_list d
  | Numbers (Floats d) => to_list (amap (fun v => match v with S754_nan => -1 | _ => if SFeqb v (nofZ 0) then 0 else if SFeqb v (nofZ (-2)) then -2 else 7 end) d)
  end.
Example C151_case :
  (numpy_type uint16 /\ image_of uint16 seen /\ same_shape seen corner /\ image64 holes /\ whole_superpixels corner (fun _ X => X <? 1)) /\
  on_ok show (any_op Times (Numbers (Ints uint16 seen)) (Mask corner)) = Ok [[1000; 1001; 0; 0]; [1004; 1005; 0; 0]] /\
  on_ok show (any_op Times (Numbers (Floats holes)) (Mask corner)) = Ok [[-2; 7; 0; -1]; [7; 7; 0; -1]] /\
  on_ok show (any_op Plus (Mask corner) (Mask (amap negb corner))) = Ok [[1; 1; 1; 1]; [1; 1; 1; 1]] /\
  on_ok show (any_op Times (Mask corner) (Mask (amap negb corner))) = Ok [[0; 0; 0; 0]; [0; 0; 0; 0]] /\
  is_value (cell (with_float Minus (Numbers (Ints uint16 seen)) (nofZ 2000)) 0 0) (-1000).
Proof.
  split; [|split; [vm_compute; reflexivity|split; [vm_compute; reflexivity|split; [vm_compute; reflexivity|split; [vm_compute; reflexivity|]]]]].
  - split; [right; left; reflexivity|]. split.
    { intros y x Hy Hx. unfold representable, seen, uint16 in *. cbn [bits is_signed rows cols cell] in *. change (2 ^ 16) with 65536. lia. }
    split; [split; reflexivity|]. split.
    { intros y x Hy Hx. cbn [holes rows cols cell] in *. destruct (x =? 3); [reflexivity|].
      apply (ofZ_value (4 * y + x - 2)). lia. }
    intros y x Hy Hx. unfold corner in *. cbn [rows cols cell] in *. apply Bool.eq_iff_eq_true. rewrite !Z.ltb_lt. Z.to_euclidean_division_equations. lia.
  - apply (proj2 (C151_number Minus uint16 seen 2000 ltac:(lia)) 0 0); cbn; lia.
Qed.
(** Counts less the other picture: 1000 + 2 in the corner *)
Example C151_mixed_case :
  height_any (Numbers (Ints uint16 seen)) = height_any (Numbers (Floats holes)) /\
  plain_at (Numbers (Ints uint16 seen)) 0 0 /\ plain_at (Numbers (Floats holes)) 0 0 /\ plain_at (Mask corner) 0 0 /\
  exists r, any_op Minus (Numbers (Ints uint16 seen)) (Numbers (Floats holes)) = Ok (Numbers (Floats r)) /\ cell r 0 0 = nofZ 1002.
Proof.
  split; [reflexivity|]. split; [reflexivity|]. split.
  - cbn [plain_at]. change (cell holes 0 0) with (b64_ofZ (-2)). destruct (ofZ_value (-2) eq_refl) as (A & B & C).
    split; [exact A|]. split; [exact B|]. change (fval (b64_ofZ (-2))) with (fval (nofZ (-2) : b64)). rewrite C. exact (small_500 (-2) eq_refl).
  - split; [exact I|]. eexists. split; [reflexivity|]. vm_compute. reflexivity.
Qed.
