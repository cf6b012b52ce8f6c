(** Property C142: images of different integer types. *)
From Coq Require Import Reals Lra Lia.
From Verif Require Import Base.Base Base.Num Model.Stokes Model.IntData Model.IntTypes Spec.MosaicSpec Spec.StokesSpec Spec.AngleSpec
  Spec.FloatSpec Spec.IntSpec Spec.IntTypeSpec Proofs.IntMixFacts.
Local Open Scope Z_scope.

(** ** Two images *)

(** The type of the result is the narrowest that has room for both images; pixels keep the low bits. *)
Theorem C142_two_images op t1 t2 (d1 d2 : arr Z) :
  numpy_type t1 -> numpy_type t2 -> image_of t1 d1 -> image_of t2 d2 -> same_shape d1 d2 ->
  exists p, mixed_op op t1 d1 t2 d2 = Ok p /\ height_of p = rows d1 /\ width_of p = cols d1 /\
    type_for (fun z => representable t1 z \/ representable t2 z) p /\
    forall y x, 0 <= y < rows d1 -> 0 <= x < cols d1 -> pixel_of op p y x (cell d1 y x) (cell d2 y x).
Proof. exact (mixed_run op t1 t2 d1 d2). Qed.
Print Assumptions C142_two_images.

(** Full statement: every pixel of the result is the sum, difference or product of those of the images.  Here: for
    a signed and an unsigned type, the latter at least as wide and of at most 32 bits. *)
Theorem C142_exact_partial op t1 t2 (d1 d2 : arr Z) p :
  numpy_type t1 -> numpy_type t2 -> roomy t1 t2 -> image_of t1 d1 -> image_of t2 d2 -> same_shape d1 d2 ->
  mixed_op op t1 d1 t2 d2 = Ok p ->
  forall y x, 0 <= y < rows d1 -> 0 <= x < cols d1 ->
    pixel_value p y x = IZR (compute op (cell d1 y x) (cell d2 y x)).
Proof. exact (roomy_exact op t1 t2 d1 d2 p). Qed.
Print Assumptions C142_exact_partial.

(** For every other pair of types there are images of every size whose pixels all come out wrong. *)
Theorem C142_exact_refuted op t1 t2 :
  numpy_type t1 -> numpy_type t2 -> ~ roomy t1 t2 ->
  exists a b, representable t1 a /\ representable t2 b /\
    forall h w, 1 <= h -> 1 <= w -> exists p, mixed_op op t1 (full h w a) t2 (full h w b) = Ok p /\
      forall y x, 0 <= y < h -> 0 <= x < w -> pixel_value p y x <> IZR (compute op a b).
Proof. exact (not_roomy_wrong op t1 t2). Qed.
Print Assumptions C142_exact_refuted.

(** The Stokes parameters of sums and differences then are the sums and differences of theirs. *)
Theorem C142_stokes_partial op t1 t2 dic a (d1 d2 : arr Z) :
  op <> Times -> numpy_type t1 -> numpy_type t2 -> roomy t1 t2 ->
  image_of t1 d1 -> image_of t2 d2 -> describes dic a -> mosaic d1 -> same_shape d1 d2 ->
  exists p s1 s2 s, mixed_op op t1 d1 t2 d2 = Ok p /\ int_stokes dic d1 = Ok s1 /\ int_stokes dic d2 = Ok s2 /\
    data_stokes dic (int_pixels p) = Ok s /\
    let c v w := (match op with Minus => v - w | _ => v + w end)%R in
    stokes_is s (rows d1 / 2) (cols d1 / 2)
      (fun Y X => c (cell (sI s1) Y X) (cell (sI s2) Y X))
      (fun Y X => c (cell (sQ s1) Y X) (cell (sQ s2) Y X))
      (fun Y X => c (cell (sU s1) Y X) (cell (sU s2) Y X)).
Proof. exact (roomy_stokes op t1 t2 dic a d1 d2). Qed.
Print Assumptions C142_stokes_partial.

Definition int16 : itype := mkitype 16 true.
Definition uint8 : itype := mkitype 8 false.
Definition show (p : pixels) : option (Z * bool * list (list Z)) :=
  match p with Ints t d => Some (bits t, is_signed t, to_list d) | Floats _ => None end.

(** A raw image (uint16) and one saved and read again (int16); two raw images; uint64 and int8. *)
Example C142_case :
  (numpy_type uint16 /\ numpy_type int16 /\ roomy uint16 int16 /\ ~ roomy uint16 uint8 /\
   image_of uint16 (full 2 2 4000) /\ image_of int16 (full 2 2 (-5000)) /\ mosaic (full 2 2 4000)) /\
  on_ok show (mixed_op Plus uint16 (full 2 2 4000) int16 (full 2 2 (-5000))) = Ok (Some (32, true, [[-1000; -1000]; [-1000; -1000]])) /\
  on_ok show (mixed_op Minus uint16 (full 1 2 4000) uint8 (full 1 2 250)) = Ok (Some (16, false, [[3750; 3750]])) /\
  on_ok show (mixed_op Minus uint8 (full 1 2 250) uint16 (full 1 2 4000)) = Ok (Some (16, false, [[61786; 61786]])) /\
  on_ok show (mixed_op Minus (mkitype 64 false) (full 1 1 5) (mkitype 8 true) (full 1 1 5)) = Ok None.
Proof.
  split; [|repeat split].
  unfold numpy_type, roomy, image_of, representable, mosaic, uint16, int16, uint8. cbn [bits is_signed full rows cols cell].
  change (2 ^ 16) with 65536. change (2 ^ (16 - 1)) with 32768.
  repeat split; try lia; intuition (congruence || lia).
Qed.

(** ** An image and a number *)
Theorem C142_number op t (d : arr Z) k :
  numpy_type t -> image_of t d -> - 2 ^ 63 <= k < 2 ^ 64 ->
  let p := with_number op t d k in
  height_of p = rows d /\ width_of p = cols d /\
  type_for (fun z => representable t z \/ z = k) p /\
  forall y x, 0 <= y < rows d -> 0 <= x < cols d -> pixel_of op p y x (cell d y x) k.
Proof. exact (number_run op t d k). Qed.
Print Assumptions C142_number.

(** Full statement: [image - k] is [image + (-k)].  For unsigned images the second is right, the first adds 2^bits to
    pixels smaller than [k]. *)
Theorem C142_sign_refuted t (d : arr Z) k :
  numpy_type t -> is_signed t = false -> bits t <= 32 -> image_of t d -> 1 <= k < 2 ^ bits t ->
  let p := with_number Minus t d k in let q := with_number Plus t d (- k) in
  forall y x, 0 <= y < rows d -> 0 <= x < cols d ->
    pixel_value q y x = IZR (cell d y x - k) /\
    pixel_value p y x = IZR (cell d y x - k + (if cell d y x <? k then 2 ^ bits t else 0)).
Proof. exact (number_sign t d k). Qed.
Print Assumptions C142_sign_refuted.

Example C142_number_case :
  (image_of uint16 (full 1 2 40) /\ 1 <= 50 < 2 ^ bits uint16 /\ bits uint16 <= 32) /\
  show (with_number Minus uint16 (full 1 2 40) 50) = Some (16, false, [[65526; 65526]]) /\
  show (with_number Plus uint16 (full 1 2 40) (-50)) = Some (32, true, [[-10; -10]]) /\
  show (with_number Times uint16 (full 1 2 40) 70000) = Some (32, false, [[2800000; 2800000]]) /\
  show (with_number Plus int16 (full 1 2 40) 40000) = Some (32, true, [[40040; 40040]]) /\
  show (with_number Plus int16 (full 1 2 40) 200) = Some (16, true, [[240; 240]]) /\
  show (with_number Plus (mkitype 64 true) (full 1 2 40) (2 ^ 63)) = None.
Proof.
  split; [|repeat split]. unfold image_of, representable, uint16. cbn [bits is_signed full rows cols cell].
  change (2 ^ 16) with 65536. repeat split; lia.
Qed.

(** ** Quotients are rounded once. *)
Theorem C142_quotient memory (d1 d2 : arr Z) :
  same_shape d1 d2 ->
  exists d, int_quotient memory d1 d2 = Ok d /\ same_shape d d1 /\
    forall y x, 0 <= y < rows d1 -> 0 <= x < cols d1 -> cell d2 y x <> 0 ->
      Z.abs (cell d1 y x) < 2 ^ 53 -> Z.abs (cell d2 y x) < 2 ^ 53 ->
      nearest (cell d y x) (IZR (cell d1 y x) / IZR (cell d2 y x)).
Proof. exact (quotient_run memory d1 d2). Qed.
Print Assumptions C142_quotient.

Example C142_quotient_case :
  same_shape (full 1 1 7) (full 1 1 2) /\ (2 <> 0 /\ Z.abs 7 < 2 ^ 53 /\ Z.abs 2 < 2 ^ 53) /\
  on_ok to_list (int_quotient (fun _ _ => nofZ 0) (full 1 1 7) (full 1 1 2)) = Ok [[ndiv (nofZ 7) (nofZ 2)]].
Proof. split; [split; reflexivity|]. split; [lia|]. vm_compute. reflexivity. Qed.
