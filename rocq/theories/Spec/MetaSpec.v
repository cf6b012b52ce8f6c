(** What can be asked of an image's header and file name (vocabulary for C109, C110). *)
From Coq Require Import Reals String.
From Verif Require Import Base.Base Model.Keywords Model.FileInit Model.Meta Spec.KeywordSpec.

Definition class_of (w : world) (i : nat) : option class := option_map o_class (nth_error (w_objects w) i).
Definition name_of (w : world) (i : nat) : option string :=
  match nth_error (w_objects w) i with Some o => o_filename o | None => None end.
Definition header_of (w : world) (i : nat) : option (header R) :=
  match nth_error (w_objects w) i with
  | Some (mkobject _ (Some p) _) => nth_error (w_headers w) p
  | _ => None
  end.

(** The image the last call returned. *)
Definition newest (w : world) : nat := (length (w_objects w) - 1)%nat.

Definition can_be (w : world) : Prop := exists cs, w = run_commands start cs.

(** The same values of all keywords except the sizes. *)
Definition same_keywords (a b : header R) : Prop :=
  forall k v, k <> "NAXIS1"%string -> k <> "NAXIS2"%string -> keyword a k v <-> keyword b k v.
(** No keywords but the mandatory ones. *)
Definition no_keywords (a : header R) : Prop :=
  forall k v, keyword a k v -> In k ["NAXIS"; "NAXIS1"; "NAXIS2"]%string.

Definition writes_keyword (c : command) : Prop := match c with Write _ _ _ => True | _ => False end.

(** The calls that return an image made from image [i]: its methods, and constructors applied to it
    ([derives]: those giving a MicropolImage). *)
Definition from_image (c : command) (i : nat) : Prop :=
  match c with Make _ j _ | FromObject _ j _ => j = i | _ => False end.
Definition derives (c : command) (i : nat) : Prop :=
  match c with
  | Make _ j _ => j = i
  | FromObject MicropolImage j _ => j = i
  | _ => False
  end.

(** The calls that make an image with data of the given size and write it into the header: not demodulation,
    and not arithmetic of a MicropolImage with a number (the size is that of the image). *)
Definition sets_size (w : world) (c : command) (size : Z * Z) : Prop :=
  (exists cl, c = FromData cl size) \/
  (exists m i, c = Make m i size /\ m <> Demodulating /\ (m = WithValue -> class_of w i = Some Image)) \/
  (exists cl i, c = FromObject cl i size /\ class_of w i = Some Image).
