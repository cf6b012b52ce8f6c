(** Vocabulary for statements about files. *)
From Coq Require Import String Ascii Reals.
From Verif Require Import Base.Base Model.Paths Model.Codec Model.Fs
  Spec.CodecSpec.
Local Open Scope string_scope.
Local Open Scope list_scope.
Local Open Scope Z_scope.

(** [s'] is a state in which an interruption can leave the file system. *)
Definition crash {A} (m : io A) (s s' : fs) : Prop :=
  exists pre post, fst (m s) = pre ++ post /\ s' = run pre s.

(** The file system after the call. *)
Definition after {A} (m : io A) (s : fs) : fs := run (fst (m s)) s.
Definition outcome {A} (m : io A) (s : fs) : result A := snd (m s).

(** The call raises and leaves no trace. *)
Definition fails_cleanly {A} (m : io A) (s : fs) : Prop :=
  fst (m s) = [] /\ exists e, snd (m s) = Raise e.

Definition ends_with (suffix s : string) : Prop := exists t, s = (t ++ suffix)%string.
Definition no_char (c : ascii) (s : string) : Prop := ~ In c (list_ascii_of_string s).

(** The 16-bit little-endian image of [height] x [width] pixels held in the first bytes of
    a file. *)
Definition le16_image (height width : Z) (content : list Z) (img : arr Z) : Prop :=
  2 * (height * width) <= Z.of_nat (length content) /\
  rows img = height /\ cols img = width /\
  forall y x, 0 <= y < height -> 0 <= x < width ->
    cell img y x = nth (Z.to_nat (2 * (width * y + x))) content 0 +
                   256 * nth (Z.to_nat (2 * (width * y + x) + 1)) content 0.

(** A nested list of pixel values, row by row. *)
Definition pixels {A} (height width : Z) (f : Z -> Z -> A) : list (list A) :=
  map (fun y => map (fun x => f y x) (zrange width)) (zrange height).

Definition sum_at (imgs : list (arr Z)) (y x : Z) : R :=
  fold_right Rplus 0%R (map (fun i => IZR (cell i y x)) imgs).

(** Every "." of a string replaced by ":". *)
Fixpoint dots_to_colons (s : string) : string :=
  match s with
  | EmptyString => EmptyString
  | String a s' => String (if Ascii.eqb a "." then ":"%char else a) (dots_to_colons s')
  end.

(** A directory prefix: empty, or ending in "/". *)
Definition dir_part (d : string) : Prop := d = "" \/ exists d', d = (d' ++ "/")%string.

(** The file at path [f] holds the [h] x [w] raw image [img]. *)
Definition raw_holds (cwd : string) (s : fs) (h w : Z) (f : string) (img : arr Z) : Prop :=
  exists c, s (key cwd f) = Some (File c) /\ le16_image h w c img.

(** [f] is missing, not a file, or too short. *)
Definition unreadable (cwd : string) (s : fs) (h w : Z) (f : string) : Prop :=
  forall c, s (key cwd f) = Some (File c) -> Z.of_nat (length c) < 2 * (h * w).

Definition merged (mode : string) (n : nat) (imgs : list (arr Z)) (y x : Z) : R :=
  if String.eqb mode "average" then (sum_at imgs y x / INR n)%R else sum_at imgs y x.

(** Only directories are created. *)
Definition only_dirs (es : list effect) : Prop :=
  Forall (fun e => match e with EMkdir _ => True | _ => False end) es.

(** The file at path [f] is a PolarCam 12-bit file holding [img]; none of its 32 chunks ends
    in a NUL byte. *)
Definition bin_holds (cwd : string) (s : fs) (f : string) (img : arr Z) : Prop :=
  exists c, s (key cwd f) = Some (File c) /\ Forall is_byte c /\
    Z.of_nat (length c) = 1952 * 1952 * 3 / 2 /\
    (forall i, (i < 32)%nat -> ~ ends_in_nul (chunk c (length c / 32) i)) /\
    rows img = 1952 /\ cols img = 1952 /\
    forall y x, 0 <= y < 1952 -> 0 <= x < 1952 ->
      cell img y x = nth (Z.to_nat (1952 * y + x)) (decode12 c) 0.

(** The file at path [f] has the length of a frame; one of its 32 chunks ends in NUL. *)
Definition frame_file (cwd : string) (s : fs) (f : string) : Prop :=
  exists c, s (key cwd f) = Some (File c) /\ Forall is_byte c /\ Z.of_nat (length c) = 1952 * 1952 * 3 / 2.
Definition nul_chunk_file (cwd : string) (s : fs) (f : string) : Prop :=
  exists c i, s (key cwd f) = Some (File c) /\ (i < 32)%nat /\ ends_in_nul (chunk c (length c / 32) i).

(** An all-dark frame *)
Definition dark_frame : list Z := repeat 0 (Z.to_nat (1952 * 1952 * 3 / 2)).
