(** The files of a folder (vocabulary for C111). *)
From Coq Require Import String Ascii.
From Verif Require Import Base.Base Model.Demodulate Model.DemodLoad Model.Glob Spec.LoadSpec.
Local Open Scope list_scope.

(** A name without the characters that glob gives a meaning. *)
Definition plain_char (c : ascii) : Prop := c <> "*"%char /\ c <> "?"%char /\ c <> "["%char.
Fixpoint plain_name (s : string) : Prop :=
  match s with EmptyString => True | String c s => plain_char c /\ plain_name s end.
Definition plain_path (p : list string) : Prop := Forall plain_name p.

Definition fits_name (s : string) : Prop := exists stem, s = (stem ++ ".fits")%string.
Definition not_hidden (s : string) : Prop := forall r, s <> String "." r.

(** [l] are the files of folder [p] that satisfy [P], each once if it is there once, in the order of the
    listing. *)
Inductive files_of {A} (P : string -> Prop) (p : list string) : tree A -> list (string * entry A) -> Prop :=
| no_files : files_of P p [] []
| a_file name e t l : P name -> files_of P p t l -> files_of P p ((p ++ [name], e) :: t) ((name, e) :: l)
| not_a_file q e t l : (forall name, P name -> q <> p ++ [name]) -> files_of P p t l -> files_of P p ((q, e) :: t) l.

(** Every path is there once. *)
Definition no_twice {A} (t : tree A) : Prop := NoDup (map fst t).

(** The folder [p] holds the calibration [c]: all of its files, and no other matrix. *)
Record holds {A} (t : tree A) (p : list string) (c : calibration A) : Prop := mkholds {
  holds_folder : p <> [] /\ In (p, Folder) t;
  holds_files : forall name f, In (name, f) (written_files c) -> In (p ++ [name], File f) t;
  holds_only : forall name e i j, In (p ++ [name], e) t -> fits_name name -> not_hidden name ->
    numbered name i j -> exists f, In (name, f) (written_files c)
}.

(** "s[c]" and "sc" *)
Definition bracketed (s : string) (c : ascii) : string := (s ++ String "[" (String c "]"))%string.
Definition unbracketed (s : string) (c : ascii) : string := (s ++ String c "")%string.
