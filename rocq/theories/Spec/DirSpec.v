(** Paths and what is found there. *)
From Coq Require Import String.
From Verif Require Import Base.Base Model.Paths Model.Fs.

(** The absolute path meant by a name *)
Definition meant (cwd name : string) : ppath :=
  let q := ppath_of name in if pis_abs q then q else pjoin (ppath_of cwd) q.

Definition found (cwd : string) (s : fs) (q : ppath) : option node := s (key cwd (ppath_str q)).

(** Nothing, or a folder *)
Definition no_file (n : option node) : Prop := n = None \/ n = Some Dir.

(** The folders on the way to [q], itself included *)
Definition on_the_way (q : ppath) (d : ppath) : Prop :=
  exists n, d = {| proot := proot q; pparts := firstn n (pparts q) |}.

(** The last part of the path has an extension. *)
Definition looks_like_file (q : ppath) : Prop := psuffix q <> ""%string.

(** The name can be written to: folders on the way exist or can be created, and the file is
    not one of them. *)
Definition writable (cwd name : string) (s : fs) : Prop :=
  (forall q, on_the_way (pparent (meant cwd name)) q -> no_file (found cwd s q)) /\
  found cwd s {| proot := proot (meant cwd name); pparts := [] |} = Some Dir /\
  (forall q, on_the_way (pparent (meant cwd name)) q -> key cwd (ppath_str q) <> key cwd name) /\
  s (key cwd name) <> Some Dir.
