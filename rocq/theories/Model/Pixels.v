(** Writing pixels of an image through its [data] attribute: the property (micropolarray/image.py
    117-119) hands out the array itself, so [image.data[y, x] = v] writes into the memory the
    heap of Model/ImageObj.v holds, without the setter (121-132). *)
From Coq Require Import Reals.
From Verif Require Import Base.Base Model.ImageObj.

Definition write_array (p : nat) (a : arr R) (h : heap) : heap :=
  mkheap (replace (arrays h) p a) (headers h) (vectors h) (quads h) (images h) (default_angles h).

Definition store (i : nat) (y x : Z) (v : R) (h : heap) : heap * result (option nat) :=
  match nth_error (images h) i with
  | None => (h, Raise NameError)
  | Some im =>
      match nth_error (arrays h) (i_data im) with
      | None => (h, Raise RuntimeError)
      | Some a =>
          match set a y x v with
          | Ok b => (write_array (i_data im) b h, Ok None)
          | Raise e => (h, Raise e)
          | NoFuel => (h, NoFuel)
          end
      end
  end.

(** Calls of the package and stores by the user, in any order. *)
Inductive act : Type :=
| Call (W : outside) (c : op)
| Store (i : nat) (y x : Z) (v : R).
Definition perform (a : act) (h : heap) : heap * result (option nat) :=
  match a with
  | Call W c => exec W c h
  | Store i y x v => store i y x v h
  end.
Definition run_acts (acts : list act) : heap -> heap :=
  fold_left (fun h a => fst (perform a h)) acts.
