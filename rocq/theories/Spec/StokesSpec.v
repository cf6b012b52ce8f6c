(** What it means for a stack [I, Q, U] to hold given fields of values. *)
From Verif Require Import Base.Base Model.Stokes.

Definition stokes_is {A} (s : stokes A) (h w : Z) (fI fQ fU : Z -> Z -> A) : Prop :=
  (rows (sI s) = h /\ cols (sI s) = w) /\
  (rows (sQ s) = h /\ cols (sQ s) = w) /\
  (rows (sU s) = h /\ cols (sU s) = w) /\
  forall y x, 0 <= y < h -> 0 <= x < w ->
    cell (sI s) y x = fI y x /\ cell (sQ s) y x = fQ y x /\ cell (sU s) y x = fU y x.
