(** Figures made of a grid of panels (vocabulary for C115). *)
From Coq Require Import Reals String.
From Verif Require Import Base.Base Model.Demodulate Model.Show Model.ShowDemod.

(** The panel in row [i] and column [j] of a grid of [c] columns that was added first to the figure *)
Definition panel_in (c : nat) (fig : figure) (i j : nat) : option (panel string) :=
  match nth_error fig (c * i + j) with Some p => p | None => None end.

(** [ax] is the array of the axes of the r x c panels. *)
Definition axes_array (r c : Z) (ax : ax_value) : Prop :=
  exists at_, ax = AxArray r c at_ /\ forall i j, 0 <= i < r -> 0 <= j < c -> at_ i j = c * i + j.
