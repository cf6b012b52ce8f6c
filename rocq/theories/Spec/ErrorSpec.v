(** First-order propagation of errors. *)
From Coq Require Import Reals.
From Verif Require Import Base.Base Base.Num Model.Stokes.
Local Open Scope R_scope.

(** [s] is the error of [f I Q U] for errors [si], [sq], [su] on I, Q, U: the root of the sum of
    the squares of the partial derivatives times the errors. *)
Definition first_order (f : R -> R -> R -> R) (I Q U si sq su s : R) : Prop :=
  exists dI dQ dU,
    derivable_pt_lim (fun t => f t Q U) I dI /\
    derivable_pt_lim (fun t => f I t U) Q dQ /\
    derivable_pt_lim (fun t => f I Q t) U dU /\
    s = sqrt ((dI * si) * (dI * si) + (dQ * sq) * (dQ * sq) + (dU * su) * (dU * su)).

(** An image of one pixel. *)
Definition pixel (I Q U : R) : stokes R := mkstokes (full 1 1 I) (full 1 1 Q) (full 1 1 U).
Definition value (a : arr R) : R := cell a 0%Z 0%Z.
