(** Termination and non-termination of fuelled models. *)
From Verif Require Import Base.Base.

(** The computation returns a value satisfying [P] (the same for all large enough fuel). *)
Definition returns {A} (f : nat -> result A) (P : A -> Prop) : Prop :=
  exists r, P r /\ exists n, forall fuel, (n <= fuel)%nat -> f fuel = Ok r.

(** The computation returns [r] (for every large enough amount of fuel). *)
Definition evaluates {A} (f : nat -> result A) (r : A) : Prop :=
  exists n, forall fuel, (n <= fuel)%nat -> f fuel = Ok r.

(** The computation never returns, whatever the number of loop iterations allowed. *)
Definition never_returns {A} (f : nat -> result A) : Prop := forall fuel, f fuel = NoFuel.

(** The computation ends with an exception. *)
Definition raises {A} (r : result A) : Prop := exists e, r = Raise e.
