(** Calibrations and images that are slightly wrong (vocabulary for C116). *)
From Coq Require Import Reals.
From Verif Require Import Base.Base Model.DemodFit Spec.DemodSpec Spec.FitSpec.
Local Open Scope R_scope.

(** A micropolarizer: throughput and efficiency are fractions. *)
Definition polarizer (p : param3) : Prop := 0 <= p_t p <= 1 /\ 0 <= p_e p <= 1.

(** Two micropolarizers that differ by at most [dt] in throughput, [de] in efficiency and [df] in orientation *)
Definition near (dt de df : R) (p q : param3) : Prop :=
  Rabs (p_t p - p_t q) <= dt /\ Rabs (p_e p - p_e q) <= de /\ Rabs (p_phi p - p_phi q) <= df.

(** No more light is polarized than there is. *)
Definition light (I Q U : R) : Prop := 0 <= I /\ Q * Q + U * U <= I * I.

(** Row [i] of a 3x4 matrix amplifies errors at most by this. *)
Definition row_sum (m : Z -> Z -> R) (i : Z) : R := sum4 (fun k => Rabs (m i k)).

(** The three numbers are known up to [e0], [e1], [e2]. *)
Definition known_to (e0 e1 e2 I Q U I' Q' U' : R) : Prop :=
  Rabs (I' - I) <= e0 /\ Rabs (Q' - Q) <= e1 /\ Rabs (U' - U) <= e2.
