(** Counting values inside and outside of limits. *)
From Coq Require Import Reals.
From Verif Require Import Base.Base Spec.CleanSpec.
Local Open Scope R_scope.

(** Values of an image, row by row *)
Definition values (a : arr R) : list R := concat (to_list a).

(** [n] of the values of [l] satisfy [P]. *)
Inductive count (P : R -> Prop) : list R -> nat -> Prop :=
| count_nil : count P [] 0
| count_yes v l n : P v -> count P l n -> count P (v :: l) (S n)
| count_no v l n : ~ P v -> count P l n -> count P (v :: l) n.

Definition outside (lo hi v : R) : Prop := v < lo \/ hi < v.
Definition inside (lo hi v : R) : Prop := lo <= v <= hi.

(** Population standard deviation *)
Definition deviation (l : list R) : R := sqrt (average (map (fun v => (v - average l) * (v - average l)) l)).

(** A middle value: at least half of the values on either side *)
Definition middle (l : list R) (m : R) : Prop :=
  forall below above, count (fun v => v <= m) l below -> count (fun v => m <= v) l above ->
    (length l <= 2 * below)%nat /\ (length l <= 2 * above)%nat.
