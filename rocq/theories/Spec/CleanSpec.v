(** Otsu's criterion, spikes and majorities. *)
From Coq Require Import Reals.
From Verif Require Import Base.Base Base.Num Spec.HistSpec.
Local Open Scope R_scope.

Definition total (l : list R) : R := fold_right Rplus 0 l.
Definition average (l : list R) : R := total l / INR (length l).

(** The average of the values on the same side of the threshold as [v]. *)
Definition class_average (t : R) (l : list R) (v : R) : R :=
  average (filter (fun u => Bool.eqb (Rltb u t) (Rltb v t)) l).

(** Within-class variance: mean squared distance of each value to the average of its own class. *)
Definition within (t : R) (l : list R) : R :=
  average (map (fun v => (v - class_average t l v) * (v - class_average t l v)) l).

(** [n] values [c], but for [v] at position [p]. *)
Definition spike (n p : nat) (c v : R) : list R := repeat c p ++ v :: repeat c (n - p - 1).

(** More than half of the values are [c]. *)
Definition majority (c : R) (l : list R) : Prop := (Z.of_nat (length l) < 2 * occurrences c l)%Z.
