(** Answers of a circle detector and profiles of an image. *)
From Coq Require Import Reals.
From Verif Require Import Base.Base Model.OcculterSearch Spec.OcculterSpec.

(** Threshold number [n] of the search *)
Definition threshold (n : nat) : Z := 10 + 5 * Z.of_nat n.

Definition several (answer : option (list (R * R * R))) : Prop :=
  exists c c' l, answer = Some (c :: c' :: l).

(** The answers for the image of a search *)
Definition answers {B} (cv : opencv B) (scaled : arr R) (side : Z) (minr maxr : R) (n : nat)
  : option (list (R * R * R)) :=
  circles_of cv (blur cv scaled) side (threshold n) minr maxr.

(** [m] is the greatest value. *)
Definition brightest (d : arr R) (m : R) : Prop :=
  (exists y x, 0 <= y < rows d /\ 0 <= x < cols d /\ cell d y x = m) /\
  forall y x, 0 <= y < rows d -> 0 <= x < cols d -> (cell d y x <= m)%R.

(** The values of a profile *)
Definition samples (profile : Z -> R) (n : Z) : list R := map profile (zrange n).

(** Fitting the profile puts its edge at [p], whatever the starting values. *)
Definition edge_at (fit : sigmoid_fit) (profile : Z -> R) (n : Z) (p : R) : Prop :=
  forall start, exists a b c, fit (samples profile n) start = Ok (a, b, c, p).
