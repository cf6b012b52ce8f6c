(** Histograms given by counts and edges; panels of a figure. *)
From Coq Require Import Reals.
From Verif Require Import Base.Base Spec.LimitSpec Spec.CleanSpec.
Local Open Scope R_scope.

(** [v] lies in bin [i]: not below the lower edge and below the upper one; the last bin has its upper edge. *)
Definition in_bin_of (edges : list R) (i : nat) (v : R) : Prop :=
  exists lo hi, nth_error edges i = Some lo /\ nth_error edges (S i) = Some hi /\
    lo <= v /\ (v < hi \/ (v = hi /\ length edges = S (S i))).

(** Equal bins from [a] to [b] *)
Definition equal_bins (edges : list R) (bins : nat) (a b : R) : Prop :=
  length edges = S bins /\
  forall i, (i <= bins)%nat -> nth_error edges i = Some (a + INR i * ((b - a) / INR bins)).

(** Each count is the number of values in the bin. *)
Definition counts_of (l : list R) (counts : list Z) (edges : list R) : Prop :=
  length edges = S (length counts) /\
  forall i c, nth_error counts i = Some c -> exists n, c = Z.of_nat n /\ count (in_bin_of edges i) l n.

(** Limits around the mean *)
Definition mean_limits (l : list R) (lo hi : option R) : Prop :=
  lo = Some (average l - deviation l) /\ hi = Some (average l + deviation l).

(** A range is not upside down. *)
Definition valid_range (range : option (R * R)) : Prop :=
  match range with None => True | Some (a, b) => a <= b end.

(** The ends of the bins: the given ones, otherwise the smallest and the largest value; moved apart by
    one half each if they coincide. *)
Definition bin_ends (l : list R) (range : option (R * R)) (a b : R) : Prop :=
  exists lo hi,
    match range with
    | Some ends => ends = (lo, hi)
    | None => (In lo l /\ forall v, In v l -> lo <= v) /\ (In hi l /\ forall v, In v l -> v <= hi)
    end /\
    ((lo <> hi /\ a = lo /\ b = hi) \/ (lo = hi /\ a = lo - 1 / 2 /\ b = hi + 1 / 2)).

Definition total_count (counts : list Z) : Z := fold_right Z.add 0%Z counts.

(** A superpixel with two values, equal in each row. *)
Definition two_values : arr R := mkarr 2 2 (fun y x => if (y =? 0)%Z then 0 else 1).
