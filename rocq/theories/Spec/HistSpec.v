(** Histograms. *)
From Coq Require Import Reals.
From Verif Require Import Base.Base.

(** [i] is the first of the fullest bins. *)
Definition first_modal (counts : list Z) (i : Z) : Prop :=
  exists m, 0 <= i /\ nth_error counts (Z.to_nat i) = Some m /\
    (forall j c, nth_error counts j = Some c -> c <= m) /\
    (forall j c, (j < Z.to_nat i)%nat -> nth_error counts j = Some c -> c < m).

(** How many of the values equal [v]. *)
Definition occurrences (v : R) (l : list R) : Z :=
  Z.of_nat (length (filter (fun u => if Req_EM_T u v then true else false) l)).

Definition is_min (v : R) (l : list R) : Prop := In v l /\ forall u, In u l -> (v <= u)%R.
Definition is_max (v : R) (l : list R) : Prop := In v l /\ forall u, In u l -> (u <= v)%R.
