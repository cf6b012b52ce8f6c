(** Arrays of any number of dimensions (vocabulary for C147). *)
From Coq Require Import Reals.
From Verif Require Import Base.Base Model.CongridKind Model.CongridNd Spec.InterpSpec Spec.PickSpec.
Local Open Scope Z_scope.

(** An index of an array of that shape *)
Definition index_in (sh l : list Z) : Prop := Forall2 (fun n i => 0 <= i < n) sh l.

(** [v] is the multilinear interpolation of the samples [f] of that shape at a position, axis by axis. *)
Inductive multilinear : list Z -> (list Z -> R) -> list R -> R -> Prop :=
| multilinear_nil f : multilinear [] f [] (f [])
| multilinear_cons n sh f i t p v w : 0 <= i <= n - 2 -> (0 <= t <= 1)%R ->
    multilinear sh (fun l => f (i :: l)) p v -> multilinear sh (fun l => f (i + 1 :: l)) p w ->
    multilinear (n :: sh) f ((IZR i + t)%R :: p) ((1 - t) * v + t * w)%R.

(** Where the index [l] of an array of shape [new] lies in one of shape [old] *)
Fixpoint spreads (old new l : list Z) : list R :=
  match old, new, l with
  | n :: old, m :: new, k :: l => spread n m k :: spreads old new l
  | _, _, _ => []
  end.

(** The index [j] is, axis by axis, what the kind asks for there up to rounding. *)
Inductive stands_for (kd : kind) : list Z -> list Z -> list Z -> list Z -> Prop :=
| stands_nil : stands_for kd [] [] [] []
| stands_cons n old m new k l i j : 0 <= i < n -> asked_near kd (position_error n) (spread n m k) i ->
    stands_for kd old new l j -> stands_for kd (n :: old) (m :: new) (k :: l) (i :: j).

(** An image as an array *)
Definition image_tensor {A} (a : arr A) : tensor A :=
  mktensor [rows a; cols a] (fun l => cell a (nth 0 l 0) (nth 1 l 0)).
