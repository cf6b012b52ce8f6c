(** [np.mean(flat)] (micropolarray/micropol_image.py 407): numpy adds the pixels in an order of its own
    (pairwise, in blocks that depend on memory layout and processor) and divides by their number.
    An order is a tree of additions. *)
From Verif Require Import Base.Base Base.Num.

Inductive order (A : Type) : Type :=
| Pixel (v : A)
| Plus (l r : order A).
Arguments Pixel {A}.
Arguments Plus {A}.

Fixpoint order_pixels {A} (o : order A) : list A :=
  match o with Pixel v => [v] | Plus l r => order_pixels l ++ order_pixels r end.
Fixpoint depth {A} (o : order A) : nat :=
  match o with Pixel _ => 0%nat | Plus l r => S (Nat.max (depth l) (depth r)) end.

Section Mean.
  Context {A : Type} `{Num A}.
  Fixpoint added (o : order A) : A :=
    match o with Pixel v => v | Plus l r => added l +! added r end.
  Definition mean_in_order (o : order A) (n : Z) : A := added o /! nofZ n.
End Mean.
