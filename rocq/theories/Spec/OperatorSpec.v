(** Arithmetic expressions with images (vocabulary for C140). *)
From Coq Require Import Reals.
From Verif Require Import Base.Base Model.Stokes Model.ImageObj Model.Operators Spec.MosaicSpec.

Inductive kind : Set := KNumber | KArray | KPlain | KMicropol.

Definition kind_of (v : value) : kind :=
  match v with Number _ => KNumber | Array _ => KArray | Plain _ => KPlain | Micropol _ _ => KMicropol end.

(** The number a value shows at a pixel. *)
Definition shown_at (v : value) (y x : Z) : R :=
  match v with Number s => s | Array a | Plain a | Micropol a _ => cell a y x end.

(** Arrays and images of [h] rows and [w] columns, MicropolImages with a dictionary of the four angles. *)
Definition sized (h w : Z) (v : value) : Prop :=
  match v with
  | Number _ => True
  | Array a | Plain a => rows a = h /\ cols a = w
  | Micropol a dic => rows a = h /\ cols a = w /\ exists p, describes dic p
  end.
Fixpoint all_sized (h w : Z) (e : expr) : Prop :=
  match e with Leaf v => sized h w v | Op _ l r => all_sized h w l /\ all_sized h w r end.

(** What an expression means for one pixel. *)
Definition calculate (f : arith) (u v : R) : R :=
  match f with Add => (u + v)%R | Sub => (u - v)%R | Mul => (u * v)%R | Div => (u / v)%R end.
Fixpoint meaning (e : expr) (y x : Z) : R :=
  match e with Leaf v => shown_at v y x | Op f l r => calculate f (meaning l y x) (meaning r y x) end.

(** No divisor is zero anywhere in an image of h rows and w columns. *)
Fixpoint no_zero_divisor (h w : Z) (e : expr) : Prop :=
  match e with
  | Leaf _ => True
  | Op f l r => no_zero_divisor h w l /\ no_zero_divisor h w r /\
      (f = Div -> forall y x, 0 <= y < h -> 0 <= x < w -> meaning r y x <> 0%R)
  end.

(** Which operands go together: [accepts l r k] if [l] on the left and [r] on the right give a [k]. *)
Inductive accepts : kind -> kind -> kind -> Prop :=
| acc_numbers : accepts KNumber KNumber KNumber
| acc_array_left r : r = KNumber \/ r = KArray -> accepts KArray r KArray
| acc_array_right : accepts KNumber KArray KArray
| acc_image k r : k = KPlain \/ k = KMicropol -> r = KNumber \/ r = KArray \/ r = k -> accepts k r k.

Inductive makes : expr -> kind -> Prop :=
| mk_leaf v : makes (Leaf v) (kind_of v)
| mk_op f l r a b k : makes l a -> makes r b -> accepts a b k -> makes (Op f l r) k.

(** The first image an expression names is the dictionary's owner. *)
Fixpoint leftmost (e : expr) : value :=
  match e with Leaf v => v | Op _ l _ => leftmost l end.

Definition is_image (k : kind) : Prop := k = KPlain \/ k = KMicropol.

(** The pixel of the sum of images. *)
Definition sum_at (l : list value) (y x : Z) : R := fold_right (fun v s => (shown_at v y x + s)%R) 0%R l.
