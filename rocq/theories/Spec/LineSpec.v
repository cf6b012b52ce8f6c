(** Points of a straight line between two pixels. *)
From Coq Require Import Reals.
From Verif Require Import Base.Base.

(** [a + k * d / n] cut towards zero to an integer. *)
Definition along (a d n k : Z) : Z := Z.quot (a * n + k * d) n.

(** Number of steps of one pixel along the longer side. *)
Definition longer (dy dx : Z) : Z := Z.max (Z.abs dy) (Z.abs dx).

Definition between (a b v : Z) : Prop := a <= v <= b \/ b <= v <= a.

(** Row at which the line through [(y1, x1)] and [(y2, x2)] crosses column [x]. *)
Definition ideal_row (y1 x1 y2 x2 x : Z) : R :=
  (IZR y1 + IZR (x - x1) * IZR (y2 - y1) / IZR (x2 - x1))%R.

(** Element [k] of a list of pixel numbers. *)
Definition item (l : list Z) (k v : Z) : Prop := 0 <= k /\ nth_error l (Z.to_nat k) = Some v.

(** The pixel of a line, or, where the line meets a pixel exactly, the next one towards zero. *)
Definition beside (a d n k v : Z) : Prop :=
  v = along a d n k \/ exists m, a * n + k * d = m * n /\ v = m - Z.sgn m.
