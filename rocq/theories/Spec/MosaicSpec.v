(** Specification vocabulary for micropolarizer mosaics. *)
From Coq Require Import Reals.
From Verif Require Import Base.Base Base.Num.

(** The family-k sample of superpixel (Y, X); k = 0..3 numbers the pixels of a
    superpixel row by row. *)
Definition sample {A} (d : arr A) (k Y X : Z) : A := cell d (2 * Y + k / 2) (2 * X + k mod 2).

(** Even-sided image. *)
Definition mosaic {A} (d : arr A) : Prop :=
  0 <= rows d /\ 0 <= cols d /\ rows d mod 2 = 0 /\ cols d mod 2 = 0.

(** Next superpixel, replicated at the last one of [n] superpixels. *)
Definition next (n Y : Z) : Z := Z.min (Y + 1) (n - 1).

(** Interpolated value of family k at pixel (y, x): the sample itself at the top-left
    pixel of each superpixel, averages with the next superpixels elsewhere. *)
Definition interpolated {A} `{Num A} (d : arr A) (k y x : Z) : A :=
  let Y := y / 2 in
  let X := x / 2 in
  let Y' := next (rows d / 2) Y in
  let X' := next (cols d / 2) X in
  let s := sample d k in
  if y mod 2 =? 0 then
    if x mod 2 =? 0 then s Y X else nhalf *! (s Y X +! s Y X')
  else
    if x mod 2 =? 0 then nhalf *! (s Y X +! s Y' X)
    else (((s Y X +! s Y' X) +! s Y X') +! s Y' X') *! nquart.

(** Family of a pixel position. *)
Definition family (y x : Z) : Z := 2 * (y mod 2) + x mod 2.

(** An angle dictionary that assigns the four nominal angles to the four positions. *)
Record arrangement : Type := mkarrangement { p0 : Z; p45 : Z; pm45 : Z; p90 : Z }.

Definition arrangement_ok (a : arrangement) : Prop :=
  (0 <= p0 a < 4) /\ (0 <= p45 a < 4) /\ (0 <= pm45 a < 4) /\ (0 <= p90 a < 4) /\
  p0 a <> p45 a /\ p0 a <> pm45 a /\ p0 a <> p90 a /\
  p45 a <> pm45 a /\ p45 a <> p90 a /\ pm45 a <> p90 a.

(** A Python dictionary (association list, distinct keys) that describes it, in any order. *)
Definition describes (dic : list (Z * Z)) (a : arrangement) : Prop :=
  arrangement_ok a /\ NoDup (map fst dic) /\
  In (0, p0 a) dic /\ In (45, p45 a) dic /\ In (-45, pm45 a) dic /\ In (90, p90 a) dic.

(** Intensity behind an ideal linear polarizer at angle [theta] for light (I, Q, U). *)
Definition ideal (theta I Q U : R) : R := ((I + Q * cos (2 * theta) + U * sin (2 * theta)) / 2)%R.
