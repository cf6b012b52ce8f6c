(** Lines of pixels (micropolarray/processing/linear_roi.py 77-187). *)
From Coq Require Import Reals Floats.SpecFloat.
From Verif Require Import Base.Base Base.Num Model.Codec.

(** Numbers with Python's [int]. *)
Class ToInt (A : Type) : Type := toint : A -> result Z.
#[global] Instance ToInt_R : ToInt R := fun r => Ok (rtrunc r).
#[global] Instance ToInt_b64 : ToInt b64 := fun v =>
  match v with
  | S754_nan => Raise ValueError
  | S754_infinity _ => Raise ValueError (* OverflowError *)
  | S754_zero _ => Ok 0
  | S754_finite s m e =>
      let n := if 0 <=? e then Z.pos m * 2 ^ e else Z.pos m / 2 ^ (- e) in
      Ok (if s then - n else n)
  end.

Section Line.
  Context {A : Type} `{Num A} `{ToInt A}.

  (** 97-141, after [int] has been taken of the coordinates.  With equal points
      [dx / step] is 0/0 = nan in numpy, whose [int] raises ValueError. *)
  Definition DDA (y1 x1 y2 x2 : Z) : result (list Z * list Z * A) :=
    let dx := x2 - x1 in
    let dy := y2 - y1 in
    let step := if Z.abs dy <=? Z.abs dx then Z.abs dx else Z.abs dy in
    if step =? 0 then Raise ValueError else
    let dx := nofZ dx /! nofZ step in
    let dy := nofZ dy /! nofZ step in
    let* s := for_range 0 (step + 1) 1 (fun _ '(x, y, xs, ys) =>
        let x := x +! dx in
        let y := y +! dy in
        let* iy := toint y in
        let* ix := toint x in
        Ok (x, y, xs ++ [ix], ys ++ [iy]))
      (nofZ x1, nofZ y1, [x1], [y1]) in
    let '(_, _, xs, ys) := s in
    Ok (ys, xs,
        nsqrt (nofZ ((x2 - x1) * (x2 - x1) + (y2 - y1) * (y2 - y1))) /! nofZ (Z.of_nat (length xs))).

  (** [np.array([data[y, x] for y, x in zip(ys, xs)])] *)
  Fixpoint values {B} (data : arr B) (ys xs : list Z) : result (list B) :=
    match ys, xs with
    | y :: ys, x :: xs =>
        let* v := get data y x in
        let* rest := values data ys xs in
        Ok (v :: rest)
    | _, _ => Ok []
    end.

  (** 77-94 *)
  Definition linear_roi {B} (data : arr B) (y1 x1 y2 x2 : Z) : result (list Z * list Z * list B) :=
    let* r := DDA y1 x1 y2 x2 in
    let '(ys, xs, _) := r in
    let* vals := values data ys xs in
    Ok (ys, xs, vals).
End Line.

(** 144-187; [gradient = dy / float(dx)] is a binary64 number. *)
Definition bresenham (y1 x1 y2 x2 : Z) : result (list Z * list Z) :=
  let dx := Z.abs (x2 - x1) in
  let dy := Z.abs (y2 - y1) in
  if dx =? 0 then Raise ZeroDivisionError else
  let '(x1, y1, x2, y2, dx, dy) :=
    if nltb (@nofZ b64 _ 1) (nofZ dy /! nofZ dx) then (y1, x1, y2, x2, dy, dx) else (x1, y1, x2, y2, dx, dy) in
  let* s := for_range 2 (dx + 2) 1 (fun _ '(x, y, p, xs, ys) =>
      let '(y, p) := if 0 <? p then (if y <? y2 then y + 1 else y - 1, p + 2 * (dy - dx)) else (y, p + 2 * dy) in
      let x := if x <? x2 then x + 1 else x - 1 in
      Ok (x, y, p, xs ++ [x], ys ++ [y]))
    (x1, y1, 2 * dy - dx, [x1], [y1]) in
  let '(_, _, _, xs, ys) := s in
  Ok (ys, xs).
