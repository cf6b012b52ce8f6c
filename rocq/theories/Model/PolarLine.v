(** Lines from a centre along an angle (micropolarray/processing/linear_roi.py 11-74), over the
    real numbers. *)
From Coq Require Import Reals.
From Verif Require Import Base.Base Base.Num Model.Codec Model.LinRoi.

(** 49 and 61: [np.sqrt((center[1] - x) ** 2 + (center[0] - y) ** 2)] *)
Definition distance (cy cx y x : R) : R := sqrt ((cx - x) * (cx - x) + (cy - y) * (cy - y)).

(** 50-51, 63-64: one step along the angle. *)
Definition march (rad : R) : R * R -> R * R := fun '(y, x) => ((y - sin rad)%R, (x + cos rad)%R).

(** 67-70 *)
Definition outside (ht wd y x : Z) : bool := (ht <=? y) || (wd <=? x) || (y <? 0) || (x <? 0).

(** [l[:-2]] *)
Definition but_two (l : list Z) : list Z := firstn (length l - 2) l.

(** 66-72; [ys[-1]] of an empty list raises IndexError. *)
Fixpoint trim (fuel : nat) (ht wd : Z) (ys xs : list Z) : result (list Z * list Z) :=
  match rev ys, rev xs with
  | y :: _, x :: _ =>
      if outside ht wd y x then
        match fuel with
        | O => NoFuel
        | Datatypes.S f => trim f ht wd (but_two ys) (but_two xs)
        end
      else Ok (ys, xs)
  | _, _ => Raise IndexError
  end.

(** 11-74; [theta] in degrees, [r] the optional pair of radii. *)
Definition linear_roi_from_polar {B} (fuel : nat) (data : arr B) (cy cx theta : R) (r : option (R * R)) :
    result (list B * list Z * list Z * R) :=
  let '(rin, rout) := match r with Some p => p | None => (0%R, IZR (10 ^ 18)) end in
  let rad := (theta * PI / 180)%R in
  let* p1 := while_loop fuel (fun '(y, x) => Rltb (distance cy cx y x) rin) (march rad) (cy, cx) in
  let* p2 := while_loop fuel (fun '(y, x) =>
      Rltb y (IZR (rows data)) && Rltb 1 y && Rltb x (IZR (cols data)) && Rltb 1 x &&
      Rltb (distance cy cx y x) (rout - 1)) (march rad) (cy, cx) in
  let '(y1, x1) := p1 in
  let '(y2, x2) := p2 in
  let* d := DDA (A := R) (rtrunc y1) (rtrunc x1) (rtrunc y2) (rtrunc x2) in
  let '(ys, xs, density) := d in
  let* s := trim fuel (rows data) (cols data) ys xs in
  let '(ys, xs) := s in
  let* vals := values data ys xs in
  Ok (vals, ys, xs, density).
