(** The radial filter over any type of numbers, in particular binary64: micropolarray/processing/nrgf.py 150-172 with the
    default angles (all pixels).  np.mean and np.std with [where] add the selected pixels in an order of their own
    (Model/MeanFloat.v): for the ring that begins at [r], [plan r] gives the orders of the pixels for the mean (which
    np.std computes again in the same way) and for the squares; [None] stands for a ring without pixels, where both are NaN.  [rho_max] is int(np.max(rho_coords)). *)
From Verif Require Import Base.Base Base.Num Model.MeanFloat.

Fixpoint order_map {A B} (f : A -> B) (o : order A) : order B :=
  match o with Pixel v => Pixel (f v) | Plus l r => Plus (order_map f l) (order_map f r) end.

Record ring_plan : Type := mkplan { sum_mean : order (Z * Z); sum_squares : order (Z * Z); ring_size : Z }.

Section Nrgf.
  Context {A : Type} `{Num A}.
  Definition pixel (data : arr A) (p : Z * Z) : A := cell data (fst p) (snd p).
  (** np.mean(data, where=mean_condition) *)
  Definition ring_mean (data : arr A) (o : order (Z * Z)) (n : Z) : A := mean_in_order (order_map (pixel data) o) n.
  (** np.std(data, where=mean_condition): mean, deviations, squares, mean of the squares, root *)
  Definition ring_std (data : arr A) (o o' : order (Z * Z)) (n : Z) : A :=
    let m := ring_mean data o n in
    nsqrt (mean_in_order (order_map (fun p => let d := pixel data p -! m in d *! d) o') n).
  Definition ring_output (data : arr A) (pl : option ring_plan) (v : A) : A :=
    match pl with
    | None => n0
    | Some pl =>
        let m := ring_mean data (sum_mean pl) (ring_size pl) in
        let s := ring_std data (sum_mean pl) (sum_squares pl) (ring_size pl) in
        if nltb n0 s then (v -! m) /! s else n0
    end.

  (** nrgf.py 98: the sum of squares is an integer *)
  Definition distance (cy cx y x : Z) : A := nsqrt (nofZ ((x - cx) * (x - cx) + (y - cy) * (y - cy))).
  Definition in_ring (cy cx r step y x : Z) : bool :=
    nltb (nofZ r) (distance cy cx y x) && nleb (distance cy cx y x) (nofZ (r + step)).
  Definition nrgf_full (plan : Z -> option ring_plan) (data : arr A) (cy cx rho_min rho_max step : Z) : result (arr A) :=
    for_range rho_min rho_max step (fun r newdata =>
      Ok (mkarr (rows data) (cols data) (fun y x =>
        if in_ring cy cx r step y x then ring_output data (plan r) (cell data y x) else cell newdata y x)))
      (full (rows data) (cols data) n0).
End Nrgf.
