(** Normalising signal from a histogram: micropolarray/utils.py 250-307, and the same computation in
    micropolarray/processing/demodulation.py 427-468.  Real numbers. *)
From Coq Require Import Reals.
From Verif Require Import Base.Base Base.Num Model.Demosaic.
Local Open Scope R_scope.

Definition smallest (v : R) (l : list R) : R := fold_left Rmin l v.
Definition largest (v : R) (l : list R) : R := fold_left Rmax l v.

(** np.histogram(values, bins): the counts and the bins + 1 edges.  The last bin includes its upper
    edge; an empty array gets the range (0, 1), a constant one (v - 0.5, v + 0.5). *)
Definition hist_range (values : list R) : R * R :=
  match values with
  | [] => (0, 1)
  | v :: l => let a := smallest v l in
              let b := largest v l in
              if Reqb a b then (a - 1 / 2, b + 1 / 2) else (a, b)
  end.
Definition edge (values : list R) (bins k : Z) : R :=
  let '(a, b) := hist_range values in a + IZR k * ((b - a) / IZR bins).
Definition in_bin (values : list R) (bins i : Z) (v : R) : bool :=
  Rleb (edge values bins i) v &&
  (Rltb v (edge values bins (i + 1)) || ((i =? bins - 1)%Z && Rleb v (edge values bins bins))).
Definition histogram (values : list R) (bins : Z) : list Z * list R :=
  (map (fun i => Z.of_nat (length (filter (in_bin values bins i) values))) (zrange bins),
   map (edge values bins) (zrange (bins + 1))).

(** [np.where(l == np.max(l))[0][0]] for non-negative numbers *)
Definition max_count (l : list Z) : Z := fold_right Z.max 0%Z l.
Fixpoint first_equal (m : Z) (l : list Z) (i : Z) : result Z :=
  match l with
  | [] => Raise IndexError
  | v :: l => if (v =? m)%Z then Ok i else first_equal m l (i + 1)
  end.
Definition modal_index (l : list Z) : result Z := first_equal (max_count l) l 0.

(** [l[a:b]] and [l[i]] *)
Definition clip (n i : Z) : Z := Z.min n (Z.max 0 (if (i <? 0)%Z then i + n else i)).
Definition pyslice {X} (l : list X) (a b : Z) : list X :=
  let n := Z.of_nat (length l) in
  let a := clip n a in
  let b := clip n b in
  firstn (Z.to_nat (b - a)) (skipn (Z.to_nat a) l).
Definition item {X} (l : list X) (i : Z) : result X :=
  let n := Z.of_nat (length l) in
  match nth_error l (Z.to_nat (if (i <? 0)%Z then i + n else i)) with
  | Some v => if (- n <=? i)%Z && (i <? n)%Z then Ok v else Raise IndexError
  | None => Raise IndexError
  end.

(** scipy's curve_fit of the Gaussian to (x, y) from the given start: an oracle that returns
    (norm, x_0, sigma) or raises. *)
Definition fitter : Type := list R -> list R -> R * R * R -> result (R * R * R).

(** Subtracting arrays of different lengths (both above 1 here) raises ValueError inside curve_fit. *)
Definition curve_fit (fit : fitter) (x y : list R) (p : R * R * R) : result (R * R * R) :=
  if negb (length x =? length y)%nat then Raise ValueError else fit x y p.

Definition hist_roi : Z := 10.

Definition normalizing_signal (fit : fitter) (S_max : list R) : result R :=
  let histo := histogram S_max 1000 in
  let* index := modal_index (fst histo) in
  let* _ := item (snd histo) index in
  let* _ := item (snd histo) (index + 1) in
  let* _ := item (snd histo) (index - 1) in
  let xvalues := pyslice (snd histo) (index - hist_roi) (index + hist_roi) in
  let yvalues := pyslice (fst histo) (index - hist_roi) (index + hist_roi) in
  let yvalues_sum := fold_right Z.add 0%Z yvalues in
  let yvalues := map (fun c => IZR c / IZR yvalues_sum) yvalues in
  (* the comprehension evaluates xvalues[1] - xvalues[0] once for each element *)
  let* xvalues :=
    match xvalues with
    | [] => Ok []
    | _ :: _ => let* x1 := item xvalues 1 in
                let* x0 := item xvalues 0 in
                Ok (map (fun v => v + (x1 - x0) / 2) xvalues)
    end in
  let* norm := item yvalues (Z.of_nat (length yvalues) / 2) in
  let* center := item xvalues (Z.of_nat (length xvalues) / 2) in
  let* right_ := item xvalues (Z.of_nat (length xvalues) / 2 + hist_roi / 2) in
  let* center' := item xvalues (Z.of_nat (length xvalues) / 2) in
  let* params := curve_fit fit xvalues yvalues (norm, center, right_ - center') in
  let '(_, x_0, sigma) := params in
  Ok (x_0 + 4 * sigma).

Definition pixels (a : arr R) : list R := concat (to_list a).

(** utils.py 250-307 (without plotting); the four images have one shape. *)
Definition get_malus_normalization (fit : fitter) (q : quad R) : result R :=
  let S_max := mkarr (rows (q0 q)) (cols (q0 q)) (fun y x =>
    1 / 2 * (cell (q0 q) y x + cell (q1 q) y x + cell (q2 q) y x + cell (q3 q) y x)) in
  normalizing_signal fit (pixels S_max).
