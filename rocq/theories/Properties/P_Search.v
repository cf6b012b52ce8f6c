(** Properties C90, C91 and C92: searching the occulter and the defaults of the radial filter. *)
From Coq Require Import Reals Lra.
From Verif Require Import Base.Base Base.Num Model.Nrgf Model.OcculterSearch Spec.Terminates Spec.SumSpec Spec.CodecSpec
  Spec.OcculterSpec Spec.SearchSpec Proofs.SearchFacts.
Local Open Scope R_scope.

(** ** C90.  [n] is the number of the first threshold 10, 15, 20, ... with at most one circle. *)
Theorem C90_search {B} (cv : opencv B) data minr maxr m n a :
  brightest data m -> m <> 0 ->
  let side := Z.max (rows data) (cols data) in
  let answer := answers cv (amap (fun v => 255 * v / m) data) side minr (match maxr with None => IZR side | Some r => r end) in
  (forall j, (j < n)%nat -> several (answer j)) -> ~ several (answer n) -> answer n = a ->
  exists N, forall fuel, (N <= fuel)%nat -> find_occulter_hough cv fuel data minr maxr =
    match a with Some ((x, y, r) :: _) => Ok (y, x, r) | Some [] => Raise IndexError | None => Raise TypeError end.
Proof. exact (hough_found' cv data minr maxr m n a). Qed.
Print Assumptions C90_search.

(** A detector that always finds several keeps it searching. *)
Theorem C90_always_several {B} (cv : opencv B) data minr maxr m :
  brightest data m -> m <> 0 ->
  let side := Z.max (rows data) (cols data) in
  (forall j, several (answers cv (amap (fun v => 255 * v / m) data) side minr
                        (match maxr with None => IZR side | Some r => r end) j)) ->
  never_returns (fun fuel => find_occulter_hough cv fuel data minr maxr).
Proof. exact (hough_never' cv data minr maxr m). Qed.
Print Assumptions C90_always_several.

Theorem C90_empty {B} (cv : opencv B) fuel data minr maxr :
  rows data = 0%Z \/ cols data = 0%Z -> find_occulter_hough cv fuel data minr maxr = Raise ValueError.
Proof. exact (hough_empty cv fuel data minr maxr). Qed.
Print Assumptions C90_empty.

(** The gain of the detector does not matter. *)
Theorem C90_gain {B} (cv : opencv B) fuel data minr maxr g m :
  0 < g -> brightest data m -> m <> 0 -> (forall a b, a =a= b -> blur cv a = blur cv b) ->
  find_occulter_hough cv fuel (amap (fun v => g * v) data) minr maxr = find_occulter_hough cv fuel data minr maxr.
Proof. exact (hough_gain cv fuel data minr maxr g m). Qed.
Print Assumptions C90_gain.

Example C90_case :
  let data := mkarr 3 4 (fun y x => IZR (y + x)) in
  let cv : opencv (arr R) := mkopencv (fun a => a) (fun _ _ acc _ _ => if (acc <? 20)%Z then Some [(1, 2, 3); (4, 5, 6)] else Some [(1, 2, 3)]) in
  brightest data 5 /\
  several (answers cv (amap (fun v => 255 * v / 5) data) 4 1 4 0) /\ several (answers cv (amap (fun v => 255 * v / 5) data) 4 1 4 1) /\
  answers cv (amap (fun v => 255 * v / 5) data) 4 1 4 2 = Some [(1, 2, 3)] /\
  find_occulter_hough cv 10 data 1 None = Ok (2, 1, 3).
Proof. exact search_case. Qed.

(** ** C91.  Full statement: a missing centre is the centre of the image and a missing minimum
    radius is 0.  If all three are given no fit is made, *)
Theorem C91_given_partial fit fit' data y x r step tm to :
  nrgf_call fit data (Some y) (Some x) (Some r) step tm to = nrgf_call fit' data (Some y) (Some x) (Some r) step tm to.
Proof. exact (nrgf_given fit fit' data y x r step tm to). Qed.
Print Assumptions C91_given_partial.

(** but if one is missing the others are ignored, *)
Theorem C91_ignored_refuted fit data y x r step tm to :
  y = None \/ x = None \/ r = None ->
  nrgf_call fit data y x r step tm to = nrgf_call fit data None None None step tm to.
Proof. exact (nrgf_ignored fit data y x r step tm to). Qed.
Print Assumptions C91_ignored_refuted.

(** the filter is centred where the fits find the occulter, *)
Theorem C91_fitted fit data step tm to y x r :
  find_occulter_sigmoid fit data = Ok (y, x, r) ->
  nrgf_call fit data None None None step tm to =
  nrgf_call fit data (Some (IZR y)) (Some (IZR x)) (Some r) step tm to.
Proof. exact (nrgf_uses fit data step tm to y x r). Qed.
Print Assumptions C91_fitted.

(** and fails if the first fit does. *)
Theorem C91_fit_fails_refuted fit data y x r step tm to e :
  y = None \/ x = None \/ r = None -> (2 <= rows data)%Z -> (2 <= cols data)%Z ->
  (forall start, fit (samples (upwards data (rows data / 2) (cols data / 2)) (rows data / 2)) start = Raise e) ->
  nrgf_call fit data y x r step tm to = Raise e.
Proof. exact (nrgf_fit_fails fit data y x r step tm to e). Qed.
Print Assumptions C91_fit_fails_refuted.

(** An image and fits for which nrgf(data, 2, 2) is zero everywhere and nrgf(data, 2, 2, 0) is
    normalised on the ring around (1, 1). *)
Theorem C91_defaults_refuted :
  let data := mkarr 5 5 (fun y x => IZR (y + x)) in
  let fit : sigmoid_fit := fun _ _ => Ok (1, 0, 1, 100) in
  exists out out' P,
    nrgf_call fit data (Some 2) (Some 2) None 1 (0, 360) (0, 360) = Ok out /\
    nrgf_call fit data (Some 2) (Some 2) (Some 0%Z) 1 (0, 360) (0, 360) = Ok out' /\
    (forall y x, (0 <= y < 5)%Z -> (0 <= x < 5)%Z -> cell out y x = 0) /\
    P 1%Z 1%Z = true /\
    rsum_over 5 5 P (fun y x => cell out' y x * cell out' y x) = rsum_over 5 5 P (fun _ _ => 1).
Proof. exact nrgf_witness. Qed.
Print Assumptions C91_defaults_refuted.

(** ** C92 *)
Theorem C92_fits fit d up down left right y x r :
  let hy := (rows d / 2)%Z in
  let hx := (cols d / 2)%Z in
  (2 <= rows d)%Z -> (2 <= cols d)%Z ->
  edge_at fit (upwards d hy hx) hy up -> edge_at fit (downwards d hy hx) (rows d - hy) down ->
  edge_at fit (leftwards d hy hx) hx left -> edge_at fit (rightwards d hy hx) (cols d - hx) right ->
  truncated (IZR hy + (down - up) / 2) y -> truncated (IZR hx + (right - left) / 2) x ->
  truncated ((Rabs (up + down) + Rabs (left + right)) / 4) r ->
  find_occulter_sigmoid fit d = Ok (y, x, r).
Proof. exact (sigmoid_found fit d up down left right y x r). Qed.
Print Assumptions C92_fits.

(** The two profiles that run backwards start one pixel before the centre.  Edges fitted at the
    rows and columns e0 .. e3 of the image give their middle plus half a pixel: *)
Theorem C92_rows fit d e0 e1 e2 e3 y x r :
  let hy := (rows d / 2)%Z in
  let hx := (cols d / 2)%Z in
  (2 <= rows d)%Z -> (2 <= cols d)%Z ->
  edge_at fit (upwards d hy hx) hy (IZR (hy - 1) - e0) -> edge_at fit (downwards d hy hx) (rows d - hy) (e1 - IZR hy) ->
  edge_at fit (leftwards d hy hx) hx (IZR (hx - 1) - e2) -> edge_at fit (rightwards d hy hx) (cols d - hx) (e3 - IZR hx) ->
  truncated ((e0 + e1) / 2 + 1 / 2) y -> truncated ((e2 + e3) / 2 + 1 / 2) x ->
  truncated ((Rabs (e1 - e0 - 1) + Rabs (e3 - e2 - 1)) / 4) r ->
  find_occulter_sigmoid fit d = Ok (y, x, r).
Proof. exact (sigmoid_rows fit d e0 e1 e2 e3 y x r). Qed.
Print Assumptions C92_rows.

(** so the middle cut to an integer is missed by one whenever it lies between two rows. *)
Theorem C92_rows_refuted fit d a b c e :
  (2 <= rows d)%Z -> (2 <= cols d)%Z ->
  let hy := (rows d / 2)%Z in
  let hx := (cols d / 2)%Z in
  (0 <= a < hy)%Z -> (hy <= b)%Z -> (0 <= c < hx)%Z -> (hx <= e)%Z -> Z.odd (a + b) = true ->
  edge_at fit (upwards d hy hx) hy (IZR (hy - 1) - IZR a) -> edge_at fit (downwards d hy hx) (rows d - hy) (IZR b - IZR hy) ->
  edge_at fit (leftwards d hy hx) hx (IZR (hx - 1) - IZR c) -> edge_at fit (rightwards d hy hx) (cols d - hx) (IZR e - IZR hx) ->
  exists x r, find_occulter_sigmoid fit d = Ok (((a + b) / 2 + 1)%Z, x, r).
Proof. exact (sigmoid_off fit d a b c e). Qed.
Print Assumptions C92_rows_refuted.

Theorem C92_one_row fit d : rows d = 1%Z -> (0 < cols d)%Z -> find_occulter_sigmoid fit d = Raise ValueError.
Proof. exact (sigmoid_one_row fit d). Qed.
Print Assumptions C92_one_row.

(** A fit that puts the edge at the first value above 1/2 *)
Example C92_case :
  let fit : sigmoid_fit := fun l _ =>
    Ok (1, 0, 1, (fix go i l := match l with [] => i | v :: l => if Rltb (1 / 2) v then i else go (i + 1) l end) 0 l) in
  let d := mkarr 10 8 (fun y x => if ((2 <? y) && (y <? 7) && (1 <? x) && (x <? 6))%Z%bool then 0 else 1) in
  edge_at fit (upwards d 5 4) 5 2 /\ edge_at fit (downwards d 5 4) 5 2 /\
  edge_at fit (leftwards d 5 4) 4 2 /\ edge_at fit (rightwards d 5 4) 4 2 /\
  IZR (5 - 1) - IZR 2 = 2 /\ IZR 7 - IZR 5 = 2 /\ Z.odd (2 + 7) = true.
Proof.
  intros fit d.
  assert (L1 : Rltb (1 / 2) 1 = true) by (unfold Rltb; destruct (Rlt_dec _ _); [reflexivity|lra]).
  assert (L0 : Rltb (1 / 2) 0 = false) by (unfold Rltb; destruct (Rlt_dec _ _); [lra|reflexivity]).
  assert (E : forall f n l, samples f n = 0 :: 0 :: 1 :: l -> edge_at fit f n 2).
  { intros f n l El start. exists 1, 0, 1. unfold fit. rewrite El. cbv beta iota fix. rewrite L0, L1. f_equal. f_equal. lra. }
  split; [apply E with [1; 1]; reflexivity|]. split; [apply E with [1; 1]; reflexivity|].
  split; [apply E with [1]; reflexivity|]. split; [apply E with [1]; reflexivity|].
  change (5 - 1)%Z with 4%Z. split; [lra|]. split; [lra|reflexivity].
Qed.
