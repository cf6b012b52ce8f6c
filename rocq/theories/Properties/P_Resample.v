(** C122: what resampling keeps. *)
From Coq Require Import QArith Reals Lra.
From Verif Require Import Base.Base Base.Num Model.Stokes Model.Pol Model.Congrid
  Spec.MosaicSpec Spec.InterpSpec Spec.BlurSpec Proofs.ResampleFacts.
Local Open Scope Z_scope.

(** Resampling is linear, *)
Theorem C122_linear (a b : arr R) al be h w y x : rows b = rows a -> cols b = cols a ->
  cell (congrid (mkarr (rows a) (cols a) (fun j i => al * cell a j i + be * cell b j i)%R) h w) y x =
  (al * cell (congrid a h w) y x + be * cell (congrid b h w) y x)%R.
Proof. exact (c122_linear a b al be h w y x). Qed.
Print Assumptions C122_linear.

(** keeps gradients, *)
Theorem C122_affine (a : arr R) al be ga h w y x : 2 <= rows a -> 2 <= cols a -> 2 <= h -> 2 <= w -> 0 <= y < h -> 0 <= x < w ->
  (forall j i, 0 <= j < rows a -> 0 <= i < cols a -> cell a j i = (al + be * IZR j + ga * IZR i)%R) ->
  cell (congrid a h w) y x = (al + be * spread (rows a) h y + ga * spread (cols a) w x)%R.
Proof. exact (c122_affine a al be ga h w y x). Qed.
Print Assumptions C122_affine.

(** and a finer grid with the samples of the old one keeps everything: resampling from there gives the same, *)
Theorem C122_refined (a : arr R) c e h w y x : 2 <= rows a -> 2 <= cols a -> 1 <= c -> 1 <= e -> 2 <= h -> 2 <= w -> 0 <= y < h -> 0 <= x < w ->
  cell (congrid (congrid a (c * (rows a - 1) + 1) (e * (cols a - 1) + 1)) h w) y x = cell (congrid a h w) y x.
Proof. exact (c122_refined a c e h w y x). Qed.
Print Assumptions C122_refined.

(** in particular the image comes back. *)
Theorem C122_back (a : arr R) c e y x : 2 <= rows a -> 2 <= cols a -> 1 <= c -> 1 <= e -> 0 <= y < rows a -> 0 <= x < cols a ->
  cell (congrid (congrid a (c * (rows a - 1) + 1) (e * (cols a - 1) + 1)) (rows a) (cols a)) y x = cell a y x.
Proof. exact (c122_back a c e y x). Qed.
Print Assumptions C122_back.

(** Other larger grids lose something. *)
Theorem C122_loses :
  let a : arr Q := of_list 0%Q 3 2 [0; 0; 1; 1; 0; 0]%Q in
  Qeq (cell a 1 0) 1 /\ Qeq (cell (congrid (congrid a 4 2) 3 2) 1 0) (2 # 3).
Proof. exact c122_loses. Qed.
Print Assumptions C122_loses.

(** Stokes parameters computed from the data of a resampled image interpolate those of the image, pB stays below the
    interpolated pB and DoLP below its maximum. *)
Theorem C122_image dic b (data : arr R) (S : stokes R) ny nx :
  describes dic b -> mosaic data -> 4 <= rows data -> 4 <= cols data -> 4 <= ny -> 4 <= nx ->
  let r := rows data / 2 in let c := cols data / 2 in let h := ny / 2 in let w := nx / 2 in
  exists s d T t, data_stokes dic data = Ok s /\ image_congrid data S ny nx = Ok (d, T) /\ data_stokes dic d = Ok t /\
    rows d = 2 * h /\ cols d = 2 * w /\
    forall Y X, 0 <= Y < h -> 0 <= X < w ->
      bilinear (sI s) (spread r h Y) (spread c w X) (cell (sI t) Y X) /\
      bilinear (sQ s) (spread r h Y) (spread c w X) (cell (sQ t) Y X) /\
      bilinear (sU s) (spread r h Y) (spread c w X) (cell (sU t) Y X) /\
      (exists v, bilinear (pB s) (spread r h Y) (spread c w X) v /\ (cell (pB t) Y X <= v)%R) /\
      forall M, nonnegative data -> (0 <= M)%R -> (forall y x, 0 <= y < r -> 0 <= x < c -> (cell (DoLP s) y x <= M)%R) ->
        (cell (DoLP t) Y X <= M)%R.
Proof. exact (c122_image dic b data S ny nx). Qed.
Print Assumptions C122_image.

(** An image of 4 x 4 pixels, a gradient, and a grid twice as fine. *)
Example C122_case :
  mosaic (full 4 4 1%R) /\ nonnegative (full 4 4 1%R) /\ describes polarcam_angles (mkarrangement 0 1 2 3) /\
  let a := mkarr 3 2 (fun y x => (1 + 2 * IZR y + 3 * IZR x)%R) in
  2 <= rows a /\ 2 <= cols a /\ 2 * (rows a - 1) + 1 = 5 /\ spread (rows a) 5 1 = (1 / 2)%R /\
  cell (congrid (of_list 0%Q 3 2 [0; 0; 1; 1; 0; 0]%Q) 5 2) 1 0 = (1 # 2)%Q.
Proof.
  split; [repeat split; cbn; try lia; reflexivity|]. split; [intros y x _ _; cbn; lra|]. split.
  { unfold describes, arrangement_ok, polarcam_angles; cbn [p0 p45 pm45 p90 map fst].
    repeat split; try lia; try (repeat constructor; cbn; intuition lia); cbn; auto. }
  cbn [rows cols]. repeat split; try lia; try (unfold spread; cbn; lra).
Qed.
