(** Property C146: resampling without interpolation. *)
From Coq Require Import Reals Lra Lia Floats.SpecFloat.
From Flocq Require Raux Zaux.
From Verif Require Import Base.Base Base.Num Model.CongridKind Spec.InterpSpec Spec.PickSpec Proofs.PickFacts.
Local Open Scope Z_scope.

(** Every pixel is one of the image, in rows and columns that keep their order and that the kind asks for up to the
    rounding of the position; only "next" loses pixels, and only in the last row and the last column. *)
Theorem C146_picks (k : kind) (a : arr b64) h w :
  2 <= rows a <= 2 ^ 26 -> 2 <= cols a <= 2 ^ 26 -> 2 <= h <= 2 ^ 26 -> 2 <= w <= 2 ^ 26 ->
  rows (congrid_kind k a h w) = h /\ cols (congrid_kind k a h w) = w /\
  exists h' w' f g, (h' = h \/ k = Next /\ h' = h - 1) /\ (w' = w \/ k = Next /\ w' = w - 1) /\
    takes h' w' (congrid_kind k a h w) a f g /\
    (forall y, 0 <= y < h' -> asked_near k (position_error (rows a)) (spread (rows a) h y) (f y)) /\
    (forall x, 0 <= x < w' -> asked_near k (position_error (cols a)) (spread (cols a) w x) (g x)) /\
    forall y x, 0 <= y < h -> 0 <= x < w -> h' <= y \/ w' <= x -> cell (congrid_kind k a h w) y x = S754_nan.
Proof. exact (c146_picks k a h w). Qed.
Print Assumptions C146_picks.

(** It is the one asked for when rounding leaves no doubt, *)
Theorem C146_asked_partial (k : kind) (a : arr b64) h w y x i j :
  2 <= rows a <= 2 ^ 26 -> 2 <= cols a <= 2 ^ 26 -> 2 <= h <= 2 ^ 26 -> 2 <= w <= 2 ^ 26 ->
  0 <= y < h -> 0 <= x < w -> 0 <= i < rows a -> 0 <= j < cols a ->
  surely_asked k (position_error (rows a)) (spread (rows a) h y) i -> surely_asked k (position_error (cols a)) (spread (cols a) w x) j ->
  cell (congrid_kind k a h w) y x = cell a i j.
Proof. exact (c146_asked k a h w y x i j). Qed.
Print Assumptions C146_asked_partial.

(** so nearest pixels are exact where the new grid meets the old one, corners included, *)
Theorem C146_grid (k : kind) (a : arr b64) h w y x i j : k = Nearest \/ k = NearestUp ->
  2 <= rows a <= 2 ^ 26 -> 2 <= cols a <= 2 ^ 26 -> 2 <= h <= 2 ^ 26 -> 2 <= w <= 2 ^ 26 ->
  0 <= y < h -> 0 <= x < w -> spread (rows a) h y = IZR i -> spread (cols a) w x = IZR j ->
  cell (congrid_kind k a h w) y x = cell a i j.
Proof. exact (c146_grid k a h w y x i j). Qed.
Print Assumptions C146_grid.

(** and always on grids finer by a power of two, with ties going down or up as the kind says. *)
Theorem C146_exact (k : kind) (a : arr b64) c e y x : 2 <= rows a <= 2 ^ 26 -> 2 <= cols a <= 2 ^ 26 -> 0 <= c <= 26 -> 0 <= e <= 26 ->
  let h := 2 ^ c * (rows a - 1) + 1 in let w := 2 ^ e * (cols a - 1) + 1 in
  0 <= y < h -> 0 <= x < w -> exists i j, 0 <= i < rows a /\ 0 <= j < cols a /\
    asked k (spread (rows a) h y) i /\ asked k (spread (cols a) w x) j /\ cell (congrid_kind k a h w) y x = cell a i j.
Proof. exact (c146_exact k a c e y x). Qed.
Print Assumptions C146_exact.

(** The same size gives the same image. *)
Theorem C146_same (k : kind) (a : arr b64) y x : 2 <= rows a <= 2 ^ 26 -> 2 <= cols a <= 2 ^ 26 -> 0 <= y < rows a -> 0 <= x < cols a ->
  cell (congrid_kind k a (rows a) (cols a)) y x = cell a y x.
Proof. exact (c146_same k a y x). Qed.
Print Assumptions C146_same.

(** The last column of 50 made out of 2 with "previous" is not the last column but the first one, *)
Theorem C146_previous_refuted (a : arr b64) : rows a = 2 -> cols a = 2 ->
  spread 2 50 49 = 1%R /\ cell (congrid_kind Previous a 2 50) 0 49 = cell a 0 0.
Proof. exact (c146_previous a). Qed.
Print Assumptions C146_previous_refuted.

(** and the last column of 26 made out of 8 with "next" is lost. *)
Theorem C146_next_refuted (a : arr b64) y : rows a = 2 -> cols a = 8 ->
  spread 8 26 25 = 7%R /\ cell (congrid_kind Next a 2 26) y 25 = S754_nan.
Proof. exact (c146_next a y). Qed.
Print Assumptions C146_next_refuted.

(** An image of 2 x 3 pixels made 3 x 5: ties of the rows and of the columns, positions out of doubt, the last corner. *)
Example C146_case :
  let a : arr b64 := mkarr 2 3 (fun y x => nofZ (10 * y + x)) in
  2 <= rows a <= 2 ^ 26 /\ 2 <= cols a <= 2 ^ 26 /\
  map (fun k => map (fun p => cell (congrid_kind k a 3 5) (fst p) (snd p)) [(1, 1); (1, 3); (2, 4)]) [Nearest; NearestUp; Previous; Next] =
  map (map nofZ) [[0; 1; 12]; [11; 12; 12]; [0; 1; 12]; [11; 12; 12]] /\
  (asked Nearest (spread 2 3 1) 0 /\ asked NearestUp (spread 2 3 1) 1 /\ spread 3 5 4 = 2)%R /\
  surely_asked Nearest (position_error 3) (spread 3 6 1) 0 /\
  (forall b : arr b64, b = mkarr 2 2 (cell a) -> rows b = 2 /\ cols b = 2).
Proof.
  cbv zeta. cbn [rows cols]. split; [lia|]. split; [lia|]. split; [vm_compute; reflexivity|]. split; [cbn [asked]; unfold spread; cbn; lra|]. split.
  - intros r Hr. pose proof (position_error_small 3 ltac:(lia)) as E. apply Raux.Rabs_le_inv in Hr.
    assert (S : (spread 3 6 1 = 2 / 5)%R) by (unfold spread; cbn; lra). rewrite S in Hr. cbn [asked].
    assert (P : (position_error 3 <= / 100)%R) by (rewrite position_error_val; change (Raux.bpow Zaux.radix2 (-53)) with (/ 9007199254740992)%R; cbn; lra). lra.
  - intros b ->. split; reflexivity.
Qed.
