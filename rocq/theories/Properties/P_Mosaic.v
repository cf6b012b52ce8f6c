(** Properties C01-C16: splitting, merging, binning, shifting, demosaicing, IFOV.
    Only theorem statements, each closed by a lemma proved elsewhere, and examples
    showing that the hypotheses are met by concrete images. *)
From Coq Require Import Reals QArith.
From Verif Require Import Base.Base Base.Num Model.Demosaic Model.Rebin Model.Shift Model.Ifov
  Model.Stokes Spec.MosaicSpec Spec.SumSpec Spec.StokesSpec Spec.Terminates
  Proofs.DemosaicFacts Proofs.RebinFacts Proofs.MosaicFacts Proofs.MosaicProps Proofs.StokesProps.
Local Open Scope Z_scope.

(** Test image used in the examples: pixel (y, x) holds 10 y + x. *)
Definition img (h w : Z) : arr Q := mkarr h w (fun y x => inject_Z (10 * y + x)).
Definition ints (l : list (list Z)) : list (list Q) := map (map inject_Z) l.

(** ** C01 *)
Theorem C01_split_layout {A} `{Num A} (d : arr A) :
  0 <= rows d -> 0 <= cols d ->
  (mosaic d ->
   exists q, split_polarizations d = Ok q /\
     forall k, 0 <= k < 4 ->
       rows (qnth q k) = rows d / 2 /\ cols (qnth q k) = cols d / 2 /\
       forall y x, 0 <= y < rows d / 2 -> 0 <= x < cols d / 2 ->
         cell (qnth q k) y x = cell d (2 * y + k / 2) (2 * x + k mod 2)) /\
  (~ mosaic d -> split_polarizations d = Raise ValueError).
Proof. exact (c01_split d). Qed.
Print Assumptions C01_split_layout.

Example C01_case : mosaic (img 2 4) /\
  on_ok (fun q => to_list (qnth q 2)) (split_polarizations (img 2 4)) = Ok (ints [[10; 12]]).
Proof. repeat split; vm_compute; congruence. Qed.
Example C01_odd_case : split_polarizations (img 3 4) = Raise ValueError.
Proof. reflexivity. Qed.

(** ** C02 *)
Theorem C02_merge_split {A} `{Num A} (d : arr A) :
  mosaic d -> exists q, split_polarizations d = Ok q /\ merge_polarizations q =a= d.
Proof. exact (c02_merge_split d). Qed.
Print Assumptions C02_merge_split.

Example C02_case : mosaic (img 2 4) /\
  on_ok (fun q => to_list (merge_polarizations q)) (split_polarizations (img 2 4))
  = Ok (ints [[0; 1; 2; 3]; [10; 11; 12; 13]]).
Proof. repeat split; vm_compute; congruence. Qed.

(** ** C03 *)
Theorem C03_split_merge {A} `{Num A} (s : quad A) :
  quad_wf s ->
  exists t, split_polarizations (merge_polarizations s) = Ok t /\
    forall k, 0 <= k < 4 -> qnth t k =a= qnth s k.
Proof. exact (split_merge s). Qed.
Print Assumptions C03_split_merge.

Example C03_case : quad_wf (mkquad (img 3 5) (img 3 5) (full 3 5 1%Q) (img 3 5)).
Proof. vm_compute. intuition congruence. Qed.

(** ** C04 *)
Theorem C04_rebin_block_sum {A} `{Num A} (d : arr A) b :
  mosaic d -> 1 <= b ->
  returns (fun fuel => micropolarray_rebin fuel d b)
    (fun r => rows r = 2 * (rows d / (2 * b)) /\ cols r = 2 * (cols d / (2 * b)) /\
       forall Y X, 0 <= Y < rows r -> 0 <= X < cols r ->
         cell r Y X = lsum (family_block d b Y X)).
Proof. exact (c04_rebin d b). Qed.
Print Assumptions C04_rebin_block_sum.

(** ... and [family_block] only contains same-family pixels of the block. *)
Theorem C04_same_family {A} `{Num A} (d : arr A) b Y X v :
  1 <= b -> In v (family_block d b Y X) ->
  exists y x, v = cell d y x /\ y mod 2 = Y mod 2 /\ x mod 2 = X mod 2 /\
    2 * b * (Y / 2) <= y < 2 * b * (Y / 2) + 2 * b /\
    2 * b * (X / 2) <= x < 2 * b * (X / 2) + 2 * b.
Proof. exact (c04_same_family d b Y X v). Qed.
Print Assumptions C04_same_family.

Example C04_case : mosaic (img 6 4) /\
  on_ok to_list (micropolarray_rebin 10 (img 6 4) 2) = Ok (ints [[44; 48]; [84; 88]]).
Proof. repeat split; vm_compute; congruence. Qed.

(** ** C05 *)
Theorem C05_trim_terminates h w b :
  1 <= b -> 0 <= h -> 0 <= w -> h mod 2 = 0 -> w mod 2 = 0 ->
  returns (fun fuel => trim_to_match_2xbinning fuel h w b)
    (fun p => let '(nh, nw) := p in
       (0 <= nh <= h /\ nh mod (2 * b) = 0 /\ forall n, n <= h -> n mod (2 * b) = 0 -> n <= nh) /\
       (0 <= nw <= w /\ nw mod (2 * b) = 0 /\ forall n, n <= w -> n mod (2 * b) = 0 -> n <= nw)).
Proof. exact (c05_trim h w b). Qed.
Print Assumptions C05_trim_terminates.

Theorem C05_odd_never_returns {A} `{Num A} (d : arr A) b :
  1 <= b -> (rows d mod 2 = 1 \/ cols d mod 2 = 1) ->
  never_returns (fun fuel => micropolarray_rebin fuel d b).
Proof. exact (c05_odd d b). Qed.
Print Assumptions C05_odd_never_returns.

Example C05_case : trim_to_match_2xbinning 10 10 14 3 = Ok (6, 12).
Proof. reflexivity. Qed.
Example C05_odd_case : rows (img 5 4) mod 2 = 1.
Proof. reflexivity. Qed.

(** ** C06 *)
Theorem C06_rebin_conserves (d r : arr R) b p q :
  mosaic d -> 1 <= b -> 0 <= p < 2 -> 0 <= q < 2 ->
  evaluates (fun fuel => micropolarray_rebin fuel d b) r ->
  rsum2 (rows r / 2) (cols r / 2) (fun Y X => cell r (2 * Y + p) (2 * X + q)) =
  rsum2 (b * (rows d / (2 * b))) (b * (cols d / (2 * b)))
        (fun y x => cell d (2 * y + p) (2 * x + q)).
Proof. exact (c06_conserves d r b p q). Qed.
Print Assumptions C06_rebin_conserves.

(** Hypotheses are met by every even image: C04 gives such an [r]. *)
Example C06_case : mosaic (img 6 4) /\
  exists r, evaluates (fun fuel => micropolarray_rebin fuel (img 6 4) 2) r.
Proof.
  assert (Hm : mosaic (img 6 4)) by (repeat split; vm_compute; congruence).
  split; [exact Hm|].
  destruct (C04_rebin_block_sum (img 6 4) 2 Hm ltac:(lia)) as (r & _ & Hr). exists r; exact Hr.
Qed.

(** ** C07 *)
Theorem C07_rebin_compose (d : arr R) a b :
  mosaic d -> 1 <= a -> 1 <= b ->
  exists ra rb rab,
    evaluates (fun fuel => micropolarray_rebin fuel d a) ra /\
    evaluates (fun fuel => micropolarray_rebin fuel ra b) rb /\
    evaluates (fun fuel => micropolarray_rebin fuel d (a * b)) rab /\
    rb =a= rab.
Proof. exact (c07_compose d a b). Qed.
Print Assumptions C07_rebin_compose.

Theorem C07_standard_compose (d : arr R) a b :
  0 <= rows d -> 0 <= cols d -> 1 <= a -> 1 <= b ->
  exists ra rb rab,
    evaluates (fun fuel => standard_rebin fuel d a) ra /\
    evaluates (fun fuel => standard_rebin fuel ra b) rb /\
    evaluates (fun fuel => standard_rebin fuel d (a * b)) rab /\
    rb =a= rab.
Proof. exact (c07_compose_std d a b). Qed.
Print Assumptions C07_standard_compose.

(** A 26 x 14 image, whose sides 2*2*3 does not divide: both routes give the same 4 x 2 image. *)
Example C07_case :
  on_ok to_list (bind (micropolarray_rebin 30 (img 26 14) 2) (fun r => micropolarray_rebin 30 r 3))
  = on_ok to_list (micropolarray_rebin 30 (img 26 14) 6) /\
  on_ok (fun r => (rows r, cols r)) (micropolarray_rebin 30 (img 26 14) 6) = Ok (4, 2).
Proof. split; vm_compute; reflexivity. Qed.

(** ** C08 *)
Theorem C08_rebin_split {A} `{Num A} (d : arr A) b :
  mosaic d -> 1 <= b ->
  exists r s t,
    evaluates (fun fuel => micropolarray_rebin fuel d b) r /\
    split_polarizations d = Ok s /\ split_polarizations r = Ok t /\
    forall k, 0 <= k < 4 ->
      exists u, evaluates (fun fuel => standard_rebin fuel (qnth s k) b) u /\ qnth t k =a= u.
Proof. exact (c08_split d b). Qed.
Print Assumptions C08_rebin_split.

Theorem C08_rebin_stokes dic a (d : arr R) b :
  describes dic a -> mosaic d -> 1 <= b ->
  exists r s t tI tQ tU,
    evaluates (fun fuel => micropolarray_rebin fuel d b) r /\
    data_stokes dic d = Ok s /\ data_stokes dic r = Ok t /\
    evaluates (fun fuel => standard_rebin fuel (sI s) b) tI /\
    evaluates (fun fuel => standard_rebin fuel (sQ s) b) tQ /\
    evaluates (fun fuel => standard_rebin fuel (sU s) b) tU /\
    sI t =a= tI /\ sQ t =a= tQ /\ sU t =a= tU.
Proof. exact (c08_stokes dic a d b). Qed.
Print Assumptions C08_rebin_stokes.

Example C08_case : describes polarcam_angles (mkarrangement 0 1 2 3).
Proof.
  unfold describes, arrangement_ok, polarcam_angles; cbn [p0 p45 pm45 p90 map fst].
  repeat split; try lia; try (repeat constructor; cbn; intuition lia); cbn; auto.
Qed.

(** ** C09 *)
Theorem C09_standard_block_sum {A} `{Num A} (d : arr A) b :
  0 <= rows d -> 0 <= cols d -> 1 <= b ->
  returns (fun fuel => standard_rebin fuel d b)
    (fun r => rows r = rows d / b /\ cols r = cols d / b /\
       forall Y X, 0 <= Y < rows r -> 0 <= X < cols r ->
         cell r Y X = lsum (plain_block d b Y X)).
Proof. exact (c09_rebin d b). Qed.
Print Assumptions C09_standard_block_sum.

Theorem C09_standard_conserves (d r : arr R) b :
  0 <= rows d -> 0 <= cols d -> 1 <= b ->
  evaluates (fun fuel => standard_rebin fuel d b) r ->
  rsum2 (rows r) (cols r) (cell r) =
  rsum2 (b * (rows d / b)) (b * (cols d / b)) (cell d).
Proof. exact (c09_conserves d r b). Qed.
Print Assumptions C09_standard_conserves.

Example C09_case : on_ok to_list (standard_rebin 10 (img 5 3) 2) = Ok (ints [[22]; [102]]).
Proof. vm_compute; reflexivity. Qed.

(** ** C10: same outcome (value, exception or non-termination) on every image. *)
Theorem C10_old_new_agree {A} `{Num A} (d : arr A) fuel b :
  micropolarray_jitrebin_old fuel d (rows d) (cols d) b = micropolarray_rebin fuel d b.
Proof. exact (c10_old d fuel b). Qed.
Print Assumptions C10_old_new_agree.

Example C10_case : on_ok to_list (micropolarray_jitrebin_old 10 (img 6 4) 6 4 2) = Ok (ints [[44; 48]; [84; 88]]).
Proof. vm_compute; reflexivity. Qed.

(** ** C11 *)
Theorem C11_shift {A} (d : arr A) y x m :
  exists r, shift d y x m = Ok r /\ rows r = rows d /\ cols r = cols d /\
    forall j i, 0 <= j < rows d -> 0 <= i < cols d ->
      (0 <= j - y < rows d /\ 0 <= i - x < cols d -> cell r j i = cell d (j - y) (i - x)) /\
      (~ (0 <= j - y < rows d /\ 0 <= i - x < cols d) -> cell r j i = m).
Proof. exact (c11_shift d y x m). Qed.
Print Assumptions C11_shift.

Example C11_case : on_ok to_list (shift (img 3 3) 1 (-2) 7%Q) = Ok (ints [[7; 7; 7]; [2; 7; 7]; [12; 7; 7]]).
Proof. vm_compute; reflexivity. Qed.
Example C11_far_case : on_ok to_list (shift (img 2 2) 5 (-9) 7%Q) = Ok (ints [[7; 7]; [7; 7]]).
Proof. vm_compute; reflexivity. Qed.

(** ** C12 *)
Theorem C12_shift_micropol {A} `{Num A} (d : arr A) y x m :
  mosaic d ->
  exists r, shift_micropol d y x m = Ok r /\
    exists r', shift d (2 * y) (2 * x) m = Ok r' /\ r =a= r'.
Proof. exact (c12_shift_micropol d y x m). Qed.
Print Assumptions C12_shift_micropol.

Theorem C12_shift_back {A} `{Num A} (d : arr A) y x m m' r :
  mosaic d -> shift_micropol d y x m = Ok r ->
  exists r', shift_micropol r (- y) (- x) m' = Ok r' /\
    rows r' = rows d /\ cols r' = cols d /\
    forall j i, 0 <= j < rows d -> 0 <= i < cols d ->
      0 <= j + 2 * y < rows d -> 0 <= i + 2 * x < cols d -> cell r' j i = cell d j i.
Proof. exact (c12_roundtrip d y x m m' r). Qed.
Print Assumptions C12_shift_back.

Example C12_case : on_ok to_list (shift_micropol (img 4 4) 1 0 7%Q) = Ok (ints [[7; 7; 7; 7]; [7; 7; 7; 7]; [0; 1; 2; 3]; [10; 11; 12; 13]]).
Proof. vm_compute; reflexivity. Qed.

(** ** C13 *)
Theorem C13_demosaic_adjacent {A} `{Num A} (d : arr A) :
  mosaic d ->
  exists q, demosaic d "adjacent" = Ok q /\
    forall k, 0 <= k < 4 ->
      rows (qnth q k) = rows d /\ cols (qnth q k) = cols d /\
      forall y x, 0 <= y < rows d -> 0 <= x < cols d ->
        cell (qnth q k) y x = interpolated d k y x.
Proof. exact (demosaic_adjacent_spec d). Qed.
Print Assumptions C13_demosaic_adjacent.

Theorem C13_bounds (d : arr R) q k lo hi :
  mosaic d -> demosaic d "adjacent" = Ok q -> 0 <= k < 4 ->
  (forall Y X, 0 <= Y < rows d / 2 -> 0 <= X < cols d / 2 ->
     (lo <= sample d k Y X <= hi)%R) ->
  forall y x, 0 <= y < rows d -> 0 <= x < cols d -> (lo <= cell (qnth q k) y x <= hi)%R.
Proof. exact (c13_bounds d q k lo hi). Qed.
Print Assumptions C13_bounds.

Example C13_case : on_ok (fun q => to_list (qnth q 3)) (demosaic (img 4 4) "adjacent") =
  Ok ([[11; 12; 13; 13]; [21; 22; 23; 23]; [31; 32; 33; 33]; [31; 32; 33; 33]]%Q).
Proof. vm_compute; reflexivity. Qed.

(** ** C14: false for families 1-3, true for family 0. *)
Theorem C14_measured_pixels_refuted : forall k, 1 <= k < 4 ->
  exists (d : arr R) q y x, mosaic d /\ demosaic d "adjacent" = Ok q /\
    0 <= y < rows d /\ 0 <= x < cols d /\ family y x = k /\
    cell (qnth q k) y x <> cell d y x.
Proof. exact c14_refuted. Qed.
Print Assumptions C14_measured_pixels_refuted.

Theorem C14_measured_pixels_partial {A} `{Num A} (d : arr A) q y x :
  mosaic d -> demosaic d "adjacent" = Ok q ->
  0 <= y < rows d -> 0 <= x < cols d -> family y x = 0 ->
  cell (qnth q 0) y x = cell d y x.
Proof. exact (c14_family0 d q y x). Qed.
Print Assumptions C14_measured_pixels_partial.

(** What a pixel of family k receives in image k, for every k. *)
Theorem C14_actual_value {A} `{Num A} (d : arr A) q k y x :
  mosaic d -> demosaic d "adjacent" = Ok q -> 0 <= k < 4 ->
  0 <= y < rows d -> 0 <= x < cols d -> family y x = k ->
  cell (qnth q k) y x =
    let Y' := 2 * next (rows d / 2) (y / 2) + y mod 2 in
    let X' := 2 * next (cols d / 2) (x / 2) + x mod 2 in
    if k =? 0 then cell d y x
    else if k =? 1 then nhalf *! (cell d y x +! cell d y X')
    else if k =? 2 then nhalf *! (cell d y x +! cell d Y' x)
    else (((cell d y x +! cell d Y' x) +! cell d y X') +! cell d Y' X') *! nquart.
Proof. exact (c14_actual d q k y x). Qed.
Print Assumptions C14_actual_value.

Example C14_case : mosaic (img 4 4) /\ family 2 2 = 0 /\ family 1 1 = 3.
Proof. repeat split; vm_compute; congruence. Qed.

(** ** C15 *)
Theorem C15_demosaic_mean {A} `{Num A} (d : arr A) :
  mosaic d ->
  exists q, demosaic d "mean" = Ok q /\
    forall k, 0 <= k < 4 ->
      rows (qnth q k) = rows d /\ cols (qnth q k) = cols d /\
      forall y x, 0 <= y < rows d -> 0 <= x < cols d ->
        cell (qnth q k) y x = sample d k (y / 2) (x / 2) *! nquart.
Proof. exact (demosaic_mean_spec d). Qed.
Print Assumptions C15_demosaic_mean.

Theorem C15_mean_conserves (d : arr R) q k Y X :
  mosaic d -> demosaic d "mean" = Ok q -> 0 <= k < 4 ->
  0 <= Y < rows d / 2 -> 0 <= X < cols d / 2 ->
  (cell (qnth q k) (2 * Y) (2 * X) + cell (qnth q k) (2 * Y) (2 * X + 1) +
   cell (qnth q k) (2 * Y + 1) (2 * X) + cell (qnth q k) (2 * Y + 1) (2 * X + 1)
   = sample d k Y X)%R.
Proof. exact (c15_mean_sum d q k Y X). Qed.
Print Assumptions C15_mean_conserves.

Theorem C15_bad_option {A} `{Num A} (d : arr A) o :
  o <> "mean"%string -> o <> "adjacent"%string -> o <> "spline"%string ->
  demosaic d o = Raise ValueError.
Proof. exact (demosaic_bad_option d o). Qed.
Print Assumptions C15_bad_option.

Example C15_case : on_ok (fun q => to_list (qnth q 2)) (demosaic (img 2 4) "mean") =
  Ok ([[5#2; 5#2; 3; 3]; [5#2; 5#2; 3; 3]]%Q).
Proof. vm_compute; reflexivity. Qed.

(** ** C16 *)
Theorem C16_ifov {A} `{Num A} (d : arr A) :
  mosaic d ->
  exists r, ifov_jitcorrect d (rows d) (cols d) = Ok r /\
    rows r = rows d /\ cols r = cols d /\
    forall y x, 0 <= y < rows d -> 0 <= x < cols d ->
      cell r y x =
        if (y <? 2) || (x <? 2) then n0
        else nquart *! (((cell d (y - 2) (x - 2) +! cell d (y - 2) x)
                           +! cell d y (x - 2)) +! cell d y x).
Proof. exact (ifov_spec d). Qed.
Print Assumptions C16_ifov.

Example C16_case : on_ok to_list (ifov_jitcorrect (img 4 4) 4 4) = Ok (ints [[0; 0; 0; 0]; [0; 0; 0; 0]; [0; 0; 11; 12]; [0; 0; 21; 22]]).
Proof. vm_compute; reflexivity. Qed.
