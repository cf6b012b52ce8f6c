(** Properties C88 and C89: turning, flipping and binning a demodulator. *)
From Coq Require Import QArith.
From Verif Require Import Base.Base Base.Num Model.Stokes Model.Demodulate Model.DemodLoad Model.DemodTurn
  Spec.Terminates Spec.SumSpec Spec.MosaicSpec Spec.StokesSpec Spec.DemodSpec Spec.LoadSpec Spec.TurnSpec Proofs.TurnFacts.
Local Open Scope Z_scope.

(** ** C88.  Every matrix moves with its superpixel, for square tensors *)
Theorem C88_turn {A} `{Num A} (d : demodulator A) k n :
  t_rows (mij d) = n -> t_cols (mij d) = n ->
  exists d', demod_rot90 d k = Ok d' /\ fit_found_flags d' = fit_found_flags d /\
    moved (quarters n k) (mij d) (mij d').
Proof. exact (rot90_square d k n). Qed.
Print Assumptions C88_turn.

(** and half turns of any; other turns of tensors that are not square raise. *)
Theorem C88_half_turn {A} `{Num A} (d : demodulator A) k :
  k mod 4 = 2 -> exists d', demod_rot90 d k = Ok d' /\ fit_found_flags d' = fit_found_flags d /\
    moved (half_turn (t_rows (mij d)) (t_cols (mij d))) (mij d) (mij d').
Proof. exact (rot90_half d k). Qed.
Print Assumptions C88_half_turn.

Theorem C88_not_square {A} `{Num A} (d : demodulator A) k :
  t_rows (mij d) <> t_cols (mij d) -> k mod 2 = 1 -> demod_rot90 d k = Raise ValueError.
Proof. exact (rot90_raises d k). Qed.
Print Assumptions C88_not_square.

(** Turns add up; four quarter turns restore the tensor. *)
Theorem C88_compose {A} `{Num A} (d d1 d2 d3 : demodulator A) k k' :
  demod_rot90 d k = Ok d1 -> demod_rot90 d1 k' = Ok d2 -> demod_rot90 d (k + k') = Ok d3 ->
  same_tensor (mij d2) (mij d3) /\ fit_found_flags d2 = fit_found_flags d3.
Proof. exact (turns_compose d d1 d2 d3 k k'). Qed.
Print Assumptions C88_compose.

Theorem C88_back {A} `{Num A} (d d1 d2 : demodulator A) k k' :
  demod_rot90 d k = Ok d1 -> demod_rot90 d1 k' = Ok d2 -> (k + k') mod 4 = 0 ->
  same_tensor (mij d2) (mij d).
Proof. exact (turns_back d d1 d2 k k'). Qed.
Print Assumptions C88_back.

Theorem C88_flip {A} `{Num A} (d : demodulator A) axis :
  (axis = 0 \/ axis = -2 ->
   exists d', demod_flip d axis = Ok d' /\ fit_found_flags d' = fit_found_flags d /\
     moved (upside_down (t_rows (mij d))) (mij d) (mij d')) /\
  (axis = 1 \/ axis = -1 ->
   exists d', demod_flip d axis = Ok d' /\ fit_found_flags d' = fit_found_flags d /\
     moved (left_right (t_cols (mij d))) (mij d) (mij d')) /\
  (axis < -2 \/ 1 < axis -> demod_flip d axis = Raise ValueError).
Proof. exact (flip_ok d axis). Qed.
Print Assumptions C88_flip.

Theorem C88_flip_twice {A} `{Num A} (d d1 d2 : demodulator A) axis :
  demod_flip d axis = Ok d1 -> demod_flip d1 axis = Ok d2 ->
  same_tensor (mij d2) (mij d) /\ fit_found_flags d2 = fit_found_flags d.
Proof. exact (flip_twice d d1 d2 axis). Qed.
Print Assumptions C88_flip_twice.

Example C88_case :
  let d := mkdemodulator (counting 2 2) None in
  on_ok (fun d' => to_list (tslice (mij d') 1 2)) (demod_rot90 d 1) = Ok (map (map inject_Z) [[1201; 1211]; [1200; 1210]]) /\
  on_ok (fun d' => to_list (tslice (mij d') 1 2)) (demod_rot90 d (-1)) = Ok (map (map inject_Z) [[1210; 1200]; [1211; 1201]]) /\
  on_ok (fun d' => to_list (tslice (mij d') 1 2)) (demod_flip d 0) = Ok (map (map inject_Z) [[1210; 1211]; [1200; 1201]]) /\
  demod_rot90 (mkdemodulator (counting 2 1) None) 3 = Raise ValueError.
Proof. vm_compute. repeat split; reflexivity. Qed.

(** Full statement of the second part: the turned image demodulated with the turned tensor gives
    the turned Stokes vector.  True without flags for an image whose superpixels have moved
    without being turned in themselves: *)
Theorem C88_demodulate_partial {A} `{Num A} src (d d' : demodulator A) (data data' : arr A) old old' h w :
  mosaic data -> mosaic data' -> rows data = 2 * h -> cols data = 2 * w -> rows data' = 2 * h -> cols data' = 2 * w ->
  t_rows (mij d) = h -> t_cols (mij d) = w -> keeps src h w -> moved src (mij d) (mij d') ->
  fit_found_flags d = None -> fit_found_flags d' = None ->
  (forall k Y X, 0 <= k < 4 -> 0 <= Y < h -> 0 <= X < w ->
     sample data' k Y X = sample data k (fst (src (Y, X))) (snd (src (Y, X)))) ->
  exists s s', demod_raw d data old = Ok s /\ demod_raw d' data' old' = Ok s' /\
    stokes_is s' h w
      (fun Y X => cell (sI s) (fst (src (Y, X))) (snd (src (Y, X))))
      (fun Y X => cell (sQ s) (fst (src (Y, X))) (snd (src (Y, X))))
      (fun Y X => cell (sU s) (fst (src (Y, X))) (snd (src (Y, X)))).
Proof. exact (moved_demod src d d' data data' old old' h w). Qed.
Print Assumptions C88_demodulate_partial.

Example C88_demodulate_case n k : keeps (quarters n k) n n.
Proof. exact (quarters_keeps n k). Qed.

(** False for a mirrored image: the matrices are applied to the pixels in exchanged order. *)
Theorem C88_mirror {A} `{Num A} (d d' : demodulator A) (data data' : arr A) old h w :
  mosaic data -> rows data = 2 * h -> cols data = 2 * w -> mirrored data data' ->
  t_rows (mij d) = h -> t_cols (mij d) = w -> fit_found_flags d = None ->
  demod_flip d 1 = Ok d' ->
  exists s, demod_raw d' data' old = Ok s /\
    let product i Y X :=
      row_product (fun i j => t_cell (mij d) i j Y (w - 1 - X))
        (fun k => sample data (neighbour k) Y (w - 1 - X)) i in
    stokes_is s h w (product 0) (product 1) (product 2).
Proof. exact (mirror_demod d d' data data' old h w). Qed.
Print Assumptions C88_mirror.

(** One ideal superpixel (0, 45, -45 and 90 degrees): light polarized at 0 degrees comes out as
    polarized at 45 degrees. *)
Theorem C88_mirror_refuted :
  mirrored light0 light0_mirrored /\
  exists d', demod_flip (mkdemodulator ideal_tensor None) 1 = Ok d' /\
  on_ok (fun s => (cell (sI s) 0 0, cell (sQ s) 0 0, cell (sU s) 0 0)) (demod_raw (mkdemodulator ideal_tensor None) light0 nothing)
    = Ok (1, 1, 0)%Q /\
  on_ok (fun s => (cell (sI s) 0 0, cell (sQ s) 0 0, cell (sU s) 0 0)) (demod_raw d' light0_mirrored nothing)
    = Ok (1, 0, 1)%Q.
Proof. exact ideal_mirror. Qed.
Print Assumptions C88_mirror_refuted.

(** ** C89.  Full statement: the means of the blocks of the demodulator itself, whatever was done
    to it before.  True if its matrices are the ones in its folder: *)
Theorem C89_means_partial {A} `{Num A} files (d d0 : demodulator A) b :
  0 <= t_rows (mij d0) -> 0 <= t_cols (mij d0) -> 1 <= b -> load files = Ok d0 ->
  t_rows (mij d) = t_rows (mij d0) -> t_cols (mij d) = t_cols (mij d0) ->
  (t_rows (mij d) / b) mod 2 = 0 -> (t_cols (mij d) / b) mod 2 = 0 ->
  returns (fun fuel => demod_rebin fuel files d b)
    (fun d' => fit_found_flags d' = fit_found_flags d0 /\
       t_rows (mij d') = t_rows (mij d) / b /\ t_cols (mij d') = t_cols (mij d) / b /\
       forall i j Y X, 0 <= i < 3 -> 0 <= j < 4 -> 0 <= Y < t_rows (mij d) / b -> 0 <= X < t_cols (mij d) / b ->
         t_cell (mij d') i j Y X = lsum (plain_block (tslice (mij d0) i j) b Y X) /! nofZ (b * b)).
Proof. exact (rebin_means files d d0 b). Qed.
Print Assumptions C89_means_partial.

Theorem C89_odd {A} `{Num A} fuel files (d : demodulator A) b :
  0 <= t_rows (mij d) -> 0 <= t_cols (mij d) -> 1 <= b ->
  (t_rows (mij d) / b) mod 2 = 1 \/ (t_cols (mij d) / b) mod 2 = 1 ->
  demod_rebin fuel files d b = Raise ValueError.
Proof. exact (rebin_odd fuel files d b). Qed.
Print Assumptions C89_odd.

(** False otherwise: turns and flips are forgotten, *)
Theorem C89_forgets_refuted {A} `{Num A} fuel files (d d' : demodulator A) b :
  (exists k, demod_rot90 d k = Ok d') \/ (exists axis, demod_flip d axis = Ok d') ->
  demod_rebin fuel files d' b = demod_rebin fuel files d b.
Proof. exact (rebin_forgets fuel files d d' b). Qed.
Print Assumptions C89_forgets_refuted.

(** and the result cannot demodulate images of its own size, because its flags are not binned. *)
Theorem C89_flags_refuted {A} `{Num A} files (d d0 : demodulator A) b f data old :
  load files = Ok d0 -> fit_found_flags d0 = Some f -> rows f = t_rows (mij d0) -> 2 <= b ->
  0 <= t_cols (mij d0) -> 2 <= t_rows (mij d0) / b ->
  t_rows (mij d) = t_rows (mij d0) -> t_cols (mij d) = t_cols (mij d0) ->
  (t_rows (mij d) / b) mod 2 = 0 -> (t_cols (mij d) / b) mod 2 = 0 ->
  mosaic data -> rows data / 2 = t_rows (mij d) / b -> cols data / 2 = t_cols (mij d) / b ->
  returns (fun fuel => demod_rebin fuel files d b) (fun d' => demod_raw d' data old = Raise ValueError).
Proof. exact (rebin_flags files d d0 b f data old). Qed.
Print Assumptions C89_flags_refuted.

(** A 4x4 tensor with its flags in a folder, binned by 2 *)
Example C89_case :
  let c := mkcalibration (counting 4 4) (full 4 4 1%Q) (full 4 4 1%Q) (full 4 4 1%Q) (full 4 4 1%Q) in
  exists d0 d', load (written_files c) = Ok d0 /\ fit_found_flags d0 = Some (k_found c) /\
    t_rows (mij d0) = 4 /\ t_cols (mij d0) = 4 /\
    demod_rebin 10 (written_files c) d0 2 = Ok d' /\
    Forall2 (Forall2 Qeq) (to_list (tslice (mij d') 2 1)) [[4211 # 2; 4215 # 2]; [4251 # 2; 4255 # 2]]%Q /\
    (forall fuel, demod_rebin fuel (written_files c) d0 3 = Raise ValueError).
Proof. exact binning_case. Qed.
