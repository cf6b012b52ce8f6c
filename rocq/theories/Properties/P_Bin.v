(** C117: demodulating and binning. *)
From Coq Require Import Reals Lra.
From Verif Require Import Base.Base Base.Num Model.Rebin Model.Stokes Model.Demodulate Model.DemodLoad Model.DemodTurn
  Spec.Terminates Spec.SumSpec Spec.MosaicSpec Spec.BinSpec Proofs.BinFacts.

(** Full statement: demodulating the binned image with the binned demodulator gives the sums of the Stokes parameters
    of the superpixels in each bin.  True if the superpixels of a bin have the same matrix (and there are no flags,
    see [C89_flags_refuted]), *)
Theorem C117_binned_partial : forall files (d : demodulator R) (data : arr R) old b, 1 <= b -> mosaic data ->
  load files = Ok d -> fit_found_flags d = None ->
  t_rows (mij d) = rows data / 2 -> t_cols (mij d) = cols data / 2 ->
  (t_rows (mij d) / b) mod 2 = 0 -> (t_cols (mij d) / b) mod 2 = 0 -> constant_in_bins (mij d) b ->
  exists d' r s t,
    evaluates (fun fuel => demod_rebin fuel files d b) d' /\
    evaluates (fun fuel => micropolarray_rebin fuel data b) r /\
    demod_raw d data old = Ok s /\ demod_raw d' r old = Ok t /\
    sums_of_bins (sI s) (sI t) b /\ sums_of_bins (sQ s) (sQ t) b /\ sums_of_bins (sU s) (sU t) b.
Proof. exact c117_binned. Qed.
Print Assumptions C117_binned_partial.

(** false if they differ: the mean matrix times the sum of the pixels is not the sum of the products. *)
Theorem C117_varying_refuted : exists (d d' : demodulator R) (data r : arr R) old s t,
  fit_found_flags d = None /\ fit_found_flags d' = None /\ mosaic data /\
  t_rows (mij d) = rows data / 2 /\ t_cols (mij d) = cols data / 2 /\ means_of_bins (mij d) (mij d') 2 /\
  evaluates (fun fuel => micropolarray_rebin fuel data 2) r /\
  demod_raw d data old = Ok s /\ demod_raw d' r old = Ok t /\
  cell (sI t) 0 0 = (1 / 4)%R /\ rsum2 2 2 (fun u v => cell (sI s) (2 * 0 + u) (2 * 0 + v)) = 1%R.
Proof. exact c117_varying. Qed.
Print Assumptions C117_varying_refuted.

(** A folder with twelve constant matrices of 4x4 superpixels and without flags *)
Example C117_case : exists d, load (matrix_files (mktensor 4 4 (fun i j _ _ => IZR (10 * i + j)))) = Ok d /\
  fit_found_flags d = None /\ t_rows (mij d) = 4 /\ t_cols (mij d) = 4 /\ constant_in_bins (mij d) 2 /\
  t_cell (mij d) 2 1 3 3 = 21%R.
Proof.
  eexists. split; [vm_compute; reflexivity|]. repeat (split; [reflexivity|]). split.
  - intros i j Y X u v Hi Hj _ _ _ _. cbn [mij t_cell].
    assert (i = 0 \/ i = 1 \/ i = 2) as [->|[->| ->]] by lia;
      (assert (j = 0 \/ j = 1 \/ j = 2 \/ j = 3) as [->|[->|[->| ->]]] by lia); reflexivity.
  - reflexivity.
Qed.
