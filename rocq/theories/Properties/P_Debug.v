(** C149: what a debugging run of the calibration shows, and that it leaves the folder alone. *)
From Coq Require Import Reals.
From Verif Require Import Base.Base Model.DemodFit Model.DemodLoad Model.CalibDebug Spec.FitSpec Spec.DebugSpec Proofs.DebugFacts.

(** All the figures, one after the other *)
Theorem C149_shows (S : settings) c h w : series_shape c h w -> 75 <= h -> 75 <= w ->
  exists o figs, debug_grid S c = Ok (o, figs) /\ shows S c (all4 (0, 0, 0)%R) inspected figs.
Proof. exact (c149_shows S c h w). Qed.
Print Assumptions C149_shows.

(** One figure for every superpixel of the window that is not occulted, with its own points, and with its own curves if all of
    its pixels could be fitted.  Otherwise see below. *)
Theorem C149_figures_partial (S : settings) c h w : series_shape c h w -> 75 <= h -> 75 <= w ->
  exists o figs, debug_grid S c = Ok (o, figs) /\
    (forall Y X, 50 <= Y < 75 -> 50 <= X < 75 -> ~ occulted c Y X -> exists f, In f figs /\ figure_of c Y X f) /\
    forall f, In f figs -> exists Y X, 50 <= Y < 75 /\ 50 <= X < 75 /\ ~ occulted c Y X /\ figure_of c Y X f /\
      ((forall k, 0 <= k < 4 -> exists p v, fit_gives S c Y X k p v) -> forall k, 0 <= k < 4 -> exists v, fit_gives S c Y X k (f4 (g_params f) k) v).
Proof. exact (c149_own S c h w). Qed.
Print Assumptions C149_figures_partial.

(** Refuted: dark pixels are shown with the curves of another superpixel. *)
Theorem C149_curves_refuted :
  series_shape one_lit 75 75 /\
  exists o f g figs, debug_grid one_fit one_lit = Ok (o, f :: g :: figs) /\
    figure_of one_lit 50 50 f /\ figure_of one_lit 50 51 g /\
    forall k, 0 <= k < 4 -> f4 (g_params g) k = f4 (g_params f) k /\ f4 (g_params g) k = (1, 1, 0)%R /\ dark (series one_lit 50 51 k).
Proof. exact c149_stale. Qed.
Print Assumptions C149_curves_refuted.

(** Refuted: images with a side of less than 150 pixels cannot be looked at. *)
Theorem C149_small_refuted (S : settings) c h w : series_shape c h w -> h < 75 \/ w < 75 -> debug_grid S c = Raise ValueError.
Proof. exact (c149_small S c h w). Qed.
Print Assumptions C149_small_refuted.

(** Odd sides are refused. *)
Theorem C149_odd (S : settings) c : c_h c mod 2 = 1 \/ c_w c mod 2 = 1 -> debug_grid S c = Raise ValueError.
Proof. exact (c149_odd S c). Qed.
Print Assumptions C149_odd.

(** Nothing is written and the function does not return; without DEBUG the files of C27 are written. *)
Theorem C149_folder {A} (c : calibration A) (l : folder A) :
  finish_calibration true c l = (l, false) /\ finish_calibration false c l = (write_all (written_files c) l, true).
Proof. exact (conj eq_refl eq_refl). Qed.
Print Assumptions C149_folder.

Example C149_case :
  series_shape one_lit 75 75 /\ (exists f g, f <> g /\ In f inspected /\ In g inspected) /\ length inspected = 625%nat /\
  debug_grid one_fit (mkchunk 4 4 [] [] (full 4 4 0%R)) = Raise ValueError.
Proof.
  split; [exact (proj1 c149_stale)|]. split; [exists (50, 50), (74, 74); split; [discriminate|split; apply inspected_in; split; split; reflexivity || discriminate]|].
  split; [vm_compute; reflexivity|]. apply (C149_small_refuted one_fit _ 2 2).
  - repeat split; discriminate.
  - left. reflexivity.
Qed.
