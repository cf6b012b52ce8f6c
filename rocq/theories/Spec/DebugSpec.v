(** What a debugging run of the calibration shows (vocabulary for C149). *)
From Coq Require Import Reals.
From Verif Require Import Base.Base Model.DemodFit Model.CalibDebug Spec.FitSpec.

(** The superpixels that are looked at, row by row *)
Definition inspected : list (Z * Z) := list_prod (map (Z.add 50) (zrange 25)) (map (Z.add 50) (zrange 25)).

(** The figure of superpixel (Y, X) of the series [c] *)
Definition figure_of (c : chunk) (Y X : Z) (f : figure) : Prop :=
  g_y f = 2 * Y /\ g_x f = 2 * X /\
  forall k, 0 <= k < 4 -> f4 (g_points f) k = series c Y X k /\ f4 (g_errors f) k = errors c Y X k.

(** The curves of [f]: those fitted to this superpixel up to the first pixel without a fit, from
    there on those of [before]. *)
Definition curves (S : settings) (c : chunk) (Y X : Z) (before : four param3) (f : figure) : Prop :=
  forall k, 0 <= k < 4 ->
    ((forall j, 0 <= j <= k -> exists p v, fit_gives S c Y X j p v) /\ exists v, fit_gives S c Y X k (f4 (g_params f) k) v) \/
    ((exists j, 0 <= j <= k /\ forall p v, ~ fit_gives S c Y X j p v) /\ f4 (g_params f) k = f4 before k).

(** The figures for a list of superpixels, the last curves being [before] *)
Inductive shows (S : settings) (c : chunk) : four param3 -> list (Z * Z) -> list figure -> Prop :=
| shows_nothing before : shows S c before [] []
| shows_occulted before Y X rest figures :
    occulted c Y X -> shows S c before rest figures -> shows S c before ((Y, X) :: rest) figures
| shows_figure before Y X rest f figures :
    ~ occulted c Y X -> figure_of c Y X f -> curves S c Y X before f ->
    shows S c (g_params f) rest figures -> shows S c before ((Y, X) :: rest) (f :: figures).
