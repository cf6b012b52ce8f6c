(** Calibrating with a rotating polarizer. *)
From Coq Require Import Reals Permutation.
From Verif Require Import Base.Base Model.DemodFit Model.Calibrate Spec.FitSpec Spec.CalibSpec.
Local Open Scope R_scope.

(** Three of the orientations (radians) differ, even modulo a half turn. *)
Definition different (a b : R) : Prop := forall n : Z, a - b <> IZR n * PI.
Definition three_different (l : list R) : Prop :=
  exists a b c, In a l /\ In b l /\ In c l /\ different a b /\ different b c /\ different a c.

(** Fraction that a micropolarizer (throughput, efficiency, orientation) passes of light from
    behind a polarizer at [theta]: Malus' law *)
Definition passed (p : param3) (theta : R) : R :=
  p_t p / 2 * (1 + p_e p * cos (2 * (theta - p_phi p))).

Definition in_box (p : param3) (b : param3 * param3) : Prop :=
  p_t (fst b) <= p_t p <= p_t (snd b) /\ p_e (fst b) <= p_e p <= p_e (snd b) /\
  p_phi (fst b) <= p_phi p <= p_phi (snd b).

(** [p] is within the bounds and explains the samples exactly. *)
Definition explains (angles samples : list R) (box : param3 * param3) (p : param3) : Prop :=
  in_box p box /\ samples = map (passed p) angles.

(** With these orientations and bounds the fit finds the exact solution if there is one and
    only one, whatever the starting values and errors. *)
Definition finds_exact (fit : list R -> list R -> param3 -> list R -> param3 * param3 -> option (param3 * mat33))
    (angles : list R) (box : param3 * param3) : Prop :=
  forall samples guess sigma p,
    explains angles samples box p -> (forall q, explains angles samples box q -> q = p) ->
    exists v, fit angles samples guess sigma box = Some (p, v).

(** Throughput and efficiency are searched above zero. *)
Definition positive_bounds (S : settings) : Prop :=
  0 < p_e (expected (tk_boundary S)) /\ 0 < p_e (expected (eff_boundary S)).

Definition degrees (v : R) : R := v / PI * 180.

(** The files [fs], taken at orientations [os] (in order of orientation: [ps], holding
    [images]), a dark and normalising images: what calibrate is called with, without occulter
    and with chunks dividing the 2h x 2w pixels. *)
Definition calibration_input (W : world) (args : arguments) (os : list R) (fs : list string)
    (ps : list (R * string)) (images : list (arr R)) (dark : option (arr R)) (norms : list (Z -> Z -> R)) (h w : Z) : Prop :=
  Permutation ps (combine os fs) /\ by_orientation ps /\ ps <> [] /\
  (1 <= a_binning args)%Z /\ (0 <= h)%Z /\ (0 <= w)%Z /\
  Forall2 (fun p r => file_image W (a_binning args) h w (snd p) r) ps images /\
  dark_is W args h w dark /\ a_flat args = None /\ a_occulter args = None /\
  norms_are W args dark ps images h w norms /\ 0 < a_gain args /\
  (forall r y x, In r images -> (0 <= y < 2 * h)%Z -> (0 <= x < 2 * w)%Z -> 0 <= level dark r y x) /\
  (0 < a_ny args)%Z /\ (0 < a_nx args)%Z /\ (h mod a_ny args = 0)%Z /\ (w mod a_nx args = 0)%Z /\
  Permutation (finish W) (zrange (a_ny args * a_nx args)).

(** Every pixel recorded what its micropolarizer [p Y X] passes at each orientation, and these
    parameters are within the bounds of the search. *)
Definition lamp_recorded (S : settings) (images : list (Z -> Z -> R)) (h w : Z) (p : Z -> Z -> four param3) : Prop :=
  forall Y X k, (0 <= Y < h)%Z -> (0 <= X < w)%Z -> (0 <= k < 4)%Z ->
    in_box (f4 (p Y X) k) (search_box S k) /\
    map (fun image => image (2 * Y + k / 2)%Z (2 * X + k mod 2)%Z) images = map (passed (f4 (p Y X) k)) (angles_rad S).
