(** Goodness of a fit (vocabulary for C112). *)
From Coq Require Import Reals.
From Verif Require Import Base.Base Model.DemodFit Model.Calibrate Spec.CalibSpec Spec.FitSpec.

(** Signal of throughput t, efficiency e and phase phi behind a polarizer at angle x, less the measured one *)
Definition misses (p : param3) (x v : R) : R := (1/2 * p_t p * (1 + p_e p * cos (2 * x - 2 * p_phi p)) - v)%R.

(** Sum of the squares of the deviations in units of the errors *)
Fixpoint chi_square (p : param3) (xs vs sigmas : list R) : R :=
  match xs, vs, sigmas with
  | x :: xs', v :: vs', s :: ss' => (Rsqr (misses p x v / s) + chi_square p xs' vs' ss')%R
  | _, _, _ => 0%R
  end.
(** for each degree of freedom: three parameters are fitted *)
Definition per_freedom (p : param3) (xs vs sigmas : list R) : R :=
  (chi_square p xs vs sigmas / IZR (Z.of_nat (length xs) - 3))%R.

(** The fitted curve goes through all samples. *)
Definition exact_fit (p : param3) (xs vs : list R) : Prop := Forall2 (fun x v => misses p x v = 0%R) xs vs.

(** As many data and error images as orientations *)
Definition complete (S : settings) (c : chunk) : Prop :=
  length (c_data c) = length (angles_rad S) /\ length (c_err c) = length (angles_rad S).
(** Errors are not negative at superpixel (Y, X). *)
Definition errors_positive (c : chunk) (Y X k : Z) : Prop := Forall (fun s => (0 < s)%R) (errors c Y X k).

(** Photon noise of a signal of [g] electrons for each unit, relative to the normalising signal: the square
    root of the number of electrons, in units of signal, over the norm. *)
Definition photon_noise (dark : option (arr R)) (g : R) (images : list (arr R)) (norms : list (Z -> Z -> R))
    : list (Z -> Z -> R) :=
  map (fun q y x => (sqrt (g * level dark (fst q) y x) / g / snd q y x)%R) (combine images norms).
