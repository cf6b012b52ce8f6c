(** Pseudo-inverses, ideal sensors and acceptable calibration series. *)
From Coq Require Import Reals.
From Verif Require Import Base.Base Spec.SumSpec.
Local Open Scope Z_scope.

(** Product of an [_ x n] and an [n x _] matrix; equality of [m x n] matrices *)
Definition product (n : Z) (a b : Z -> Z -> R) : Z -> Z -> R :=
  fun i j => rsum n (fun k => (a i k * b k j)%R).
Definition same (m n : Z) (a b : Z -> Z -> R) : Prop :=
  forall i j, 0 <= i < m -> 0 <= j < n -> a i j = b i j.
Definition transposed (a : Z -> Z -> R) : Z -> Z -> R := fun i j => a j i.

(** Penrose's conditions: [x] is the pseudo-inverse of the [m x n] matrix [a]. *)
Definition pseudo_inverse (m n : Z) (a x : Z -> Z -> R) : Prop :=
  same m n (product m (product n a x) a) a /\
  same n m (product n (product m x a) x) x /\
  same m m (product n a x) (transposed (product n a x)) /\
  same n n (product m x a) (transposed (product m x a)).

Definition rank_one (m n : Z) (a : Z -> Z -> R) : Prop :=
  exists u v : Z -> R, same m n a (fun i j => (u i * v j)%R).

(** What is needed of [np.linalg.pinv]: it inverts matrices of rank one (or zero). *)
Definition inverts (pinv : Z -> Z -> (Z -> Z -> R) -> option (Z -> Z -> R)) : Prop :=
  forall m n a, 0 <= m -> 0 <= n -> rank_one m n a -> exists x, pinv m n a = Some x /\ pseudo_inverse m n a x.

(** What a polarizer at [phase] degrees records of light with Stokes parameters I, Q, U *)
Definition ideal_pixel (phase i q u : R) : R :=
  (/ 2 * (i + cos (2 * (phase * PI / 180)) * q + sin (2 * (phase * PI / 180)) * u))%R.

(** Correcting the values [p] of a superpixel *)
Definition apply_fit (c : (Z -> Z -> R) * (Z -> R)) (p : Z -> R) (k : Z) : R :=
  rsum 4 (fun j => (fst c k j * (p j - snd c j))%R).

(** The four values of the superpixel of pixel (y, x), row by row *)
Definition quadruple (a : arr R) (y x k : Z) : R := cell a (2 * (y / 2) + k / 2) (2 * (x / 2) + k mod 2).

(** Documented requirements on the calibration series *)
Definition acceptable (orientations : list R) (names : list string) : Prop :=
  length orientations = length names /\
  In 0%R orientations /\ In 45%R orientations /\ In 90%R orientations /\ In (-45)%R orientations.
Definition readable (open : string -> result (arr R)) (name : string) : Prop := exists a, open name = Ok a.

(** No name, or the empty one *)
Definition no_name (name : option string) : Prop := name = None \/ name = Some ""%string.

(** [k] is the place of the polarizer at [a] degrees. *)
Definition placed (phases : list R) (a : R) (k : Z) : Prop :=
  0 <= k < 4 /\ nth_error phases (Z.to_nat k) = Some a.

(** Image of an ideal sensor with the polarizers at 0, 45, -45, 90 degrees (row by row) under
    fully polarized light of intensity [v] at [theta] degrees *)
Definition sensor_phase (y x : Z) : R :=
  if y mod 2 =? 0 then (if x mod 2 =? 0 then 0 else 45)%R else (if x mod 2 =? 0 then -45 else 90)%R.
Definition ideal_image (h w : Z) (v theta : R) : arr R :=
  mkarr h w (fun y x => ideal_pixel (sensor_phase y x) v
    (v * cos (2 * (theta * PI / 180)))%R (v * sin (2 * (theta * PI / 180)))%R).

Definition greatest (a : arr R) (m : R) : Prop :=
  (exists y x, 0 <= y < rows a /\ 0 <= x < cols a /\ cell a y x = m) /\
  forall y x, 0 <= y < rows a -> 0 <= x < cols a -> (cell a y x <= m)%R.

(** [im] is the image [d] divided by the flat field [fl] relative to its greatest value [m]; pixels
    where the flat field is zero are left as they are. *)
Definition flattened (fl : arr R) (m : R) (d im : arr R) : Prop :=
  rows im = rows d /\ cols im = cols d /\
  forall y x, 0 <= y < rows d -> 0 <= x < cols d ->
    (cell fl y x = 0%R -> cell im y x = cell d y x) /\
    (cell fl y x <> 0%R -> cell im y x = cell d y x / (cell fl y x / m))%R.
