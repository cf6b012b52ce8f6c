(** Polarization parameters: micropolarray/polarization_functions.py 14-62 and the
    Malus model of micropolarray/processing/demodulation.py 1062-1068. *)
From Coq Require Import Reals.
From Verif Require Import Base.Base Base.Num Model.Stokes.

(** np.arctan2 on real numbers.  Simplification: the reals have one zero, so the
    IEEE distinction between +0.0 and -0.0 arguments is not represented. *)
Definition atan2 (y x : R) : R :=
  if Rltb 0 x then atan (y / x)
  else if Rltb x 0 then
    if Rleb 0 y then (atan (y / x) + PI)%R else (atan (y / x) - PI)%R
  else if Rltb 0 y then (PI / 2)%R
  else if Rltb y 0 then (- (PI / 2))%R
  else 0%R.

(** polarization_functions.py 14-30: 0.5 * arctan2(U, Q).  The statements after the
    first [return] are unreachable and not modelled. *)
Definition AoLP (s : stokes R) : arr R :=
  amap2 (fun u q => (1 / 2 * atan2 (1 * u) (1 * q))%R) (sU s) (sQ s).

Section Pol.
  Context {A : Type} `{Num A}.

  (** polarization_functions.py 59-62 *)
  Definition pB (s : stokes A) : arr A :=
    amap2 (fun q u => nsqrt ((q *! q) +! (u *! u))) (sQ s) (sU s).

  (** polarization_functions.py 47-56: np.divide(..., where=(I != 0), out=zeros) *)
  Definition DoLP (s : stokes A) : arr A :=
    amap2 (fun i p => if negb (neqb i n0) then p /! i else n0) (sI s) (pB s).
End Pol.

(** demodulation.py 1062-1068 (angles in radians) *)
Definition Malus (angle throughput efficiency phase : R) : R :=
  (let modulated_efficiency :=
     efficiency * (cos (2 * phase) * cos (2 * angle) + sin (2 * phase) * sin (2 * angle)) in
   1 / 2 * throughput * (1 + modulated_efficiency))%R.
