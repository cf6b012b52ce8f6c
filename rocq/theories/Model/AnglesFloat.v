(** Normalisation of arrays of angles in binary64 (micropolarray/utils.py 143-156). *)
From Coq Require Import Floats.SpecFloat.
From Verif Require Import Base.Base Base.Num Model.Angles.

(** np.pi, np.pi / 2 and - np.pi / 2. *)
Definition pi64 : b64 := S754_finite false 7074237752028440 (-51).
Definition half_pi64 : b64 := S754_finite false 7074237752028440 (-52).
Definition minus_half_pi64 : b64 := S754_finite true 7074237752028440 (-52).

(** utils.py 143-156 *)
Definition normalize2piarray64 (fuel : nat) (data : arr b64) : result (arr b64) :=
  let* data := while_loop fuel (aany (fun v => nltb half_pi64 v))
                 (amap (fun v => if nltb half_pi64 v then v -! pi64 else v)) data in
  while_loop fuel (aany (fun v => nleb v minus_half_pi64))
    (amap (fun v => if nleb v minus_half_pi64 then v +! pi64 else v)) data.
