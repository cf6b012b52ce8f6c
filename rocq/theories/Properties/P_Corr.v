(** Property C113: errors of the polarization parameters from the errors of the pixels. *)
From Coq Require Import Reals Lra Lia.
From Verif Require Import Base.Base Base.Num Model.Demosaic Model.Stokes Model.Pol Model.Demodulate Model.Errors
  Spec.MosaicSpec Spec.StokesSpec Spec.DemodSpec Spec.ErrorSpec Spec.CorrSpec Proofs.CorrFacts.
Local Open Scope Z_scope.

(** ** C113.  Full statement: the errors of pB, DoLP and AoLP are those that the errors of the four pixels of
    the superpixel produce.  Missing: superpixels where two of I, Q and U are correlated. *)
Theorem C113_uncorrelated_partial (d : demodulator R) (data e : arr R) (old s : stokes R) h w :
  mosaic data -> rows e = rows data /\ cols e = cols data -> h = rows data / 2 -> w = cols data / 2 ->
  t_rows (mij d) = h -> t_cols (mij d) = w ->
  (forall f, fit_found_flags d = Some f ->
     (rows f = h /\ cols f = w) /\ (rows (sI old) = h /\ cols (sI old) = w) /\
     (rows (sQ old) = h /\ cols (sQ old) = w) /\ (rows (sU old) = h /\ cols (sU old) = w)) ->
  demod_raw d data old = Ok s ->
  exists sS sP sD sA, MicropolImageError s e d = Ok (sS, sP, sD, sA) /\
    forall Y X, 0 <= Y < h -> 0 <= X < w -> (forall f, fit_found_flags d = Some f -> cell f Y X = 1%R) ->
      let m i j := t_cell (mij d) i j Y X in let v j := sample data j Y X in let sigma j := sample e j Y X in
      let I := row m 0 v in let Q := row m 1 v in let U := row m 2 v in
      covariance m sigma 1 2 = 0%R ->
      (~ (Q = 0 /\ U = 0)%R -> by_pixels (fun i q u => value (pB (pixel i q u))) m v sigma (cell sP Y X)) /\
      (Q <> 0%R -> (0 < Q \/ U <> 0)%R -> by_pixels (fun i q u => value (AoLP (pixel i q u))) m v sigma (cell sA Y X)) /\
      (covariance m sigma 0 1 = 0%R -> covariance m sigma 0 2 = 0%R -> I <> 0%R -> ~ (Q = 0 /\ U = 0)%R ->
         by_pixels (fun i q u => value (DoLP (pixel i q u))) m v sigma (cell sD Y X)).
Proof. exact (c113_uncorrelated d data e old s h w). Qed.
Print Assumptions C113_uncorrelated_partial.

(** Where the matrix correlates Q and U, the errors of pB and AoLP are other ones. *)
Theorem C113_correlated_refuted (d : demodulator R) (data e : arr R) (old s : stokes R) h w :
  mosaic data -> rows e = rows data /\ cols e = cols data -> h = rows data / 2 -> w = cols data / 2 ->
  t_rows (mij d) = h -> t_cols (mij d) = w ->
  (forall f, fit_found_flags d = Some f ->
     (rows f = h /\ cols f = w) /\ (rows (sI old) = h /\ cols (sI old) = w) /\
     (rows (sQ old) = h /\ cols (sQ old) = w) /\ (rows (sU old) = h /\ cols (sU old) = w)) ->
  demod_raw d data old = Ok s ->
  exists sS sP sD sA, MicropolImageError s e d = Ok (sS, sP, sD, sA) /\
    forall Y X, 0 <= Y < h -> 0 <= X < w -> (forall f, fit_found_flags d = Some f -> cell f Y X = 1%R) ->
      let m i j := t_cell (mij d) i j Y X in let v j := sample data j Y X in let sigma j := sample e j Y X in
      let I := row m 0 v in let Q := row m 1 v in let U := row m 2 v in
      covariance m sigma 1 2 <> 0%R -> Q <> 0%R -> U <> 0%R ->
      ~ by_pixels (fun i q u => value (pB (pixel i q u))) m v sigma (cell sP Y X) /\
      ~ by_pixels (fun i q u => value (AoLP (pixel i q u))) m v sigma (cell sA Y X).
Proof. exact (c113_correlated d data e old s h w). Qed.
Print Assumptions C113_correlated_refuted.

(** How far apart they are: the squares differ by terms in the covariances. *)
Theorem C113_difference (d : demodulator R) (data e : arr R) (old s : stokes R) h w :
  mosaic data -> rows e = rows data /\ cols e = cols data -> h = rows data / 2 -> w = cols data / 2 ->
  t_rows (mij d) = h -> t_cols (mij d) = w ->
  (forall f, fit_found_flags d = Some f ->
     (rows f = h /\ cols f = w) /\ (rows (sI old) = h /\ cols (sI old) = w) /\
     (rows (sQ old) = h /\ cols (sQ old) = w) /\ (rows (sU old) = h /\ cols (sU old) = w)) ->
  demod_raw d data old = Ok s ->
  exists sS sP sD sA, MicropolImageError s e d = Ok (sS, sP, sD, sA) /\
    forall Y X, 0 <= Y < h -> 0 <= X < w -> (forall f, fit_found_flags d = Some f -> cell f Y X = 1%R) ->
      let m i j := t_cell (mij d) i j Y X in let v j := sample data j Y X in let sigma j := sample e j Y X in
      let I := row m 0 v in let Q := row m 1 v in let U := row m 2 v in let cov := covariance m sigma in
      (0 <= cell sP Y X /\ 0 <= cell sD Y X /\ 0 <= cell sA Y X)%R /\
      (~ (Q = 0 /\ U = 0)%R -> exists t, by_pixels (fun i q u => value (pB (pixel i q u))) m v sigma t /\ (0 <= t)%R /\
         (t * t = cell sP Y X * cell sP Y X + 2 * (Q * U / (Q * Q + U * U)) * cov 1%Z 2%Z)%R) /\
      (I <> 0%R -> ~ (Q = 0 /\ U = 0)%R ->
         exists t, by_pixels (fun i q u => value (DoLP (pixel i q u))) m v sigma t /\ (0 <= t)%R /\
         (t * t = cell sD Y X * cell sD Y X + 2 * (Q * U / (Q * Q + U * U) * cov 1%Z 2%Z / (I * I)
                   - (Q * cov 0%Z 1%Z + U * cov 0%Z 2%Z) / (I * I * I)))%R) /\
      (Q <> 0%R -> (0 < Q \/ U <> 0)%R ->
         exists t, by_pixels (fun i q u => value (AoLP (pixel i q u))) m v sigma t /\ (0 <= t)%R /\
         (t * t = cell sA Y X * cell sA Y X - Q * U / (2 * (Q * Q + U * U) * (Q * Q + U * U)) * cov 1%Z 2%Z)%R).
Proof. exact (c113_relation d data e old s h w). Qed.
Print Assumptions C113_difference.

(** With ideal polarizers the errors of pB and AoLP are right whatever the errors of the pixels. *)
Theorem C113_ideal (a : arrangement) (d : demodulator R) (data e : arr R) (old s : stokes R) h w :
  mosaic data -> rows e = rows data /\ cols e = cols data -> h = rows data / 2 -> w = cols data / 2 ->
  t_rows (mij d) = h -> t_cols (mij d) = w -> fit_found_flags d = None -> arrangement_ok a ->
  (forall Y X, 0 <= Y < h -> 0 <= X < w -> ideal_matrix a (fun i j => t_cell (mij d) i j Y X)) ->
  demod_raw d data old = Ok s ->
  exists sS sP sD sA, MicropolImageError s e d = Ok (sS, sP, sD, sA) /\
    forall Y X, 0 <= Y < h -> 0 <= X < w ->
      let m i j := t_cell (mij d) i j Y X in let v j := sample data j Y X in let sigma j := sample e j Y X in
      let Q := (v (p0 a) - v (p90 a))%R in let U := (v (p45 a) - v (pm45 a))%R in
      (~ (Q = 0 /\ U = 0)%R -> by_pixels (fun i q u => value (pB (pixel i q u))) m v sigma (cell sP Y X)) /\
      (Q <> 0%R -> (0 < Q \/ U <> 0)%R -> by_pixels (fun i q u => value (AoLP (pixel i q u))) m v sigma (cell sA Y X)).
Proof. exact (c113_ideal a d data e old s h w). Qed.
Print Assumptions C113_ideal.

(** Even with ideal polarizers and photon noise the error of DoLP is always too large. *)
Theorem C113_photon_refuted (a : arrangement) (d : demodulator R) (data e : arr R) (old s : stokes R) h w g :
  mosaic data -> rows e = rows data /\ cols e = cols data -> h = rows data / 2 -> w = cols data / 2 ->
  t_rows (mij d) = h -> t_cols (mij d) = w -> fit_found_flags d = None -> arrangement_ok a ->
  (forall Y X, 0 <= Y < h -> 0 <= X < w -> ideal_matrix a (fun i j => t_cell (mij d) i j Y X)) ->
  demod_raw d data old = Ok s -> (0 < g)%R ->
  (forall j Y X, 0 <= j < 4 -> 0 <= Y < h -> 0 <= X < w ->
     (sample e j Y X * sample e j Y X = sample data j Y X / g)%R) ->
  exists sS sP sD sA, MicropolImageError s e d = Ok (sS, sP, sD, sA) /\
    forall Y X, 0 <= Y < h -> 0 <= X < w ->
      let m i j := t_cell (mij d) i j Y X in let v j := sample data j Y X in let sigma j := sample e j Y X in
      let I := ((v (p0 a) + v (p45 a) + v (pm45 a) + v (p90 a)) / 2)%R in
      let Q := (v (p0 a) - v (p90 a))%R in let U := (v (p45 a) - v (pm45 a))%R in
      (0 < I)%R -> ~ (Q = 0 /\ U = 0)%R ->
      exists t, by_pixels (fun i q u => value (DoLP (pixel i q u))) m v sigma t /\ (0 <= t)%R /\
        (t * t = cell sD Y X * cell sD Y X - (Q * Q + U * U) / (g * (I * I * I)))%R /\ (t < cell sD Y X)%R.
Proof. exact (fun A1 A2 A3 A4 A5 A6 A7 A8 A9 A10 => c113_photon a d data e old s h w A1 A2 A3 A4 A5 A6 A7 A8 A9 A10 g). Qed.
Print Assumptions C113_photon_refuted.

(** Pixels 49, 25, 25, 1 (I = 50, Q = 48, U = 0) with errors 7, 5, 5, 1. *)
Example C113_case :
  let a := mkarrangement 0 1 2 3 in
  let four (p q r s : R) j := if j =? 0 then p else if j =? 1 then q else if j =? 2 then r else s in
  let m i j := (if i =? 0 then 1 / 2 else if i =? 1 then four 1 0 0 (-1) j else four 0 1 (-1) 0 j)%R in
  let d := mkdemodulator (mktensor 1 1 (fun i j _ _ => m i j)) None in
  let data := mkarr 2 2 (fun y x => four 49%R 25%R 25%R 1%R (2 * y + x)) in
  let e := mkarr 2 2 (fun y x => four 7%R 5%R 5%R 1%R (2 * y + x)) in
  (mosaic data /\ (rows e = rows data /\ cols e = cols data) /\ t_rows (mij d) = rows data / 2 /\
   t_cols (mij d) = cols data / 2 /\ arrangement_ok a) /\
  ideal_matrix a m /\
  (forall j, 0 <= j < 4 -> (sample e j 0 0 * sample e j 0 0 = sample data j 0 0 / 1)%R) /\
  (row m 0 (fun j => sample data j 0 0) = 50 /\ row m 1 (fun j => sample data j 0 0) = 48 /\
   row m 2 (fun j => sample data j 0 0) = 0)%R /\
  (covariance m (fun j => sample e j 0 0) 0 1 = 24 /\ covariance m (fun j => sample e j 0 0) 1 2 = 0)%R.
Proof.
  cbv zeta.
  assert (D : forall j, 0 <= j < 4 -> j = 0 \/ j = 1 \/ j = 2 \/ j = 3) by (intros; lia).
  split; [|split; [|split; [|split]]].
  - unfold mosaic, arrangement_ok. cbn. repeat split; lia.
  - intros j Hj. destruct (D j Hj) as [-> | [-> | [-> | ->]]]; cbn; repeat split; lra.
  - intros j Hj. destruct (D j Hj) as [-> | [-> | [-> | ->]]]; cbn; lra.
  - unfold row, sum4, sample. cbn. repeat split; lra.
  - unfold covariance, sum4, sample. cbn. repeat split; lra.
Qed.

(** A matrix whose rows for Q and U share pixel 0: Q = 3, U = 4 and their covariance is 1. *)
Example C113_correlated_case :
  let m i j := (if i =? 0 then 1 / 2 else if i =? 1 then (if j =? 0 then 1 else 0)
                else if j =? 0 then 1 else if j =? 1 then 1 else 0)%R in
  let v j := (if j =? 0 then 3 else if j =? 1 then 1 else 2)%R in
  (row m 1 v = 3 /\ row m 2 v = 4 /\ covariance m (fun _ => 1) 1 2 = 1)%R.
Proof. unfold row, covariance, sum4. cbn. repeat split; lra. Qed.
