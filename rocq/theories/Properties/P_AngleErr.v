(** C118: errors of pB, AoLP and DoLP that errors of I, Q and U cause. *)
From Coq Require Import Reals Lra.
From Verif Require Import Base.Base Base.Num Model.Stokes Model.Pol Model.PolFloat
  Spec.AngleSpec Spec.MosaicSpec Spec.FloatSpec Spec.AngleErr Proofs.AngleErrFacts.
Local Open Scope R_scope.

(** If (Q, U) moves by at most [e], pB changes by at most [e], AoLP turns by at most half of the angle under which a
    disc of radius [e] is seen, and DoLP changes accordingly. *)
Theorem C118_errors (s s' : stokes R) y x e : 0 <= e -> moved e s s' y x ->
  Rabs (cell (pB s') y x - cell (pB s) y x) <= e /\
  (e < cell (pB s) y x -> close_angle PI (asin (e / cell (pB s) y x) / 2) (cell (AoLP s') y x) (cell (AoLP s) y x)) /\
  forall f, Rabs (cell (sI s') y x - cell (sI s) y x) <= f -> 0 < cell (sI s) y x -> 0 < cell (sI s') y x ->
    Rabs (cell (DoLP s') y x - cell (DoLP s) y x) <= (e + cell (DoLP s) y x * f) / cell (sI s') y x.
Proof. exact (c118_errors s s' y x e). Qed.
Print Assumptions C118_errors.

(** AoLP computed in binary64 with a library function arctan2 that is off by at most [eps]: from Stokes parameters
    with rounding errors, as C103 bounds them, *)
Theorem C118_rounded eps at2 g e (s : stokes b64) r m y x : accurate_arctan2 eps at2 -> off_stokes g e s r m ->
  rows (sQ r) = rows (sI r) -> cols (sQ r) = cols (sI r) -> rows (sU r) = rows (sI r) -> cols (sU r) = cols (sI r) ->
  (0 <= y < rows (sI r))%Z -> (0 <= x < cols (sI r))%Z ->
  2 * (g * cell (sI m) y x + e) < cell (pB r) y x ->
  let a := cell (AoLP64 at2 s) y x in
  is_binary64 a /\ finite64 a /\
  close_angle PI (eps / 2 + asin (2 * (g * cell (sI m) y x + e) / cell (pB r) y x) / 2 + powerRZ 2 (-1074)) (fval a) (cell (AoLP r) y x).
Proof. exact (c118_stokes eps at2 g e s r m y x). Qed.
Print Assumptions C118_rounded.

(** and from a raw image, where cancellation does no harm: wherever there is any polarization. *)
Theorem C118_raw eps at2 top d dic s : accurate_arctan2 eps at2 -> bounded top d -> mosaic d -> top <= powerRZ 2 1019 -> data_stokes dic d = Ok s ->
  exists r, data_stokes dic (values d) = Ok r /\
    forall y x, (0 <= y < rows d / 2)%Z -> (0 <= x < cols d / 2)%Z -> 0 < cell (pB r) y x ->
      let a := cell (AoLP64 at2 s) y x in
      is_binary64 a /\ finite64 a /\ close_angle PI (eps / 2 + powerRZ 2 (-52)) (fval a) (cell (AoLP r) y x).
Proof. exact (c118_raw eps at2 top d dic s). Qed.
Print Assumptions C118_raw.

(** Q = 2, U = 0 and Q = 1, U = 0: the bound for pB is attained.  There are accurate functions arctan2. *)
Definition stokes_of (i q u : R) : stokes R := mkstokes (mkarr 1 1 (fun _ _ => i)) (mkarr 1 1 (fun _ _ => q)) (mkarr 1 1 (fun _ _ => u)).
Example C118_case : moved 1 (stokes_of 4 2 0) (stokes_of 4 1 0) 0 0 /\ cell (pB (stokes_of 4 2 0)) 0 0 = 2 /\ cell (pB (stokes_of 4 1 0)) 0 0 = 1 /\
  exists at2, accurate_arctan2 (powerRZ 2 (-51)) at2.
Proof.
  assert (E : forall q, 0 <= q -> sqrt (q * q + 0 * 0) = q) by (intros q Hq; rewrite Rmult_0_l, Rplus_0_r; apply sqrt_square, Hq).
  split; [unfold moved, Rsqr, stokes_of; cbn [cell sQ sU]; lra|]. split; [apply (E 2); lra|]. split; [apply (E 1); lra|].
  exact (ex_intro _ _ some_accurate).
Qed.
