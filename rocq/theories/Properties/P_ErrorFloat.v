(** C141: rounding errors of the propagation of errors. *)
From Coq Require Import Reals Lra Lia.
From Verif Require Import Base.Base Base.Num Model.Demosaic Model.Stokes Model.Demodulate Model.Errors
  Spec.AngleSpec Spec.MosaicSpec Spec.FloatSpec Spec.ErrorFloatSpec Proofs.ErrorFloatFacts.
Local Open Scope R_scope.

(** For any Stokes parameters, errors of pixels and demodulation matrices of ordinary size, MicropolImageError
    computes the errors of the Stokes parameters, and those of pB, DoLP and AoLP where they are defined, up to 2^-48 of
    their size: no digits are lost by cancellation, whatever the data. *)
Theorem C141_errors : forall (S : stokes b64) (e : arr b64) (d : demodulator b64) h w,
  (0 <= h)%Z -> (0 <= w)%Z ->
  usual_stokes 60 h w S -> usual_image 15 (2 * h) (2 * w) e -> usual_tensor 15 h w (mij d) ->
  exists sS sP sD sA rS rP rD rA, MicropolImageError S e d = Ok (sS, sP, sD, sA) /\
    MicropolImageError (real_stokes S) (values e) (real_demodulator d) = Ok (rS, rP, rD, rA) /\
    forall y x, (0 <= y < h)%Z -> (0 <= x < w)%Z ->
      let ok := FloatSpec.within (/ 2 ^ 48) in
      let I := fval (cell (sI S) y x) in let Q := fval (cell (sQ S) y x) in let U := fval (cell (sU S) y x) in
      ok (cell (sI sS) y x) (cell (sI rS) y x) /\ ok (cell (sQ sS) y x) (cell (sQ rS) y x) /\ ok (cell (sU sS) y x) (cell (sU rS) y x) /\
      (~ (Q = 0 /\ U = 0) -> ok (cell sP y x) (cell rP y x)) /\
      (~ (Q = 0 /\ U = 0) -> I <> 0 -> ok (cell sD y x) (cell rD y x)) /\
      (Q <> 0 -> ok (cell sA y x) (cell rA y x)).
Proof. exact c141_errors. Qed.
Print Assumptions C141_errors.

Definition all_pixels (h w v : Z) : arr b64 := mkarr h w (fun _ _ => nofZ v).

Example C141_case :
  usual_stokes 60 2 3 (mkstokes (all_pixels 2 3 1000) (all_pixels 2 3 30) (all_pixels 2 3 (-40))) /\
  usual_image 15 (2 * 2) (2 * 3) (all_pixels 4 6 7) /\ usual_tensor 15 2 3 (mktensor 2 3 (fun i j _ _ => nofZ (1 + i + j))).
Proof.
  assert (P60 : 10000 <= powerRZ 2 60) by (apply ten_thousand; lia). assert (P15 : 10000 <= powerRZ 2 15) by (apply ten_thousand; lia).
  assert (V : forall k z, 10000 <= powerRZ 2 k -> (0 <= k)%Z -> (1 <= Z.abs z <= 10000)%Z -> usual k (nofZ z)).
  { intros k z Hk K0 Hz. apply usual_Z; [change (2 ^ 53)%Z with 9007199254740992%Z; lia| |exact K0]. rewrite <- abs_IZR. split; [apply IZR_le; lia|].
    apply Rle_trans with (2 := Hk). apply IZR_le. lia. }
  split; [|split].
  - split; [|split]; (split; [reflexivity|split; [reflexivity|]]); intros y x _ _; apply V; try assumption; lia.
  - split; [reflexivity|]. split; [reflexivity|]. intros y x _ _. apply V; try assumption; lia.
  - split; [reflexivity|]. split; [reflexivity|]. intros i j y x Hi Hj _ _. cbn [t_cell]. apply V; try assumption; lia.
Qed.
