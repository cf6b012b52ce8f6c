(** C123: dark and flat correction in binary64. *)
From Coq Require Import Reals Lra Floats.SpecFloat.
From Verif Require Import Base.Base Base.Num Model.Utils Model.FlatFloat Spec.AngleSpec Spec.FloatSpec Spec.CorrectSpec
  Proofs.CorrectFloatFacts Proofs.ExactFacts.
Local Open Scope R_scope.

(** Full statement: [subtract_dark] gives the correctly rounded difference, or 0 if it is negative, and a pixel that is
    not a number, in the image or in the dark, stays one; [correct_flat] is correct up to four roundings. *)
Theorem C123_dark_partial (data dark : arr b64) :
  same_shape data dark -> bounded (powerRZ 2 1022) data -> bounded (powerRZ 2 1022) dark ->
  exists d, dark_data data dark = Ok d /\ same_shape d data /\
    forall y x, (0 <= y < rows data)%Z -> (0 <= x < cols data)%Z ->
      nearest (cell d y x) (Rmax (fval (cell data y x) - fval (cell dark y x)) 0).
Proof. exact (c123_dark data dark). Qed.
Print Assumptions C123_dark_partial.

(** No rounding at all for camera counts. *)
Theorem C123_counts (data dark : arr b64) n :
  (0 <= n < 2 ^ 53)%Z -> same_shape data dark -> counts n data -> counts n dark ->
  exists d, dark_data data dark = Ok d /\ same_shape d data /\
    forall y x, (0 <= y < rows data)%Z -> (0 <= x < cols data)%Z ->
      is_value (cell d y x) (Rmax (fval (cell data y x) - fval (cell dark y x)) 0).
Proof. exact (c123_counts data dark n). Qed.
Print Assumptions C123_counts.

(** False for pixels that are not numbers: every one of them becomes the measurement 0. *)
Theorem C123_nan_refuted (data dark : arr b64) y x :
  same_shape data dark -> (0 <= y < rows data)%Z -> (0 <= x < cols data)%Z ->
  no_difference (cell data y x) (cell dark y x) ->
  exists d, dark_data data dark = Ok d /\ is_value (cell d y x) 0.
Proof. exact (c123_nan data dark y x). Qed.
Print Assumptions C123_nan_refuted.

(** The flat, for any computed mean that is close to the true one. *)
Theorem C123_flat (m : b64) mean eps junk (data flat : arr b64) :
  same_shape data flat -> FloatSpec.within eps m mean -> moderate (fval m) -> 0 <= eps ->
  exists c, flat_data_with m junk data flat = Ok c /\ same_shape c data /\
    forall y x, (0 <= y < rows data)%Z -> (0 <= x < cols data)%Z ->
      is_binary64 (cell data y x) -> finite64 (cell data y x) -> fval (cell data y x) = 0 \/ moderate (fval (cell data y x)) ->
      is_binary64 (cell flat y x) -> finite64 (cell flat y x) -> moderate (fval (cell flat y x)) ->
      FloatSpec.within (eps + powerRZ 2 (-51) * (1 + eps)) (cell c y x) (fval (cell data y x) * mean / fval (cell flat y x)).
Proof. exact (c123_flat m mean eps junk data flat). Qed.
Print Assumptions C123_flat.

(** A uniform flat changes nothing, pixels that are not numbers stay so. *)
Theorem C123_uniform (m : b64) junk (data flat : arr b64) :
  same_shape data flat -> is_binary64 m -> finite64 m -> fval m <> 0 -> (forall y x, cell flat y x = m) ->
  exists c, flat_data_with m junk data flat = Ok c /\ same_shape c data /\
    forall y x, (0 <= y < rows data)%Z -> (0 <= x < cols data)%Z ->
      is_binary64 (cell data y x) -> finite64 (cell data y x) -> is_value (cell c y x) (fval (cell data y x)).
Proof. exact (c123_uniform m junk data flat). Qed.
Print Assumptions C123_uniform.

Theorem C123_flat_nan (m : b64) junk (data flat : arr b64) y x :
  same_shape data flat -> (0 <= y < rows data)%Z -> (0 <= x < cols data)%Z ->
  cell flat y x = S754_nan \/ (cell data y x = S754_nan /\ neqb (cell flat y x /! m) n0 = false) ->
  exists c, flat_data_with m junk data flat = Ok c /\ cell c y x = S754_nan.
Proof. exact (c123_flat_nan m junk data flat y x). Qed.
Print Assumptions C123_flat_nan.

(** Counts 7, 2, 3 and a pixel that is not a number, dark 5, flat 3 and 1 with mean 2. *)
Definition shot : arr b64 := of_list S754_nan 2 2 [nofZ 7; nofZ 2; nofZ 3; S754_nan].
Example C123_case :
  counts 10 (full 2 2 (nofZ 5)) /\ bounded (powerRZ 2 1022) (full 2 2 (nofZ 5)) /\
  FloatSpec.within 0 (nofZ 2) 2 /\ moderate (fval (nofZ 2)) /\
  on_ok to_list (dark_data shot (full 2 2 (nofZ 5))) = Ok [[nofZ 2; nofZ 0]; [nofZ 0; nofZ 0]] /\
  on_ok to_list (flat_data_with (nofZ 2) (fun _ _ => nofZ 0) shot (of_list S754_nan 2 2 [nofZ 4; nofZ 1; nofZ 1; nofZ 2])) =
    Ok [[SFdiv 53 1024 (nofZ 7) (nofZ 2); nofZ 4]; [nofZ 6; S754_nan]].
Proof.
  pose proof (ofZ_value 5 eq_refl) as V5. pose proof (ofZ_value 2 eq_refl) as V2.
  split; [intros y x _ _; exists 5%Z; split; [lia|exact V5]|].
  split.
  { intros y x _ _. destruct V5 as (A & B & C). cbn [full cell]. split; [exact A|]. split; [exact B|]. rewrite C, Rabs_pos_eq by lra.
    apply Rle_trans with (powerRZ 2 3); [change (powerRZ 2 3) with (2 ^ 3); lra|]. apply power_le; lia. }
  split.
  { destruct V2 as (A & B & C). split; [exact A|]. split; [exact B|]. rewrite C. replace (2 - 2) with 0 by ring. rewrite Rabs_R0. lra. }
  split.
  { unfold moderate. replace (fval (nofZ 2)) with 2 by (symmetry; exact (value_val _ _ V2)). rewrite Rabs_pos_eq by lra. split.
    - apply Rle_trans with (powerRZ 2 0); [apply power_le; lia|change (powerRZ 2 0) with 1; lra].
    - apply Rle_trans with (powerRZ 2 1); [change (powerRZ 2 1) with (2 ^ 1); lra|apply power_le; lia]. }
  split; vm_compute; reflexivity.
Qed.
