(** Properties C41-C43: angle normalisation. *)
From Coq Require Import Reals Lra Lia Floats.SpecFloat.
From Verif Require Import Base.Base Base.Num Model.Angles Spec.Terminates Spec.AngleSpec
  Proofs.AngleFacts Proofs.FloatFacts.
Local Open Scope R_scope.

(** ** C41 *)
Theorem C41_list (l : list R) :
  returns (fun fuel => normalize2pi fuel (AList l))
    (fun r => Forall2 (reduced 180) l (fst r) /\ snd r = AList (fst r)).
Proof. exact (c41_list l). Qed.
Print Assumptions C41_list.

Theorem C41_scalar (a : R) :
  returns (fun fuel => normalize2pi fuel (AScalar a))
    (fun r => exists b, fst r = [b] /\ reduced 180 a b /\ snd r = AScalar a).
Proof. exact (c41_scalar a). Qed.
Print Assumptions C41_scalar.

Theorem C41_unique (a b c : R) : reduced 180 a b -> reduced 180 a c -> b = c.
Proof. exact (reduced_unique 180 a b c ltac:(lra)). Qed.
Print Assumptions C41_unique.

Theorem C41_idempotent (l : list R) : Forall (fun a => -90 < a <= 90) l ->
  evaluates (fun fuel => normalize2pi fuel (AList l)) (l, AList l).
Proof. exact (c41_idempotent l). Qed.
Print Assumptions C41_idempotent.

Example C41_case : reduced 180 (-450) 90 /\ reduced 180 1000 (-80) /\ Forall (fun a => -90 < a <= 90) [90; -89; 0].
Proof.
  split; [|split].
  - split; [lra|exists 3%Z; lra].
  - split; [lra|exists (-6)%Z; lra].
  - repeat constructor; lra.
Qed.

(** ** C42.  False; the call returns for a finite binary64 angle exactly when |angle| <= 2^61. *)
Theorem C42_float_termination_partial (x : b64) :
  is_binary64 x -> finite64 x -> Rabs (fval x) <= 2305843009213693952 ->
  returns (fun fuel => normalize2pi fuel (AScalar x))
    (fun r => exists y, fst r = [y] /\ is_binary64 y /\ finite64 y /\ -90 < fval y <= 90).
Proof. exact (c42_returns x). Qed.
Print Assumptions C42_float_termination_partial.

Theorem C42_float_termination_refuted (x : b64) :
  is_binary64 x -> finite64 x -> 2305843009213693952 < Rabs (fval x) ->
  never_returns (fun fuel => normalize2pi fuel (AScalar x)).
Proof. exact (c42_never x). Qed.
Print Assumptions C42_float_termination_refuted.

Theorem C42_infinity_refuted (s : bool) :
  never_returns (fun fuel => normalize2pi (A := b64) fuel (AScalar (S754_infinity s))).
Proof. exact (c42_inf s). Qed.
Print Assumptions C42_infinity_refuted.

(** 1000.0 and 1e20. *)
Example C42_case :
  (is_binary64 (b64_ofZ 1000) /\ finite64 (b64_ofZ 1000) /\ fval (b64_ofZ 1000) = 1000) /\
  (is_binary64 (b64_ofZ (10 ^ 20)) /\ finite64 (b64_ofZ (10 ^ 20)) /\
   2305843009213693952 < Rabs (fval (b64_ofZ (10 ^ 20)))).
Proof.
  split; (split; [reflexivity|]; split; [exact I|]).
  - change (b64_ofZ 1000) with (S754_finite false 8796093022208000 (-43)). cbn [fval].
    replace (powerRZ 2 (-43)) with (/ 8796093022208); [lra|].
    change (powerRZ 2 (-43)) with (/ 2 ^ Pos.to_nat 43). f_equal.
    replace 8796093022208 with (IZR (2 ^ Z.of_nat (Pos.to_nat 43))) by reflexivity. symmetry. apply pow_IZR.
  - change (b64_ofZ (10 ^ 20)) with (S754_finite false 6103515625000000 14). cbn [fval].
    change (powerRZ 2 14) with (2 ^ 14). rewrite Rabs_pos_eq; lra.
Qed.

(** ** C43 *)
Theorem C43_array (data : arr R) :
  returns (fun fuel => normalize2piarray fuel data)
    (fun r => rows r = rows data /\ cols r = cols data /\
       forall y x, (0 <= y < rows data)%Z -> (0 <= x < cols data)%Z ->
         reduced PI (cell data y x) (cell r y x)).
Proof. exact (c43_array data). Qed.
Print Assumptions C43_array.

Theorem C43_unique (a b c : R) : reduced PI a b -> reduced PI a c -> b = c.
Proof. exact (reduced_unique PI a b c PI_RGT_0). Qed.
Print Assumptions C43_unique.

Example C43_case : reduced PI (3 * PI) 0 /\ reduced PI (- PI / 2) (PI / 2).
Proof.
  pose proof PI_RGT_0. split.
  - split; [lra|exists (-3)%Z; lra].
  - split; [lra|exists 1%Z; lra].
Qed.
