(** C120: normalisation of arrays of angles in floating point. *)
From Coq Require Import Reals Lra Floats.SpecFloat.
From Verif Require Import Base.Base Base.Num Model.AnglesFloat Spec.Terminates Spec.AngleSpec Spec.AngleArraySpec Spec.FloatSpec
  Proofs.AnglesFloatFacts.
Local Open Scope R_scope.

(** False; arrays whose angles are at most 2^55 rad or not numbers are normalised, *)
Theorem C120_reduced_partial (d : arr b64) :
  (forall y x, (0 <= y < rows d)%Z -> (0 <= x < cols d)%Z -> reducible (cell d y x)) ->
  returns (fun fuel => normalize2piarray64 fuel d) (fun b => rows b = rows d /\ cols b = cols d /\
    forall y x, (0 <= y < rows d)%Z -> (0 <= x < cols d)%Z -> reduced64 (cell d y x) (cell b y x)).
Proof. exact (c120_returns d). Qed.
Print Assumptions C120_reduced_partial.

(** but with one larger or infinite angle the call does not return. *)
Theorem C120_hangs_refuted (d : arr b64) y x : (0 <= y < rows d)%Z -> (0 <= x < cols d)%Z -> irreducible (cell d y x) ->
  never_returns (fun fuel => normalize2piarray64 fuel d).
Proof. exact (c120_never d y x). Qed.
Print Assumptions C120_hangs_refuted.

(** The angles 1000.0, nan and 0.0, then with 1e20 added. *)
Definition angles64 (n : Z) : arr b64 :=
  {| rows := 1; cols := n; cell := fun _ x => if (x =? 0)%Z then nofZ 1000 else if (x =? 1)%Z then S754_nan else
                                              if (x =? 2)%Z then nofZ 0 else nofZ (10 ^ 20) |}.
Example C120_case :
  (forall y x, (0 <= y < rows (angles64 3))%Z -> (0 <= x < cols (angles64 3))%Z -> reducible (cell (angles64 3) y x)) /\
  irreducible (cell (angles64 4) 0 3).
Proof.
  split.
  - intros y x Hy Hx. cbn [angles64 rows cols] in Hx, Hy. assert (x = 0 \/ x = 1 \/ x = 2)%Z as [-> |[-> | ->]] by lia.
    + split; [reflexivity|]. right. split; [exact I|]. destruct thousand as (_ & _ & E).
      change (Rabs (fval (@nofZ b64 Num_b64 1000)) <= 36028797018963968). rewrite E, Rabs_pos_eq; lra.
    + split; [reflexivity|]. left. reflexivity.
    + split; [reflexivity|]. right. split; [exact I|]. cbn. rewrite Rabs_R0. lra.
  - right. split; [reflexivity|]. split; [exact I|]. destruct hundred_exa as (_ & _ & E).
    change (36028797018963968 < Rabs (fval (@nofZ b64 Num_b64 (10 ^ 20)))). rewrite E, Rabs_pos_eq; lra.
Qed.
