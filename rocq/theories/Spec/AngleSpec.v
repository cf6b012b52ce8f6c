(** Angles modulo half a turn, and the values of floating-point numbers. *)
From Coq Require Import Reals ZArith Floats.SpecFloat.
From Verif Require Import Base.Base.
Local Open Scope R_scope.

(** [b] represents [a] modulo [period] in (-period/2, period/2]. *)
Definition reduced (period a b : R) : Prop :=
  - (period / 2) < b <= period / 2 /\ exists k : Z, b = a + IZR k * period.

(** The real number a binary floating-point number stands for. *)
Definition fval (x : spec_float) : R :=
  match x with
  | S754_finite s m e => (if s then - IZR (Zpos m) else IZR (Zpos m)) * powerRZ 2 e
  | _ => 0
  end.

Definition is_binary64 (x : spec_float) : Prop := valid_binary 53 1024 x = true.
Definition finite64 (x : spec_float) : Prop :=
  match x with S754_zero _ | S754_finite _ _ _ => True | _ => False end.
