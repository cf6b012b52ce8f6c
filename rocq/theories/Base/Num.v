(** Pixel numbers.

    The models are written once over an abstract number type [Num A].  Two
    instances are used:
    - [R] (exact-arithmetic idealisation of float64), for the algebraic theorems;
    - [b64], the IEEE-754 binary64 numbers of Coq's standard library
      ([SpecFloat] with precision 53 and emax 1024, round to nearest even), which
      makes the same models executable and supports float-specific findings.
    Theorems stated "for every [Num A]" use no algebraic law and therefore hold
    for both. *)
From Coq Require Import ZArith Reals Floats.SpecFloat QArith.
Local Open Scope Z_scope.

Class Num (A : Type) : Type := {
  nofZ : Z -> A;
  nadd : A -> A -> A;
  nsub : A -> A -> A;
  nmul : A -> A -> A;
  ndiv : A -> A -> A;
  nsqrt : A -> A;
  neqb : A -> A -> bool;
  nltb : A -> A -> bool;
  nleb : A -> A -> bool;
  nhalf : A;      (* the literal 0.5 *)
  nquart : A      (* the literal 0.25 *)
}.

Definition n0 {A} `{Num A} : A := nofZ 0.
Definition n1 {A} `{Num A} : A := nofZ 1.

Declare Scope num_scope.
Delimit Scope num_scope with num.
Infix "+!" := nadd (at level 50, left associativity) : num_scope.
Infix "-!" := nsub (at level 50, left associativity) : num_scope.
Infix "*!" := nmul (at level 40, left associativity) : num_scope.
Infix "/!" := ndiv (at level 40, left associativity) : num_scope.
Global Open Scope num_scope.

(** ** Real numbers *)

Definition Reqb (x y : R) : bool := if Req_EM_T x y then true else false.
Definition Rltb (x y : R) : bool := if Rlt_dec x y then true else false.
Definition Rleb (x y : R) : bool := if Rle_dec x y then true else false.

#[global] Instance Num_R : Num R := {
  nofZ := IZR; nadd := Rplus; nsub := Rminus; nmul := Rmult; ndiv := Rdiv;
  nsqrt := sqrt; neqb := Reqb; nltb := Rltb; nleb := Rleb;
  nhalf := (1/2)%R; nquart := (1/4)%R
}.

(** ** IEEE binary64 *)

Definition b64 : Type := spec_float.
Definition b64_prec : Z := 53.
Definition b64_emax : Z := 1024.
Definition b64_ofZ (z : Z) : b64 := binary_normalize b64_prec b64_emax z 0 false.

#[global] Instance Num_b64 : Num b64 := {
  nofZ := b64_ofZ;
  nadd := SFadd b64_prec b64_emax;
  nsub := SFsub b64_prec b64_emax;
  nmul := SFmul b64_prec b64_emax;
  ndiv := SFdiv b64_prec b64_emax;
  nsqrt := SFsqrt b64_prec b64_emax;
  neqb := SFeqb; nltb := SFltb; nleb := SFleb;
  nhalf := binary_normalize b64_prec b64_emax 1 (-1) false;
  nquart := binary_normalize b64_prec b64_emax 1 (-2) false
}.

(** Rationals: a third, exactly computable instance used only in examples.
    [nsqrt] is not available there and returns its argument; no example that
    uses [Num_Q] involves a square root. *)
#[global] Instance Num_Q : Num Q := {
  nofZ := inject_Z;
  nadd := fun a b => Qred (Qplus a b);
  nsub := fun a b => Qred (Qminus a b);
  nmul := fun a b => Qred (Qmult a b);
  ndiv := fun a b => Qred (Qdiv a b);
  nsqrt := fun a => a;
  neqb := Qeq_bool;
  nltb := fun a b => negb (Qle_bool b a);
  nleb := Qle_bool;
  nhalf := 1 # 2; nquart := 1 # 4
}.

(** Equality of executable results. *)
Definition b64_same (a b : b64) : bool :=
  match a, b with
  | S754_nan, S754_nan => true
  | S754_zero s, S754_zero t => Bool.eqb s t
  | S754_infinity s, S754_infinity t => Bool.eqb s t
  | S754_finite s m e, S754_finite t n f => Bool.eqb s t && Pos.eqb m n && Z.eqb e f
  | _, _ => false
  end.
