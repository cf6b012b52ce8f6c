(** Independent description of the PolarCam 12-bit packing and of 16-bit raw files. *)
From Coq Require Import Permutation Reals.
From Verif Require Import Base.Base.

Definition is_byte (b : Z) : Prop := 0 <= b < 256.
Definition is_12bit (v : Z) : Prop := 0 <= v < 4096.

(** Three bytes a, b, c hold two numbers: a and the high half of b; c and the low half of b. *)
Fixpoint decode12 (l : list Z) : list Z :=
  match l with
  | a :: b :: c :: r => (16 * a + b / 16) :: (16 * c + b mod 16) :: decode12 r
  | _ => []
  end.

Fixpoint encode12 (l : list Z) : list Z :=
  match l with
  | u :: v :: r => u / 16 :: (16 * (u mod 16) + v mod 16) :: v / 16 :: encode12 r
  | _ => []
  end.

(** The [i]-th of the chunks of [size] bytes of a file. *)
Definition chunk {A} (l : list A) (size i : nat) : list A := firstn size (skipn (i * size) l).

(** A chunk that ends in a NUL byte. *)
Definition ends_in_nul (l : list Z) : Prop := exists l', l = l' ++ [0].

(** A schedule in which every one of [n] tasks completes exactly once, in any order. *)
Definition complete_schedule (n : nat) (sch : list nat) : Prop := Permutation sch (seq 0 n).

(** [z] is the real number [r] rounded towards zero. *)
Definition truncated (r : R) (z : Z) : Prop :=
  ((0 <= r)%R -> (IZR z <= r < IZR z + 1)%R) /\ ((r < 0)%R -> (IZR z - 1 < r <= IZR z)%R).
