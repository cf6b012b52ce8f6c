(** Results, loops and arrays shared by every model file.

    Nothing here models a particular function of /repo; it fixes the meaning of
    the Python / numpy constructs the models are written with. *)
From Coq Require Export String ZArith List Lia Bool.
From Coq Require Import ZifyBool.
Export ListNotations.
Global Open Scope Z_scope.

(** ** Exceptions as values *)

Inductive exn : Set :=
| ValueError | IndexError | TypeError | KeyError | NameError | AttributeError
| UnboundLocalError | FileNotFoundError | ZeroDivisionError | NotImplementedError
| RuntimeError | OSError.

(** [NoFuel] is only ever produced by a [while] loop whose fuel ran out. *)
Inductive result (A : Type) : Type :=
| Ok (a : A)
| Raise (e : exn)
| NoFuel.
Arguments Ok {A} a.
Arguments Raise {A} e.
Arguments NoFuel {A}.

Definition bind {A B} (r : result A) (f : A -> result B) : result B :=
  match r with
  | Ok a => f a
  | Raise e => Raise e
  | NoFuel => NoFuel
  end.

Declare Scope result_scope.
Delimit Scope result_scope with result.
Notation "'let*' x := e 'in' k" := (bind e (fun x => k))
  (at level 200, x pattern, e at level 100, k at level 200, right associativity).

(** ** [for i in range(lo, hi, step)] with [0 < step] *)

Section Loops.
  Context {S : Type}.

  Fixpoint iter_range (n : nat) (i step : Z) (body : Z -> S -> result S) (s : S)
    : result S :=
    match n with
    | O => Ok s
    | Datatypes.S n' =>
        let* s' := body i s in iter_range n' (i + step) step body s'
    end.

  Definition range_len (lo hi step : Z) : Z := Z.max 0 ((hi - lo + step - 1) / step).

  Definition for_range (lo hi step : Z) (body : Z -> S -> result S) (s : S) : result S :=
    iter_range (Z.to_nat (range_len lo hi step)) lo step body s.

  (** [while cond: body] on fuel. *)
  Fixpoint while_loop (fuel : nat) (cond : S -> bool) (body : S -> S) (s : S) : result S :=
    if cond s then
      match fuel with
      | O => NoFuel
      | Datatypes.S f => while_loop f cond body (body s)
      end
    else Ok s.
End Loops.

(** ** Two-dimensional arrays *)

Record arr (A : Type) : Type := mkarr { rows : Z; cols : Z; cell : Z -> Z -> A }.
Arguments mkarr {A} rows cols cell.
Arguments rows {A} a.
Arguments cols {A} a.
Arguments cell {A} a y x.

Definition wf {A} (a : arr A) : Prop := 0 <= rows a /\ 0 <= cols a.
Definition inb {A} (a : arr A) (y x : Z) : Prop := 0 <= y < rows a /\ 0 <= x < cols a.

(** Observable equality: same shape, same cells inside the shape. *)
Definition aeq {A} (a b : arr A) : Prop :=
  rows a = rows b /\ cols a = cols b /\
  forall y x, 0 <= y < rows a -> 0 <= x < cols a -> cell a y x = cell b y x.
Infix "=a=" := aeq (at level 70, no associativity).

(** Python indexing: negative indices count from the end, others raise. *)
Definition norm_idx (n i : Z) : option Z :=
  if (0 <=? i) && (i <? n) then Some i
  else if (- n <=? i) && (i <? 0) then Some (n + i)
  else None.

Definition get {A} (a : arr A) (y x : Z) : result A :=
  match norm_idx (rows a) y, norm_idx (cols a) x with
  | Some y', Some x' => Ok (cell a y' x')
  | _, _ => Raise IndexError
  end.

Definition upd {A} (f : Z -> Z -> A) (y x : Z) (v : A) : Z -> Z -> A :=
  fun y' x' => if (y' =? y) && (x' =? x) then v else f y' x'.

Definition set {A} (a : arr A) (y x : Z) (v : A) : result (arr A) :=
  match norm_idx (rows a) y, norm_idx (cols a) x with
  | Some y', Some x' => Ok (mkarr (rows a) (cols a) (upd (cell a) y' x' v))
  | _, _ => Raise IndexError
  end.

(** [a[y0:y1, x0:x1] = v] for [0 <= y0], [0 <= x0] (slices never raise). *)
Definition set_block {A} (a : arr A) (y0 y1 x0 x1 : Z) (v : A) : arr A :=
  mkarr (rows a) (cols a)
    (fun y x => if (y0 <=? y) && (y <? y1) && (x0 <=? x) && (x <? x1) then v else cell a y x).

(** [np.full((h, w), v)], pointwise maps. *)
Definition full {A} (h w : Z) (v : A) : arr A := mkarr h w (fun _ _ => v).
Definition full_like {A B} (a : arr B) (v : A) : arr A := full (rows a) (cols a) v.
Definition amap {A B} (f : A -> B) (a : arr A) : arr B :=
  mkarr (rows a) (cols a) (fun y x => f (cell a y x)).
Definition amap2 {A B C} (f : A -> B -> C) (a : arr A) (b : arr B) : arr C :=
  mkarr (rows a) (cols a) (fun y x => f (cell a y x) (cell b y x)).

(** Strided view [a[j::2, i::2]] for [j, i] in {0, 1}: numpy's length of
    [j::2] on [n] elements is [(n - j + 1) // 2] (0 when [n <= j]). *)
Definition stride2_len (n j : Z) : Z := Z.max 0 ((n - j + 1) / 2).
Definition stride2 {A} (a : arr A) (j i : Z) : arr A :=
  mkarr (stride2_len (rows a) j) (stride2_len (cols a) i)
    (fun y x => cell a (2 * y + j) (2 * x + i)).

Definition same_shape {A B} (a : arr A) (b : arr B) : Prop :=
  rows a = rows b /\ cols a = cols b.
Definition same_shapeb {A B} (a : arr A) (b : arr B) : bool :=
  (rows a =? rows b) && (cols a =? cols b).

(** Row-major list of the cells (used by examples and codecs). *)
Definition zrange (n : Z) : list Z := map Z.of_nat (seq 0 (Z.to_nat n)).
Definition to_list {A} (a : arr A) : list (list A) :=
  map (fun y => map (fun x => cell a y x) (zrange (cols a))) (zrange (rows a)).
Definition of_list {A} (d : A) (h w : Z) (l : list A) : arr A :=
  mkarr h w (fun y x => nth (Z.to_nat (y * w + x)) l d).

(** Observable outcome of a computation returning an array (used by examples). *)
Definition on_ok {A B} (f : A -> B) (r : result A) : result B :=
  match r with Ok a => Ok (f a) | Raise e => Raise e | NoFuel => NoFuel end.
