(** Angle normalisation (micropolarray/utils.py 120-156; polarization_functions.py 70-90 has
    an identical copy of [normalize2pi]). *)
From Coq Require Import Reals.
From Verif Require Import Base.Base Base.Num.

(** The argument of [normalize2pi]: a list object, or anything else (here: one number). *)
Inductive angles_arg (A : Type) : Type := AList (l : list A) | AScalar (a : A).
Arguments AList {A} l.
Arguments AScalar {A} a.

Section Normalize.
  Context {A : Type} `{Num A}.

  (** utils.py 134-137 *)
  Definition normalize_angle (fuel : nat) (angle : A) : result A :=
    let* angle := while_loop fuel (fun angle => nltb (nofZ 90) angle) (fun angle => angle -! nofZ 180) angle in
    while_loop fuel (fun angle => nleb angle (nofZ (-90))) (fun angle => angle +! nofZ 180) angle.

  (** [for i, angle in enumerate(angles_list): ...; angles_list[i] = angle] *)
  Fixpoint normalize_items (fuel : nat) (done rest : list A) : result (list A) :=
    match rest with
    | [] => Ok done
    | angle :: rest' =>
        let* angle := normalize_angle fuel angle in
        normalize_items fuel (done ++ [angle]) rest'
    end.

  (** utils.py 120-140.  The result is the returned list together with the argument object as
      the caller finds it afterwards: a list argument is updated in place. *)
  Definition normalize2pi (fuel : nat) (arg : angles_arg A) : result (list A * angles_arg A) :=
    match arg with
    | AList l => let* l' := normalize_items fuel [] l in Ok (l', AList l')
    | AScalar a => let* l' := normalize_items fuel [] [a] in Ok (l', AScalar a)
    end.
End Normalize.

(** [np.any(mask)] *)
Definition aany {A} (p : A -> bool) (a : arr A) : bool :=
  existsb (fun y => existsb (fun x => p (cell a y x)) (zrange (cols a))) (zrange (rows a)).

(** utils.py 143-156, in exact arithmetic. *)
Definition normalize2piarray (fuel : nat) (data : arr R) : result (arr R) :=
  let* data := while_loop fuel (aany (fun v => Rltb (PI / 2) v))
                 (amap (fun v => if Rltb (PI / 2) v then (v - PI)%R else v)) data in
  while_loop fuel (aany (fun v => Rleb v (- PI / 2)))
    (amap (fun v => if Rleb v (- PI / 2) then (v + PI)%R else v)) data.
