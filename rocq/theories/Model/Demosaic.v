(** Model of micropolarray/processing/demosaic.py (without [congrid]). *)
From Verif Require Import Base.Base Base.Num.

(** A [4, n, m] numpy array: four images of one shape. *)
Record quad (A : Type) : Type := mkquad { q0 : arr A; q1 : arr A; q2 : arr A; q3 : arr A }.
Arguments mkquad {A} q0 q1 q2 q3.
Arguments q0 {A} q.
Arguments q1 {A} q.
Arguments q2 {A} q.
Arguments q3 {A} q.

(** [stack[k]] for k in 0..3 (other k are never used). *)
Definition qnth {A} (q : quad A) (k : Z) : arr A :=
  if k =? 0 then q0 q else if k =? 1 then q1 q else if k =? 2 then q2 q else q3 q.

Definition quad_map {A B} (f : arr A -> arr B) (q : quad A) : quad B :=
  mkquad (f (q0 q)) (f (q1 q)) (f (q2 q)) (f (q3 q)).

(** All four images of a numpy [4, n, m] array have the same shape by construction. *)
Definition quad_wf {A} (q : quad A) : Prop :=
  wf (q0 q) /\ same_shape (q1 q) (q0 q) /\ same_shape (q2 q) (q0 q) /\ same_shape (q3 q) (q0 q).

(** [a[j::2, i::2] = src] *)
Definition set_stride2 {A} (a : arr A) (j i : Z) (src : arr A) : arr A :=
  mkarr (rows a) (cols a)
    (fun y x => if (y mod 2 =? j) && (x mod 2 =? i) then cell src (y / 2) (x / 2)
                else cell a y x).

(** demosaic.py 85-100.  [dtype=float] only changes the representation. *)
Definition split_polarizations {A} (data : arr A) : result (quad A) :=
  if negb (rows data mod 2 =? 0) || negb (cols data mod 2 =? 0)
  then Raise ValueError
  else Ok (mkquad (stride2 data 0 0) (stride2 data 0 1) (stride2 data 1 0) (stride2 data 1 1)).

(** demosaic.py 103-115 *)
Definition merge_polarizations {A} `{Num A} (s : quad A) : arr A :=
  let data := full (rows (q0 s) * 2) (cols (q0 s) * 2) n0 in
  let data := set_stride2 data 0 0 (q0 s) in
  let data := set_stride2 data 0 1 (q1 s) in
  let data := set_stride2 data 1 0 (q2 s) in
  let data := set_stride2 data 1 1 (q3 s) in
  data.

Definition quad_of_list {A} (l : list (arr A)) : result (quad A) :=
  match l with
  | [a; b; c; d] => Ok (mkquad a b c d)
  | _ => Raise ValueError
  end.

Section Demosaic.
  Context {A : Type} `{Num A}.

  (** demosaic.py 16-43.  [1.0 * data] is the identity on floats; the four zero
      images of the initial [demo_images] list are all overwritten, so the list is
      built by appending.  [temp_data] is carried from one family to the next, as in
      the code. *)
  Definition demosaicmean (data : arr A) : result (list (arr A)) :=
    let* (_, demo_images) :=
      for_range 0 2 1 (fun j st =>
        for_range 0 2 1 (fun i (st : arr A * list (arr A)) =>
          let '(temp, demo) := st in
          let* temp :=
            for_range 0 (rows data) 2 (fun y_super temp =>
              for_range 0 (cols data) 2 (fun x_super temp =>
                let* v := get data (y_super + j) (x_super + i) in
                Ok (set_block temp y_super (y_super + 2) x_super (x_super + 2) (v *! nquart)))
                temp) temp in
          Ok (temp, demo ++ [temp])) st)
        (data, []) in
    Ok demo_images.

  (** demosaic.py 46-82 *)
  Definition demosaicadjacent (data : arr A) : result (list (arr A)) :=
    let* (_, demo_images) :=
      for_range 0 2 1 (fun yf st =>
        for_range 0 2 1 (fun xf (st : arr A * list (arr A)) =>
          let '(temp, demo) := st in
          let* temp :=
            for_range 0 (rows data - 2) 2 (fun y temp =>
              for_range 0 (cols data - 2) 2 (fun x temp =>
                let* a := get data (y + yf) (x + xf) in
                let* temp := set temp y x a in
                let* a := get data (y + yf) (x + xf) in
                let* b := get data (y + yf + 2) (x + xf) in
                let* temp := set temp (y + 1) x (nhalf *! (a +! b)) in
                let* a := get data (y + yf) (x + xf) in
                let* b := get data (y + yf) (x + xf + 2) in
                let* temp := set temp y (x + 1) (nhalf *! (a +! b)) in
                let* a := get data (y + yf) (x + xf) in
                let* b := get data (y + yf + 2) (x + xf) in
                let* c := get data (y + yf) (x + xf + 2) in
                let* d := get data (y + yf + 2) (x + xf + 2) in
                set temp (y + 1) (x + 1) ((((a +! b) +! c) +! d) *! nquart))
                temp) temp in
          Ok (temp, demo ++ [temp])) st)
        (data, []) in
    Ok demo_images.

  (** [np.vstack([a, b])], [np.hstack([a, b])], [a[-2:, :]], [a[:, -2:]], [a[:-2, :-2]] *)
  Definition vstack (a b : arr A) : arr A :=
    mkarr (rows a + rows b) (cols a)
      (fun y x => if y <? rows a then cell a y x else cell b (y - rows a) x).
  Definition hstack (a b : arr A) : arr A :=
    mkarr (rows a) (cols a + cols b)
      (fun y x => if x <? cols a then cell a y x else cell b y (x - cols a)).
  Definition last2rows (a : arr A) : arr A :=
    let s := Z.max 0 (rows a - 2) in mkarr (rows a - s) (cols a) (fun y x => cell a (s + y) x).
  Definition last2cols (a : arr A) : arr A :=
    let s := Z.max 0 (cols a - 2) in mkarr (rows a) (cols a - s) (fun y x => cell a y (s + x)).
  Definition drop_last2 (a : arr A) : arr A :=
    mkarr (Z.max 0 (rows a - 2)) (Z.max 0 (cols a - 2)) (cell a).

  (** demosaic.py 118-160.  The "spline" branch evaluates [np.float], which the pinned
      numpy 1.26.4 does not have: AttributeError. *)
  Definition demosaic (image_data : arr A) (option : string) : result (quad A) :=
    if (option =? "mean")%string then
      let* l := demosaicmean image_data in quad_of_list l
    else if (option =? "adjacent")%string then
      let stacked_data := vstack image_data (last2rows image_data) in
      let stacked_data := hstack stacked_data (last2cols stacked_data) in
      let* l := demosaicadjacent stacked_data in
      let* q := quad_of_list l in
      Ok (quad_map drop_last2 q)
    else if (option =? "spline")%string then Raise AttributeError
    else Raise ValueError.
End Demosaic.
