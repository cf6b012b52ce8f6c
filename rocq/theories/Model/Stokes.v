(** Theoretical Stokes vector of a micropolarizer image
    (micropolarray/micropol_image.py 266-282, angle dictionaries of cameras.py). *)
From Verif Require Import Base.Base Base.Num Model.Demosaic.

(** Python dict {angle : position in superpixel} as an association list
    (first binding wins; Python literals have no duplicates). *)
Definition angle_dic := list (Z * Z).

Fixpoint dict_get (d : angle_dic) (k : Z) : result Z :=
  match d with
  | [] => Raise KeyError
  | (k', v) :: d' => if k =? k' then Ok v else dict_get d' k
  end.

(** [stack[i]] on a [4, n, m] array with Python index semantics. *)
Definition quad_get {A} (q : quad A) (i : Z) : result (arr A) :=
  match norm_idx 4 i with
  | Some i' => Ok (qnth q i')
  | None => Raise IndexError
  end.

(** cameras.py: PolarCam().angle_dic *)
Definition polarcam_angles : angle_dic := [(0, 0); (45, 1); (-45, 2); (90, 3)].

(** np.array([I, Q, U]) *)
Record stokes (A : Type) : Type := mkstokes { sI : arr A; sQ : arr A; sU : arr A }.
Arguments mkstokes {A} sI sQ sU.
Arguments sI {A} s.
Arguments sQ {A} s.
Arguments sU {A} s.

Section Stokes.
  Context {A : Type} `{Num A}.

  (** [0.5 * np.sum(subimages, axis=0)]: numpy adds the four planes in order. *)
  Definition half_sum (q : quad A) : arr A :=
    mkarr (rows (q0 q)) (cols (q0 q))
      (fun y x => nhalf *! (((cell (q0 q) y x +! cell (q1 q) y x) +! cell (q2 q) y x)
                              +! cell (q3 q) y x)).

  (** micropol_image.py 273-282 *)
  Definition theo_stokes (d : angle_dic) (subimages : quad A) : result (stokes A) :=
    let I := half_sum subimages in
    let* i0 := dict_get d 0 in
    let* s0 := quad_get subimages i0 in
    let* i90 := dict_get d 90 in
    let* s90 := quad_get subimages i90 in
    let Q := amap2 nsub s0 s90 in
    let* i45 := dict_get d 45 in
    let* s45 := quad_get subimages i45 in
    let* im45 := dict_get d (-45) in
    let* sm45 := quad_get subimages im45 in
    let U := amap2 nsub s45 sm45 in
    Ok (mkstokes I Q U).

  (** Stokes vector of a raw (not demosaiced) image. *)
  Definition data_stokes (d : angle_dic) (data : arr A) : result (stokes A) :=
    let* s := split_polarizations data in
    theo_stokes d s.
End Stokes.
