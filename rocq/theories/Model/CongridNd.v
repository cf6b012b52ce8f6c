(** Resampling arrays of any number of dimensions: micropolarray/processing/congrid.py 32-72. *)
From Verif Require Import Base.Base Base.Num Model.Congrid Model.CongridKind.

(** A numpy array: its shape and its elements by lists of indices *)
Record tensor (A : Type) : Type := mktensor { shape : list Z; at_index : list Z -> A }.
Arguments mktensor {A} shape at_index.
Arguments shape {A} t.
Arguments at_index {A} t l.

Section CongridNd.
  Context {A : Type}.
  (** One axis: [along old new f k] is sample [k] of [new] made out of the samples [f 0, ..., f (old - 1)]. *)
  Context (along : Z -> Z -> (Z -> A) -> Z -> A).

  (** 55-58 and 63-66: interp1d works on the last axis. *)
  Definition resample_last (old new : Z) (t : tensor A) : tensor A :=
    mktensor (removelast (shape t) ++ [new])
      (fun l => along old new (fun x => at_index t (removelast l ++ [x])) (last l 0)).
  (** t.transpose([n - 1, 0, ..., n - 2]) (60, 62, 68) *)
  Definition roll (t : tensor A) : tensor A :=
    mktensor (last (shape t) 0 :: removelast (shape t)) (fun l => at_index t (tl l ++ [hd 0 l])).

  Definition congrid_nd (a : tensor A) (newdims : list Z) : result (tensor A) :=
    let ndims := length (shape a) in
    (* 51-53: newdims[i] *)
    if (length newdims <? ndims)%nat then Raise IndexError
    else
      (* 56: olddims[-1] *)
      match ndims with
      | O => Raise IndexError
      | S last_axis =>
          let step := fun i t => resample_last (nth i (shape a) 0) (nth i newdims 0) t in
          let newa := step last_axis a in
          (* 61-66: for i in range(ndims - 2, -1, -1) *)
          let newa := fold_left (fun t i => step i (roll t)) (rev (seq 0 last_axis)) newa in
          Ok (if (1 <? ndims)%nat then roll newa else newa)
      end.
End CongridNd.

(** kind="linear" *)
Definition linearly {A} `{Num A} (old new : Z) (f : Z -> A) (k : Z) : A := interp1d old f (position old new k).
(** The other kinds, in binary64 *)
Definition picking (kd : kind) (old new : Z) (f : Z -> b64) (k : Z) : b64 := picked kd old f (position old new k).
