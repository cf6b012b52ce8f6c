(** Property C147: resampling arrays of any number of dimensions. *)
From Coq Require Import QArith Reals Lra Lia Floats.SpecFloat.
From Verif Require Import Base.Base Base.Num Model.Congrid Model.CongridKind Model.CongridNd Spec.InterpSpec Spec.PickSpec Spec.TensorSpec Proofs.TensorFacts.
Local Open Scope Z_scope.

(** The result has the new shape and interpolates along every axis, *)
Theorem C147_linear (a : tensor R) (newdims : list Z) : shape a <> [] -> length newdims = length (shape a) ->
  Forall (fun n => 2 <= n) (shape a) -> Forall (fun n => 2 <= n) newdims ->
  exists t, congrid_nd linearly a newdims = Ok t /\ shape t = newdims /\
    forall l, index_in newdims l -> multilinear (shape a) (at_index a) (spreads (shape a) newdims l) (at_index t l).
Proof. exact (c147_linear a newdims). Qed.
Print Assumptions C147_linear.

(** stays in the range of the samples, *)
Theorem C147_range (a t : tensor R) (newdims : list Z) lo hi l : shape a <> [] -> length newdims = length (shape a) ->
  Forall (fun n => 2 <= n) (shape a) -> Forall (fun n => 2 <= n) newdims -> (forall j, index_in (shape a) j -> (lo <= at_index a j <= hi)%R) ->
  congrid_nd linearly a newdims = Ok t -> index_in newdims l -> (lo <= at_index t l <= hi)%R.
Proof. exact (c147_range a t newdims lo hi l). Qed.
Print Assumptions C147_range.

(** and is the array itself if the shape stays. *)
Theorem C147_same (a : tensor R) : shape a <> [] -> Forall (fun n => 2 <= n) (shape a) ->
  exists t, congrid_nd linearly a (shape a) = Ok t /\ shape t = shape a /\ forall l, index_in (shape a) l -> at_index t l = at_index a l.
Proof. exact (c147_same a). Qed.
Print Assumptions C147_same.

(** Without interpolation it consists of samples that the kind asks for along every axis, up to rounding. *)
Theorem C147_picks (kd : kind) (a : tensor b64) (newdims : list Z) : kd <> Next -> shape a <> [] -> length newdims = length (shape a) ->
  Forall (fun n => 2 <= n <= 2 ^ 26) (shape a) -> Forall (fun n => 2 <= n <= 2 ^ 26) newdims ->
  exists t, congrid_nd (picking kd) a newdims = Ok t /\ shape t = newdims /\
    forall l, index_in newdims l -> exists j, stands_for kd (shape a) newdims l j /\ at_index t l = at_index a j.
Proof. exact (c147_picks kd a newdims). Qed.
Print Assumptions C147_picks.

(** Arrays with two axes are treated as images are (C66, C122, C138). *)
Theorem C147_images {A} `{Num A} (a : arr A) h w : exists t, congrid_nd linearly (image_tensor a) [h; w] = Ok t /\ shape t = [h; w] /\
  forall y x, at_index t [y; x] = cell (congrid a h w) y x.
Proof. exact (c147_images a h w). Qed.
Print Assumptions C147_images.

(** Exactly single numbers and too few new sides are refused; *)
Theorem C147_refused {A} (along : Z -> Z -> (Z -> A) -> Z -> A) (a : tensor A) newdims :
  (exists t, congrid_nd along a newdims = Ok t) <-> (shape a <> [] /\ (length (shape a) <= length newdims)%nat).
Proof. exact (c147_refused along a newdims). Qed.
Print Assumptions C147_refused.

(** more sides than axes are accepted and ignored. *)
Theorem C147_ignored_refuted {A} (along : Z -> Z -> (Z -> A) -> Z -> A) (a : tensor A) newdims more t t' :
  shape a <> [] -> length newdims = length (shape a) ->
  congrid_nd along a newdims = Ok t -> congrid_nd along a (newdims ++ more) = Ok t' ->
  shape t' = shape t /\ forall l, length l = length (shape a) -> at_index t' l = at_index t l.
Proof. exact (c147_ignored along a newdims more t t'). Qed.
Print Assumptions C147_ignored_refuted.

(** A new side of one makes all elements NaN. *)
Theorem C147_one_refuted (a : tensor b64) (newdims : list Z) :
  shape a <> [] -> length newdims = length (shape a) -> Forall (fun n => 2 <= n <= 2 ^ 26) (shape a) -> In 1 newdims ->
  exists t, congrid_nd linearly a newdims = Ok t /\ forall l, index_in newdims l -> at_index t l = S754_nan.
Proof. exact (c147_one a newdims). Qed.
Print Assumptions C147_one_refuted.

(** An array of 2 x 3 x 2 numbers made 3 x 5 x 3, with different steps along its axes *)
Example C147_case :
  let f := fun l => 100 * nth 0 l 0 + 10 * nth 1 l 0 + nth 2 l 0 in
  let a : tensor Q := mktensor [2; 3; 2] (fun l => inject_Z (f l)) in
  let b : tensor b64 := mktensor [2; 3; 2] (fun l => nofZ (f l)) in
  shape a <> [] /\ Forall (fun n => 2 <= n) [3; 5; 3] /\ index_in [3; 5; 3] [1; 3; 2] /\
  (exists t, congrid_nd linearly a [3; 5; 3] = Ok t /\ shape t = [3; 5; 3] /\ Qeq (at_index t [1; 3; 2]) 66) /\
  (exists t, congrid_nd (picking Nearest) b [3; 5; 3] = Ok t /\ at_index t [1; 3; 2] = nofZ 11) /\
  (exists t, congrid_nd linearly b [3; 1; 3] = Ok t /\ at_index t [1; 0; 2] = S754_nan) /\
  congrid_nd linearly a [3; 5] = Raise IndexError.
Proof.
  cbv zeta. split; [discriminate|]. split; [repeat constructor; lia|]. split; [repeat constructor; lia|].
  split; [eexists; split; [reflexivity|]; split; reflexivity|]. split; [eexists; split; [reflexivity|vm_compute; reflexivity]|].
  split; [eexists; split; [reflexivity|vm_compute; reflexivity]|reflexivity].
Qed.
