(** Property C71: the Chen-Wan-Liang calibration. *)
From Coq Require Import Reals QArith.
From Verif Require Import Base.Base Base.Num Model.Ifov Spec.MosaicSpec Spec.ChenSpec Proofs.ChenFacts.
Local Open Scope Z_scope.

(** ** C71 *)
Theorem C71_calibration {A} `{Num A} (C : Z -> Z -> arr A) (dij data : arr A) :
  mosaic data -> rows dij = rows data -> cols dij = cols data ->
  exists r, chen_calibration C dij data = Ok r /\
    rows r = rows data /\ cols r = cols data /\
    let f := corrected (fun k l Y X => cell (C k l) (2 * Y) (2 * X)) dij data in
    forall y x, 0 <= y < rows data -> 0 <= x < cols data ->
      cell r y x =
        if (y <? 2) || (x <? 2) then n0
        else nquart *! (((f (y - 2) (x - 2) +! f (y - 2) x) +! f y (x - 2)) +! f y x).
Proof. exact (chen_spec C dij data). Qed.
Print Assumptions C71_calibration.

Theorem C71_rejects {A} `{Num A} (C : Z -> Z -> arr A) (dij data : arr A) :
  0 < rows data -> 0 < cols data -> rows data mod 2 = 1 \/ cols data mod 2 = 1 ->
  chen_calibration C dij data = Raise ValueError.
Proof. exact (chen_rejects C dij data). Qed.
Print Assumptions C71_rejects.

Theorem C71_identity (C : Z -> Z -> arr R) (dij data : arr R) :
  mosaic data -> rows dij = rows data -> cols dij = cols data ->
  (forall k l Y X, 0 <= k < 4 -> 0 <= l < 4 -> cell (C k l) (2 * Y) (2 * X) = if k =? l then 1%R else 0%R) ->
  (forall y x, cell dij y x = 0%R) ->
  exists r i, chen_calibration C dij data = Ok r /\ ifov_jitcorrect data (rows data) (cols data) = Ok i /\ r =a= i.
Proof. exact (chen_identity C dij data). Qed.
Print Assumptions C71_identity.

Example C71_case :
  let data := mkarr 4 4 (fun y x => inject_Z (10 * y + x)) in
  let C k l := full 4 4 (if k =? l then 2%Q else 0%Q) in
  mosaic data /\
  on_ok to_list (chen_calibration C (full 4 4 1%Q) data) =
    Ok [[0; 0; 0; 0]; [0; 0; 0; 0]; [0; 0; 20; 22]; [0; 0; 40; 42]]%Q.
Proof. split; [repeat split; vm_compute; congruence || reflexivity|vm_compute; reflexivity]. Qed.
