(** Properties C17-C18: theoretical Stokes vectors of raw images. *)
From Coq Require Import Reals QArith Lra.
From Verif Require Import Base.Base Base.Num Model.Demosaic Model.Stokes
  Spec.MosaicSpec Spec.StokesSpec Proofs.StokesFacts Proofs.StokesProps.
Local Open Scope Z_scope.

(** ** C17 *)
Theorem C17_ideal_recovered dic a (d : arr R) (I Q U : Z -> Z -> R) :
  describes dic a -> mosaic d ->
  (forall Y X, 0 <= Y < rows d / 2 -> 0 <= X < cols d / 2 ->
     sample d (p0 a) Y X = ideal 0 (I Y X) (Q Y X) (U Y X) /\
     sample d (p45 a) Y X = ideal (PI / 4) (I Y X) (Q Y X) (U Y X) /\
     sample d (pm45 a) Y X = ideal (- (PI / 4)) (I Y X) (Q Y X) (U Y X) /\
     sample d (p90 a) Y X = ideal (PI / 2) (I Y X) (Q Y X) (U Y X)) ->
  exists s, data_stokes dic d = Ok s /\ stokes_is s (rows d / 2) (cols d / 2) I Q U.
Proof. exact (ideal_recovered dic a d I Q U). Qed.
Print Assumptions C17_ideal_recovered.

(** A shuffled arrangement and a 2 x 2 image of light (4, 2, -1) meeting the hypotheses. *)
Example C17_case :
  let dic := [(45, 0); (90, 2); (0, 3); (-45, 1)] in
  let a := mkarrangement 3 0 1 2 in
  let d := mkarr 2 2 (fun y x => if y =? 0 then (if x =? 0 then 3/2 else 5/2)%R
                                 else (if x =? 0 then 1 else 3)%R) in
  describes dic a /\ mosaic d /\
  (forall Y X, 0 <= Y < rows d / 2 -> 0 <= X < cols d / 2 ->
     sample d (p0 a) Y X = ideal 0 4 2 (-1) /\
     sample d (p45 a) Y X = ideal (PI / 4) 4 2 (-1) /\
     sample d (pm45 a) Y X = ideal (- (PI / 4)) 4 2 (-1) /\
     sample d (p90 a) Y X = ideal (PI / 2) 4 2 (-1)).
Proof.
  cbn zeta. split; [|split].
  - unfold describes, arrangement_ok; cbn [p0 p45 pm45 p90 map fst].
    repeat split; try lia; try (repeat constructor; cbn; intuition lia); cbn; auto.
  - repeat split; cbn [rows cols]; vm_compute; congruence.
  - intros Y X HY HX. cbn [rows cols] in HY, HX.
    change (2 / 2) with 1 in HY, HX. assert (Y = 0) as -> by lia. assert (X = 0) as -> by lia.
    cbn [p0 p45 pm45 p90].
    rewrite ideal_0, ideal_45, ideal_m45, ideal_90.
    unfold sample; cbn. repeat split; lra.
Qed.

(** Without one of the four angles there is no Stokes vector. *)
Theorem C17_missing_angle dic (d : arr R) k :
  mosaic d -> Forall (fun '(_, v) => 0 <= v < 4) dic -> In k [0; 45; -45; 90] -> ~ In k (map fst dic) ->
  data_stokes dic d = Raise KeyError.
Proof. exact (missing_angle dic d k). Qed.
Print Assumptions C17_missing_angle.

(** A camera with 135 in place of -45. *)
Example C17_missing_case :
  let dic := [(45, 0); (90, 2); (0, 3); (135, 1)] in
  Forall (fun '(_, v) => 0 <= v < 4) dic /\ In (-45) [0; 45; -45; 90] /\ ~ In (-45) (map fst dic) /\
  mosaic (mkarr 2 2 (fun y x => 1%R)).
Proof.
  cbn [map fst In]. repeat split; try (repeat constructor; lia); try (intros [|[|[|[|[]]]]]; discriminate); try (vm_compute; congruence); auto.
Qed.

(** ** C18 *)
Theorem C18_linear dic a (d1 d2 : arr R) (c1 c2 : R) :
  describes dic a -> mosaic d1 -> same_shape d1 d2 ->
  exists s1 s2 s, data_stokes dic d1 = Ok s1 /\ data_stokes dic d2 = Ok s2 /\
    data_stokes dic (amap2 (fun u v => c1 * u + c2 * v)%R d1 d2) = Ok s /\
    stokes_is s (rows d1 / 2) (cols d1 / 2)
      (fun y x => c1 * cell (sI s1) y x + c2 * cell (sI s2) y x)%R
      (fun y x => c1 * cell (sQ s1) y x + c2 * cell (sQ s2) y x)%R
      (fun y x => c1 * cell (sU s1) y x + c2 * cell (sU s2) y x)%R.
Proof. exact (c18_linear dic a d1 d2 c1 c2). Qed.
Print Assumptions C18_linear.

Theorem C18_offset dic a (d1 : arr R) (c : R) :
  describes dic a -> mosaic d1 ->
  exists s1 s, data_stokes dic d1 = Ok s1 /\
    data_stokes dic (amap (fun u => u + c)%R d1) = Ok s /\
    stokes_is s (rows d1 / 2) (cols d1 / 2)
      (fun y x => cell (sI s1) y x + 2 * c)%R (cell (sQ s1)) (cell (sU s1)).
Proof. exact (c18_offset dic a d1 c). Qed.
Print Assumptions C18_offset.

Example C18_case :
  on_ok (fun s => (to_list (sI s), to_list (sQ s), to_list (sU s)))
    (data_stokes polarcam_angles (mkarr 2 2 (fun y x => inject_Z (10 * y + x))))
  = Ok ([[11]], [[-11]], [[-9]])%Q.
Proof. vm_compute; reflexivity. Qed.
