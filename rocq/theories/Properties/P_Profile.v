(** Property C108: what the radial filter removes. *)
From Coq Require Import Reals Lra.
From Verif Require Import Base.Base Base.Num Model.Nrgf Spec.RoiSpec Spec.CodecSpec Proofs.NrgfMore.
Local Open Scope R_scope.

(** ** C108.  A gain and an offset for each ring, and anything outside the rings, are removed. *)
Theorem C108_radial_profile (d d' : arr R) y0 x0 cy cx rho_min step tm to (g o : Z -> R) out :
  truncated y0 cy -> truncated x0 cx -> (0 < step)%Z ->
  rows d' = rows d -> cols d' = cols d -> (forall k, 0 < g k) ->
  (forall k y x, (0 <= k)%Z -> (0 <= y < rows d)%Z -> (0 <= x < cols d)%Z ->
     IZR (rho_min + k * step) < dist y x cy cx <= IZR (rho_min + (k + 1) * step) ->
     cell d' y x = g k * cell d y x + o k) ->
  nrgf d y0 x0 rho_min step tm to = Ok out ->
  exists out', nrgf d' y0 x0 rho_min step tm to = Ok out' /\ out' =a= out.
Proof. exact (c108_profile d d' y0 x0 cy cx rho_min step tm to g o out). Qed.
Print Assumptions C108_radial_profile.

(** Filtering twice is filtering once. *)
Theorem C108_twice (d : arr R) y0 x0 rho_min step t out :
  (0 < step)%Z -> nrgf d y0 x0 rho_min step t t = Ok out ->
  exists out', nrgf out y0 x0 rho_min step t t = Ok out' /\ out' =a= out.
Proof. exact (c108_twice d y0 x0 rho_min step t out). Qed.
Print Assumptions C108_twice.

(** Around (2, 2), rings of one pixel from radius 1: another value at the centre, and the pixels
    at a distance of more than 2 doubled. *)
Example C108_case :
  let d := mkarr 5 5 (fun y x => IZR (y + x)) in
  let far y x := (4 <? (y - 2) * (y - 2) + (x - 2) * (x - 2))%Z in
  let d' := mkarr 5 5 (fun y x => if far y x then 2 * IZR (y + x) else if (y =? 2)%Z && (x =? 2)%Z then 100 else IZR (y + x)) in
  let g k := if (k =? 0)%Z then 1 else 2 in
  truncated 2 2 /\ (forall k, 0 < g k) /\ cell d' 2 2 <> cell d 2 2 /\ cell d' 0 1 = 2 * cell d 0 1 /\
  forall k y x, (0 <= k)%Z -> (0 <= y < rows d)%Z -> (0 <= x < cols d)%Z ->
     IZR (1 + k * 1) < dist y x 2 2 <= IZR (1 + (k + 1) * 1) -> cell d' y x = g k * cell d y x + 0.
Proof.
  cbv zeta. cbn [cell rows cols]. split; [split; intros; lra|]. split; [intros k; destruct (k =? 0)%Z; lra|].
  split; [cbn; intros E; lra|]. split; [cbn; lra|]. intros k y x Hk _ _ [Hlo Hhi]. unfold dist in Hlo, Hhi.
  set (q := ((y - 2) * (y - 2) + (x - 2) * (x - 2))%Z) in *.
  assert (Q0 : (0 <= q)%Z) by (unfold q; clear; pose proof (Z.square_nonneg (y - 2)); pose proof (Z.square_nonneg (x - 2)); lia).
  assert (Sq : sqrt (IZR q) * sqrt (IZR q) = IZR q) by (apply sqrt_def, IZR_le, Q0).
  assert (S0 := sqrt_pos (IZR q)).
  assert (K1 : 1 <= IZR (1 + k * 1)) by (apply IZR_le; lia).
  assert (Q1 : 1 < IZR q) by nra.
  assert (Hc : ((y =? 2) && (x =? 2))%Z = false).
  { destruct (y =? 2)%Z eqn:Ey, (x =? 2)%Z eqn:Ex; try reflexivity. apply Z.eqb_eq in Ey, Ex. subst y x. unfold q in Q1. cbn in Q1. lra. }
  rewrite Hc. destruct (k =? 0)%Z eqn:Ek.
  - apply Z.eqb_eq in Ek. subst k. cbn in Hhi. assert (IZR q <= 4) by nra. apply le_IZR in H.
    replace (4 <? q)%Z with false by (symmetry; apply Z.ltb_ge; lia). lra.
  - apply Z.eqb_neq in Ek. assert (2 <= IZR (1 + k * 1)) by (apply IZR_le; lia). assert (4 < IZR q) by nra.
    apply lt_IZR in H0. replace (4 <? q)%Z with true by (symmetry; apply Z.ltb_lt; lia). lra.
Qed.
