(** The radial filter over sectors (vocabulary for C145). *)
From Coq Require Import Reals.
From Verif Require Import Base.Base Base.Num Model.NrgfFloat Spec.RoiSpec Spec.RingSpec.

(** Whatever pixels are to be added, they are added in some orders. *)
Definition adds_all (orders : list (Z * Z) -> option ring_plan) : Prop :=
  orders [] = None /\ forall ps, ps <> [] -> exists d pl, orders ps = Some pl /\ plan_for ps d pl.

(** A ring (r, r + step] that the filter treats: one of those that follow [rho_min] while some pixel of the
    h x w image is at a distance of r + 1 or more from the centre. *)
Definition treated (h w cy cx rho_min step r : Z) : Prop :=
  (exists k, 0 <= k /\ r = rho_min + k * step) /\
  exists y x, 0 <= y < h /\ 0 <= x < w /\ (IZR (r + 1) <= dist y x cy cx)%R.

(** [ps] lists the pixels of the ring (r, r + step] whose directions are in [t1, t2). *)
Definition lists_ring (ps : list (Z * Z)) (h w cy cx r step : Z) (t1 t2 : R) : Prop :=
  NoDup ps /\ forall y x, In (y, x) ps <->
    0 <= y < h /\ 0 <= x < w /\ in_sector (IZR y - IZR cy) (IZR x - IZR cx) (IZR r) (IZR (r + step)) t1 t2.
