(** C131: masks and filters do not depend on earlier calls. *)
From Coq Require Import Reals.
From Verif Require Import Base.Base Base.Num Model.Roi Model.Nrgf Model.Cache Spec.CacheSpec Proofs.CacheFacts.
Local Open Scope R_scope.

(** Full statement: every call gives what it gives in a fresh interpreter.  It holds unless a
    program changes distances it got from map_polar_coordinates. *)
Theorem C131_alone_partial p : Forall changes_nothing p -> fst (run_calls [] p) = map alone p.
Proof. exact (c131_alone p). Qed.
Print Assumptions C131_alone_partial.

(** Whatever the program does, at most 128 maps are kept in memory, none twice. *)
Theorem C131_bounded p : let c := snd (run_calls [] p) in (length c <= 128)%nat /\ NoDup (map fst c).
Proof. exact (c131_bounded p). Qed.
Print Assumptions C131_bounded.

(** Distances of a 2 x 2 image are computed and one is set to 0; then a mask with this centre,
    of radii 1/2 to 5, leaves out the pixel. *)
Theorem C131_changed_refuted : exists r r',
  fst (run_calls [] changed_program) = [Maps (map_polar_coordinates 2 2 0 0); Done; Image (Ok r)] /\
  map alone changed_program = [Maps (map_polar_coordinates 2 2 0 0); Done; Image (Ok r')] /\ cell r 1 1 = 0 /\ cell r' 1 1 = 7.
Proof. exact c131_changed. Qed.
Print Assumptions C131_changed_refuted.

(** Masks and filters of images of the same size, which share one map. *)
Example C131_case : let d := full 4 4 1 in
  let p := [CallRoi d (Some (2, 2)) (Some (1, 2)) (0, 360) 0 false; CallNrgf d 2 2 1 1 (0, 360) (0, 360); CallRoi d None (Some (0, 1)) (0, 360) 0 false] in
  Forall changes_nothing p /\ nrgf_key d 2 2 = mkkey 4 4 (IZR (Codec.rtrunc 2)) (IZR (Codec.rtrunc 2)) /\
  roi_key d None (Some (0, 1)) false = roi_key d (Some (2, 2)) (Some (1, 2)) false.
Proof. cbv zeta. split; [repeat constructor|]. split; reflexivity. Qed.
