(** Property C133: writing pixels of an image through its data attribute. *)
From Coq Require Import Reals Lra.
From Verif Require Import Base.Base Model.Demosaic Model.Stokes Model.ImageObj Model.Pixels Spec.MosaicSpec
  Spec.StokesSpec Spec.ImageSpec Spec.StoreSpec Proofs.StoreFacts.

(** Full statement: after any calls and stores, [image.data[y, x] = v] changes no other image, and
    the polarization parameters of the image follow.  The first part holds for images that are not
    plain copies or demodulated images, and for every image after its pixels were computed anew. *)
Theorem C133_private_partial acts i j y x v w :
  Forall no_copies acts -> i <> j -> view_of (run_acts acts empty_heap) j = Some w ->
  view_of (run_acts (acts ++ [Store i y x v]) empty_heap) j = Some w.
Proof. exact (c133_private acts i j y x v w). Qed.
Print Assumptions C133_private_partial.

Theorem C133_renewed_partial acts W c k j y x v w :
  let h := run_acts acts empty_heap in
  new_pixels c -> snd (exec W c h) = Ok (Some k) -> j <> k ->
  view_of (fst (exec W c h)) j = Some w ->
  view_of (fst (store k y x v (fst (exec W c h)))) j = Some w.
Proof. exact (c133_renewed acts W c k j y x v w). Qed.
Print Assumptions C133_renewed_partial.

(** A pixel written into a plain copy or into a demodulated image is written into the image it was
    made from, whose Stokes vector stays. *)
Theorem C133_copy_refuted hist h W c i k v h' y x val :
  reached hist h -> same_pixels c i -> view_of h i = Some v -> exec W c h = (h', Ok (Some k)) ->
  inb (v_data v) y x ->
  exists u w, let h'' := fst (store k y x val h') in
    k <> i /\ snd (store k y x val h') = Ok None /\ view_of h'' i = Some u /\ view_of h'' k = Some w /\
    cell (v_data u) y x = val /\ cell (v_data w) y x = val /\ v_vector u = v_vector v.
Proof. exact (c133_shared hist h W c i k v h' y x val). Qed.
Print Assumptions C133_copy_refuted.

(** The image's own parameters do not follow either. *)
Theorem C133_stale_refuted hist h i v a y x val :
  reached hist h -> Forall (fun e => plain_call (snd e)) hist -> view_of h i = Some v -> describes (v_dic v) a ->
  inb (v_data v) y x -> val <> cell (v_data v) y x ->
  exists u, snd (store i y x val h) = Ok None /\ view_of (fst (store i y x val h)) i = Some u /\
    cell (v_data u) y x = val /\ v_vector u = v_vector v /\ ~ shows_its_data u.
Proof. exact (c133_stale hist h i v a y x val). Qed.
Print Assumptions C133_stale_refuted.

(** An image and a shifted one, pixels written into both; a copy of the first with a dark image;
    a plain copy. *)
Example C133_case :
  let calls := [Create (ones 4 4) None None None; Shift 0 1 0 0%R] in
  let acts := map (Call still) calls ++ [Store 1 0 0 5%R; Store 0 (-1) 3 7%R] in
  Forall no_copies acts /\ arrays_exist (after_calls calls) /\
  Forall (fun e => plain_call (snd e)) (after_calls calls) /\
  snd (store 0 (-1) 3 7%R (run_acts (map (Call still) calls) empty_heap)) = Ok None /\
  snd (exec still (CopyOf 0 None (Some 1%nat) None) (run_acts acts empty_heap)) = Ok (Some 2%nat) /\
  snd (exec still (CopyOf 0 None None None) (run_history (after_calls calls) empty_heap)) = Ok (Some 2%nat) /\
  (exists w, view_of (run_acts acts empty_heap) 0 = Some w /\ inb (v_data w) 3 3 /\
     cell (v_data w) 3 3 = 7%R /\ cell (v_data w) 0 0 = 1%R /\ v_dic w = polarcam_angles).
Proof.
  cbv zeta. split; [repeat constructor; intros i Hi; exact Hi|].
  split; [unfold arrays_exist, after_calls; cbn; repeat constructor; cbn; lia|].
  split; [unfold after_calls; cbn; repeat constructor|].
  split; [vm_compute; reflexivity|]. split; [vm_compute; reflexivity|]. split; [vm_compute; reflexivity|].
  eexists. split; [vm_compute; reflexivity|]. cbn [v_data rows cols cell v_dic]. unfold inb. cbn.
  repeat split; try lia; reflexivity.
Qed.
