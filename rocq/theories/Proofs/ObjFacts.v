(** The heap of images: what a method leaves alone. *)
From Coq Require Import Reals Lra ZifyBool.
From Verif Require Import Base.Base Base.BaseFacts Base.Num Base.Bcast Model.Demosaic Model.Rebin Model.Shift
  Model.Ifov Model.Stokes Model.Utils Model.Roi Model.Demodulate Model.ImageObj Spec.MosaicSpec
  Spec.StokesSpec Spec.ImageSpec Proofs.MosaicFacts.

Definition keeps {A} (l l' : list A) : Prop := forall p a, nth_error l p = Some a -> nth_error l' p = Some a.
Lemma keeps_refl {A} (l : list A) : keeps l l.
Proof. intros p a E. exact E. Qed.
Lemma keeps_app {A} (l l' : list A) : keeps l (l ++ l').
Proof. intros p a E. rewrite nth_error_app1; [exact E|]. apply nth_error_Some. congruence. Qed.
Lemma keeps_trans {A} (a b c : list A) : keeps a b -> keeps b c -> keeps a c.
Proof. intros H1 H2 p x E. auto. Qed.

Lemma replace_length {A} (l : list A) p a : length (replace l p a) = length l.
Proof. revert p; induction l as [|b l IH]; intros [|p]; cbn; try rewrite IH; reflexivity. Qed.
Lemma replace_same {A} (l : list A) p a : (p < length l)%nat -> nth_error (replace l p a) p = Some a.
Proof. revert p; induction l as [|b l IH]; intros [|p] Hp; cbn in *; try lia; try reflexivity. apply IH. lia. Qed.
Lemma replace_other {A} (l : list A) p q a : q <> p -> nth_error (replace l p a) q = nth_error l q.
Proof.
  revert p q; induction l as [|b l IH]; intros [|p] [|q] Hne; cbn; try reflexivity; try congruence.
  apply IH. congruence.
Qed.
Lemma nth_error_lt {A} (l : list A) p : (p < length l)%nat -> exists a, nth_error l p = Some a.
Proof. intros Hp. destruct (nth_error l p) as [a|] eqn:E; [eauto|]. apply nth_error_None in E. lia. Qed.
Lemma lt_nth_error {A} (l : list A) p a : nth_error l p = Some a -> (p < length l)%nat.
Proof. intros E. apply nth_error_Some. congruence. Qed.

(** What running a method does to the object and the heap; [ow]: it may overwrite the memory
    of the object's own Stokes vector. *)
Record evolves (ow : bool) (im : image) (h : heap) (im' : image) (h' : heap) : Prop := mkevolves {
  ev_arrays : keeps (arrays h) (arrays h');
  ev_quads : keeps (quads h) (quads h');
  ev_vlen : (length (vectors h) <= length (vectors h'))%nat;
  ev_vectors : forall p a, nth_error (vectors h) p = Some a ->
    nth_error (vectors h') p = Some a \/ (ow = true /\ p = i_stokes im);
  ev_stokes : i_stokes im' = i_stokes im \/ (length (vectors h) <= i_stokes im')%nat;
  ev_hlen : length (headers h') = length (headers h);
  ev_headers : forall p, p <> i_header im -> nth_error (headers h') p = nth_error (headers h) p;
  ev_header : (i_data im' = i_data im /\ headers h' = headers h) \/
    (exists d, nth_error (arrays h') (i_data im') = Some d /\
       ((i_header im < length (headers h))%nat ->
        nth_error (headers h') (i_header im) = Some (mkheader (cols d) (rows d))));
  ev_images : images h' = images h;
  ev_default : default_angles h' = default_angles h;
  ev_hp : i_header im' = i_header im;
  ev_dic : i_dic im' = i_dic im
}.

Lemma evolves_refl ow im h : evolves ow im h im h.
Proof. split; auto using keeps_refl. Qed.

Lemma evolves_trans ow im h im1 h1 im2 h2 :
  evolves ow im h im1 h1 -> evolves ow im1 h1 im2 h2 -> evolves ow im h im2 h2.
Proof.
  intros A B. destruct A as [A1 A2 A3 A4 A5 A6 A7 A8 A9 A10 A11 A12], B as [B1 B2 B3 B4 B5 B6 B7 B8 B9 B10 B11 B12].
  split; try congruence.
  - exact (keeps_trans _ _ _ A1 B1).
  - exact (keeps_trans _ _ _ A2 B2).
  - lia.
  - intros p a E. destruct (A4 p a E) as [E1|E1]; [|right; exact E1].
    destruct (B4 p a E1) as [E2|[Ho E2]]; [left; exact E2|]. right. split; [exact Ho|].
    destruct A5 as [A5|A5]; [congruence|]. pose proof (lt_nth_error _ _ _ E). lia.
  - destruct B5 as [B5|B5]; [rewrite B5; exact A5|right; lia].
  - intros p Hp. rewrite B7 by congruence. apply A7. exact Hp.
  - destruct B8 as [[E1 E2]|(d & E1 & E2)].
    + destruct A8 as [[F1 F2]|(d & F1 & F2)]; [left; split; congruence|right].
      exists d. rewrite E1, E2. split; [apply B1; exact F1|exact F2].
    + right. exists d. split; [exact E1|]. intros Hl. rewrite <- A11. apply E2. rewrite A11. lia.
Qed.

Definition sat {A} (ow : bool) (m : method A) : Prop :=
  forall im h im' h' r, m (im, h) = ((im', h'), r) -> evolves ow im h im' h'.

Lemma sat_pure {A} ow (f : image * heap -> result A) : sat ow (fun st => (st, f st)).
Proof. intros im h im' h' r E. injection E as <- <- _. apply evolves_refl. Qed.
Lemma sat_ret {A} ow (a : A) : sat ow (ret a).
Proof. exact (sat_pure ow _). Qed.
Lemma sat_lift {A} ow (r : result A) : sat ow (lift r).
Proof. exact (sat_pure ow _). Qed.
Lemma sat_self ow : sat ow self.
Proof. exact (sat_pure ow _). Qed.
Lemma sat_deref {A} ow (f : heap -> list A) p : sat ow (deref f p).
Proof. exact (sat_pure ow _). Qed.
Lemma sat_bind {A B} ow (m : method A) (k : A -> method B) :
  sat ow m -> (forall a, sat ow (k a)) -> sat ow (mbind m k).
Proof.
  intros Hm Hk im h im' h' r E. unfold mbind in E.
  destruct (m (im, h)) as [[im1 h1] [a|e|]] eqn:Em.
  - eapply evolves_trans; [apply (Hm _ _ _ _ _ Em)|apply (Hk a _ _ _ _ _ E)].
  - injection E as <- <- _. exact (Hm _ _ _ _ _ Em).
  - injection E as <- <- _. exact (Hm _ _ _ _ _ Em).
Qed.

Lemma sat_set_data ow d : sat ow (set_data d).
Proof.
  intros im h im' h' r E. unfold set_data, mbind, new_array, set_self, self, write_header in E. cbn in E.
  injection E as <- <- _. split; cbn; auto using keeps_refl, keeps_app.
  - apply replace_length.
  - intros p Hp. apply replace_other. exact Hp.
  - right. exists d. split.
    + rewrite nth_error_app2, Nat.sub_diag by lia. reflexivity.
    + intros Hl. rewrite replace_same by exact Hl. reflexivity.
Qed.

Lemma sat_new_vector_set ow s : sat ow (call p <- new_vector s; set_stokes p).
Proof.
  intros im h im' h' r E. unfold set_stokes, mbind, new_vector, set_self in E. cbn in E.
  injection E as <- <- _. split; cbn; auto using keeps_refl.
  - rewrite app_length. lia.
  - intros p a E. left. apply keeps_app. exact E.
Qed.

Lemma sat_new_quad_set ow q b : sat ow (call p <- new_quad q; set_demosaiced p b).
Proof.
  intros im h im' h' r E. unfold set_demosaiced, mbind, new_quad, set_self in E. cbn in E.
  injection E as <- <- _. split; cbn; auto using keeps_refl, keeps_app.
Qed.

Lemma sat_set_demodulated ow : sat ow set_demodulated.
Proof. intros im h im' h' r E. injection E as <- <- _. split; cbn; auto using keeps_refl. Qed.
Lemma sat_set_dark ow : sat ow set_dark_flag.
Proof. intros im h im' h' r E. injection E as <- <- _. split; cbn; auto using keeps_refl. Qed.
Lemma sat_set_flat ow : sat ow set_flat_flag.
Proof. intros im h im' h' r E. injection E as <- <- _. split; cbn; auto using keeps_refl. Qed.

Lemma mbind_assoc {A B C} (m : method A) (k : A -> method B) (l : B -> method C) st :
  mbind (mbind m k) l st = mbind m (fun a => mbind (k a) l) st.
Proof. unfold mbind. destruct (m st) as [st' [a|e|]]; reflexivity. Qed.

Lemma sat_assoc {A B C} ow (m : method A) (k : A -> method B) (l : B -> method C) :
  sat ow (mbind (mbind m k) l) -> sat ow (mbind m (fun a => mbind (k a) l)).
Proof. intros H im h im' h' r E. rewrite <- mbind_assoc in E. exact (H _ _ _ _ _ E). Qed.

Lemma sat_my_data ow : sat ow my_data.
Proof. apply sat_bind; [apply sat_self|intros im; apply sat_deref]. Qed.
Lemma sat_data_of ow j : sat ow (data_of j).
Proof. apply sat_bind; [apply sat_deref|intros im; apply sat_deref]. Qed.

Lemma sat_theo ow : sat ow theo_components.
Proof.
  apply sat_bind; [apply sat_self|]. intros im. apply sat_bind.
  - destruct (i_demosaiced im).
    + destruct (i_demos im); [apply sat_deref|apply sat_lift].
    + apply sat_bind; [apply sat_my_data|intros d; apply sat_lift].
  - intros q. apply sat_lift.
Qed.
Lemma sat_update_stokes ow : sat ow update_stokes.
Proof. apply sat_bind; [apply sat_theo|]. intros s. apply sat_new_vector_set. Qed.
Lemma sat_update ow d : sat ow (update_data_and_stokes d).
Proof. apply sat_bind; [apply sat_set_data|]. intros _. apply sat_update_stokes. Qed.

Lemma sat_subtract_dark ow j : sat ow (subtract_dark j).
Proof.
  apply sat_bind; [apply sat_my_data|intros d]. apply sat_bind; [apply sat_data_of|intros e].
  apply sat_bind; [apply sat_lift|intros f]. apply sat_bind; [apply sat_set_data|intros _].
  apply sat_bind; [apply sat_set_data|intros _]. apply sat_bind; [apply sat_update_stokes|intros _].
  apply sat_set_dark.
Qed.
Lemma sat_correct_flat ow W j : sat ow (correct_flat W j).
Proof.
  apply sat_bind; [apply sat_data_of|intros d]. apply sat_bind; [apply sat_my_data|intros e].
  apply sat_bind; [apply sat_lift|intros f]. apply sat_bind; [apply sat_set_data|intros _].
  apply sat_bind; [apply sat_update_stokes|intros _]. apply sat_set_flat.
Qed.
Lemma sat_ifov ow : sat ow correct_ifov.
Proof.
  apply sat_bind; [apply sat_my_data|intros d]. apply sat_bind; [apply sat_self|intros im].
  apply sat_bind; [apply sat_lift|intros f]. apply sat_update.
Qed.
Lemma sat_corrections ow W dark flat : sat ow (corrections W dark flat).
Proof.
  apply sat_bind.
  - destruct dark; [apply sat_subtract_dark|apply sat_ret].
  - intros _. destruct flat; [apply sat_correct_flat|apply sat_ret].
Qed.
Lemma sat_demosaic ow mode : sat ow (demosaic_image mode).
Proof.
  apply sat_bind; [apply sat_my_data|intros d]. apply sat_bind; [apply sat_lift|intros q].
  apply sat_assoc. apply sat_bind; [apply sat_new_quad_set|intros _]. apply sat_update_stokes.
Qed.

Lemma overwrite_evolves f im h im' h' r :
  overwrite_vector f (i_stokes im) (im, h) = ((im', h'), r) -> evolves true im h im' h' /\ im' = im.
Proof.
  assert (Hw : forall h0 s, evolves true im h im h0 ->
      evolves true im h im (mkheap (arrays h0) (headers h0) (replace (vectors h0) (i_stokes im) s) (quads h0)
                              (images h0) (default_angles h0))).
  { intros h0 s Hev. eapply evolves_trans; [exact Hev|].
    split; cbn; auto using keeps_refl.
    - rewrite replace_length. lia.
    - intros p a Ep. destruct (Nat.eq_dec p (i_stokes im)) as [->|Hne]; [right; auto|].
      left. rewrite replace_other by exact Hne. exact Ep. }
  intros E. unfold overwrite_vector, mbind, deref, lift, write_vector in E. cbn [fst snd] in E.
  destruct (nth_error (vectors h) (i_stokes im)) as [s|].
  2:{ injection E as <- <- _. split; [apply evolves_refl|reflexivity]. }
  destruct (f (sI s)) as [i|e|].
  2,3: injection E as <- <- _; split; [apply evolves_refl|reflexivity].
  destruct (f (sQ s)) as [q|e|].
  2,3: injection E as <- <- _; split; [apply (Hw h), evolves_refl|reflexivity].
  pose (h1 := mkheap (arrays h) (headers h) (replace (vectors h) (i_stokes im) (mkstokes i (sQ s) (sU s)))
                (quads h) (images h) (default_angles h)).
  pose (h2 := mkheap (arrays h) (headers h) (replace (vectors h1) (i_stokes im) (mkstokes i q (sU s)))
                (quads h) (images h) (default_angles h)).
  assert (V1 : evolves true im h im h1) by (apply (Hw h), evolves_refl).
  assert (V2 : evolves true im h im h2) by (apply (Hw h1), V1).
  destruct (f (sU s)) as [u|e|].
  2,3: injection E as <- <- _; split; [exact V2|reflexivity].
  injection E as <- <- _; split; [apply (Hw h2), V2|reflexivity].
Qed.

(** The object after [set_data] still has the same Stokes vector. *)
Lemma set_data_stokes d im h im' h' r :
  set_data d (im, h) = ((im', h'), r) -> i_stokes im' = i_stokes im /\ r = Ok tt /\
    vectors h' = vectors h /\ quads h' = quads h /\ i_demos im' = i_demos im /\
    i_demosaiced im' = i_demosaiced im.
Proof.
  intros E. unfold set_data, mbind, new_array, set_self, self, write_header in E. cbn in E.
  injection E as <- <- <-. cbn. auto 6.
Qed.

Lemma sat_mask y x r over fill : sat true (mask_occulter y x r over fill).
Proof.
  intros im h im' h' res E. unfold mask_occulter in E. cbn zeta in E.
  set (rr := r + over) in *. clearbody rr.
  revert E. unfold mbind at 1, self at 1. cbn [fst]. intros E.
  unfold mbind at 1 in E. destruct (my_data (im, h)) as [[im1 h1] rd] eqn:Ed.
  pose proof (sat_my_data true _ _ _ _ _ Ed) as V1.
  assert (im1 = im /\ h1 = h) as (-> & ->).
  { unfold my_data, mbind, self, deref in Ed. cbn in Ed. injection Ed as <- <- _. auto. }
  destruct rd as [data|e|]; [|injection E as <- <- _; exact V1..]. clear V1 Ed.
  unfold mbind at 1, lift at 1 in E.
  destruct (roi_from_polar data _ _ _ _ _) as [d|e|]; [|injection E as <- <- _; apply evolves_refl..].
  unfold mbind at 1 in E. destruct (set_data d (im, h)) as [[im1 h1] rs] eqn:Es.
  pose proof (sat_set_data true d _ _ _ _ _ Es) as V1.
  destruct (set_data_stokes d _ _ _ _ _ Es) as (F1 & -> & F3 & F4 & F5 & F6). clear Es.
  unfold mbind at 1, self at 1 in E. cbn [fst] in E.
  eapply evolves_trans; [exact V1|]. clear V1.
  set (mid := if i_demosaiced im1 then _ else _) in E.
  assert (Hmid : sat true mid).
  { unfold mid. destruct (i_demosaiced im1); [|apply sat_ret].
    destruct (i_demos im1); [|apply sat_lift].
    apply sat_bind; [apply sat_deref|intros q]. apply sat_bind; [apply sat_lift|intros q'].
    apply sat_new_quad_set. }
  assert (Hmid2 : forall a b a' b' rm, mid (a, b) = ((a', b'), rm) -> i_stokes a' = i_stokes a).
  { unfold mid. intros a b a' b' rm. destruct (i_demosaiced im1); [|intros Em; injection Em as <- _ _; reflexivity].
    destruct (i_demos im1) as [p|]; [|intros Em; injection Em as <- _ _; reflexivity].
    unfold mbind, deref, lift, new_quad, set_demosaiced, set_self. cbn.
    destruct (nth_error (quads b) p) as [q|]; [|intros Em; injection Em as <- _ _; reflexivity].
    destruct (mask_quad _ q) as [q'|e|]; intros Em; injection Em as <- _ _; reflexivity. }
  clearbody mid. unfold mbind at 1 in E. destruct (mid (im1, h1)) as [[im2 h2] rm] eqn:Em.
  pose proof (Hmid _ _ _ _ _ Em) as V2.
  destruct rm as [u|e|]; [|injection E as <- <- _; exact V2..].
  rewrite <- (Hmid2 _ _ _ _ _ Em) in E. destruct (overwrite_evolves _ _ _ _ _ _ E) as (V3 & _).
  exact (evolves_trans _ _ _ _ _ _ _ V2 V3).
Qed.

Lemma sat_from_demodulator ow d b : sat ow (stokes_from_demodulator d b).
Proof.
  unfold stokes_from_demodulator. destruct b.
  - apply sat_bind; [apply sat_demosaic|intros _]. apply sat_bind; [apply sat_self|intros im].
    destruct (i_demos im); [|apply sat_lift]. apply sat_bind; [apply sat_deref|intros q].
    apply sat_bind; [apply sat_deref|intros s]. apply sat_lift.
  - apply sat_bind; [apply sat_my_data|intros q]. apply sat_bind; [apply sat_self|intros im].
    apply sat_bind; [apply sat_deref|intros s]. apply sat_lift.
Qed.
