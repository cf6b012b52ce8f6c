(** The heap of images: every call as a step, and the invariant along any history. *)
From Coq Require Import Reals Lra ZifyBool.
From Verif Require Import Base.Base Base.BaseFacts Base.Num Base.Bcast Model.Demosaic Model.Rebin Model.Shift
  Model.Ifov Model.Stokes Model.Utils Model.Roi Model.Demodulate Model.ImageObj Spec.MosaicSpec
  Spec.StokesSpec Spec.ImageSpec Proofs.DemosaicFacts Proofs.MosaicFacts Proofs.StokesFacts
  Proofs.ObjFacts Proofs.ObjInv.

Definition data_at (h : heap) (i : nat) (d : arr R) : Prop :=
  exists im, nth_error (images h) i = Some im /\ nth_error (arrays h) (i_data im) = Some d.

(** Methods that change the object. *)
Inductive inplace (W : outside) : op -> nat -> method unit -> Prop :=
| ip_dark i j : inplace W (SubtractDark i j) i (subtract_dark j)
| ip_flat i j : inplace W (CorrectFlat i j) i (correct_flat W j)
| ip_ifov i : inplace W (CorrectIfov i) i correct_ifov
| ip_demosaic i mode : inplace W (DemosaicImage i mode) i (demosaic_image mode)
| ip_mask i y x r o f : inplace W (MaskOcculter i y x r o f) i (mask_occulter y x r o f).

(** Methods that work on a copy, after reading what they need. *)
Inductive derived (W : outside) (h : heap) : op -> nat -> option angle_dic -> method unit -> Prop :=
| d_copy i dic dark flat : derived W h (CopyOf i dic dark flat) i dic (corrections W dark flat)
| d_rebin i b data : 1 <= b -> data_at h i data ->
    derived W h (Rebin i b) i None
      (call d <- lift (micropolarray_rebin (fuel W) data b); update_data_and_stokes d)
| d_congrid i ny nx data d : data_at h i data ->
    congrid_data W data (ny - ny mod 2) (nx - nx mod 2) = Ok d ->
    derived W h (Congrid i ny nx) i None
      (call _ <- set_data d;
       call im <- self;
       call s <- deref vectors (i_stokes im);
       call i <- lift (resize W (sI s) (ny - ny mod 2) (nx - nx mod 2));
       call q <- lift (resize W (sQ s) (ny - ny mod 2) (nx - nx mod 2));
       call u <- lift (resize W (sU s) (ny - ny mod 2) (nx - nx mod 2));
       call p <- new_vector (mkstokes i q u);
       set_stokes p)
| d_shift i y x mv data d : data_at h i data -> shift_micropol data y x mv = Ok d ->
    derived W h (Shift i y x mv) i None (update_data_and_stokes d)
| d_clean i m data flags d : data_at h i data -> data_at h m flags -> clean_data W flags data = Ok d ->
    derived W h (CleanHot i m) i None (update_data_and_stokes d)
| d_with f i j data second d : data_at h i data -> data_at h j second -> combine_arrays W f data second = Ok d ->
    derived W h (WithImage f i j) i None (update_data_and_stokes d)
| d_demod i dm b :
    derived W h (Demodulate i dm b) i None
      (call s <- stokes_from_demodulator dm b;
       call p <- new_vector s;
       call _ <- set_stokes p;
       set_demodulated).

Definition blank (h : heap) (d : arr R) (dic : angle_dic) : image :=
  mkimage (length (arrays h)) (rows d) (cols d) (length (headers h)) 0 None dic false false false false.
Definition room (h : heap) (d : arr R) : heap :=
  mkheap (arrays h ++ [d]) (headers h ++ [mkheader (cols d) (rows d)]) (vectors h) (quads h) (images h)
    (default_angles h).
Definition with_header (p : nat) (im : image) : image :=
  mkimage (i_data im) (i_height im) (i_width im) p (i_stokes im) (i_demos im)
    (i_dic im) (i_demosaiced im) (i_demodulated im) (i_dark im) (i_flat im).

Definition handed (r : result unit) (im : image) (h : heap) : heap :=
  match r with Ok _ => put_images (images h ++ [im]) h | _ => h end.
Definition name_of (r : result unit) (h : heap) : result (option nat) :=
  on_ok (fun _ => Some (length (images h))) r.

Inductive step (W : outside) (h : heap) : op -> heap -> result (option nat) -> Prop :=
| s_fail c r : (forall a, r <> Ok a) -> step W h c h r
| s_default d : step W h (SetDefault d) (set_default_dic d h) (Ok None)
| s_in_place c i m im im' h' r : inplace W c i m -> nth_error (images h) i = Some im ->
    m (im, h) = ((im', h'), r) ->
    step W h c (put_images (replace (images h') i im') h')
      (on_ok (fun _ => match c with MaskOcculter _ _ _ _ _ _ => None | _ => Some i end) r)
| s_derived c i dic m im im' h' r : derived W h c i dic m -> nth_error (images h) i = Some im ->
    m (im, snd (choose_dic dic h)) = ((im', h'), r) -> step W h c (handed r im' h') (name_of r h')
| s_create data dic dark flat d1 h1 im' h' r : choose_dic dic h = (d1, h1) ->
    mbind update_stokes (fun _ => corrections W dark flat) (blank h1 data d1, room h1 data) = ((im', h'), r) ->
    step W h (Create data dic dark flat) (handed r im' h') (name_of r h')
| s_number f i s im data im' h' r : nth_error (images h) i = Some im ->
    nth_error (arrays h) (i_data im) = Some data ->
    mbind update_stokes (fun _ => set_self (with_header (i_header im)))
      (blank h (combine_number W f data s) (i_dic im), room h (combine_number W f data s)) = ((im', h'), r) ->
    step W h (WithNumber f i s) (handed r im' h') (name_of r h')
| s_rotate i angle im data s q h1 r1 im' h' r : nth_error (images h) i = Some im ->
    nth_error (arrays h) (i_data im) = Some data -> split_polarizations data = Ok s ->
    mask_quad (keep_shape (turn W angle)) s = Ok q ->
    overwrite_vector (keep_shape (turn W angle)) (i_stokes im) (im, h) = ((im, h1), r1) ->
    (match r1 with
     | Ok _ => set_data (merge_polarizations q) (im, snd (choose_dic None h1)) = ((im', h'), Ok tt) /\ r = Ok tt
     | _ => h' = h1 /\ (forall a, r <> Ok a)
     end) ->
    step W h (Rotate i angle) (handed r im' h') (name_of r h').

Lemma returning_is st m im' h' r : m st = ((im', h'), r) -> returning st m = (handed r im' h', name_of r h').
Proof. intros E. unfold returning. rewrite E. destruct r; reflexivity. Qed.

Lemma in_place_step W c i m h h' r :
  inplace W c i m -> in_place i m h = (h', r) ->
  step W h c h' (on_ok (fun o => match c with MaskOcculter _ _ _ _ _ _ => None | _ => o end) r).
Proof.
  intros Hi. unfold in_place. destruct (nth_error (images h) i) as [im|] eqn:Ei.
  - destruct (m (im, h)) as [[im1 h1] r1] eqn:Em. intros E. injection E as <- <-.
    pose proof (s_in_place W h c i m im im1 h1 r1 Hi Ei Em) as S. destruct r1; exact S.
  - intros E. injection E as <- <-. apply s_fail. discriminate.
Qed.

Lemma on_copy_step {A} W c i (before : method A) (m : A -> method unit) h h' r :
  (forall st, fst (before st) = st) ->
  (forall im a, nth_error (images h) i = Some im -> snd (before (im, h)) = Ok a -> derived W h c i None (m a)) ->
  on_copy i before m h = (h', r) -> step W h c h' r.
Proof.
  intros Hr Hd. unfold on_copy. destruct (nth_error (images h) i) as [im|] eqn:Ei.
  2:{ intros E. injection E as <- <-. apply s_fail. discriminate. }
  specialize (Hd im). specialize (Hr (im, h)). destruct (before (im, h)) as [[im1 h1] r1].
  cbn [fst] in Hr. injection Hr as -> ->. cbn [snd] in Hd.
  destruct r1 as [a|e|].
  2,3: intros E; injection E as <- <-; apply s_fail; discriminate.
  unfold copy_of. destruct (choose_dic None h) as [d1 h1] eqn:Ec.
  destruct (m a (im, h1)) as [[im2 h2] r2] eqn:Em. rewrite (returning_is _ _ _ _ _ Em).
  intros E. injection E as <- <-. apply (s_derived W h c i None (m a) im); [auto|exact Ei|].
  rewrite Ec. exact Em.
Qed.

Lemma reads_my_data st : fst (my_data st) = st.
Proof. reflexivity. Qed.
Lemma reads_data_of j st : fst (data_of j st) = st.
Proof.
  unfold data_of, mbind, deref. destruct (nth_error (images (snd st)) j); reflexivity.
Qed.
Lemma reads_bind {A B} (m : method A) (k : A -> method B) :
  (forall st, fst (m st) = st) -> (forall a st, fst (k a st) = st) -> forall st, fst (mbind m k st) = st.
Proof.
  intros Hm Hk st. unfold mbind. specialize (Hm st). destruct (m st) as [st' r]. cbn [fst] in Hm. subst st'.
  destruct r; [apply Hk|reflexivity..].
Qed.
Lemma read_value {A B} (m : method A) (k : A -> method B) st b :
  (forall st, fst (m st) = st) -> snd (mbind m k st) = Ok b ->
  exists a, snd (m st) = Ok a /\ snd (k a st) = Ok b.
Proof.
  intros Hm. unfold mbind. specialize (Hm st). destruct (m st) as [st' r]. cbn [fst] in Hm. subst st'.
  destruct r as [a|e|]; [|discriminate..]. intros E. exists a. auto.
Qed.
Lemma my_data_value i im h d : nth_error (images h) i = Some im -> snd (my_data (im, h)) = Ok d -> data_at h i d.
Proof.
  intros E. unfold my_data, mbind, self, deref. cbn.
  destruct (nth_error (arrays h) (i_data im)) as [d'|] eqn:E1; [|discriminate].
  intros F. injection F as <-. exists im. auto.
Qed.
Lemma data_of_value j im h d : snd (data_of j (im, h)) = Ok d -> data_at h j d.
Proof.
  unfold data_of, mbind, deref. cbn. destruct (nth_error (images h) j) as [x|] eqn:E; [|discriminate]. cbn.
  destruct (nth_error (arrays h) (i_data x)) as [d'|] eqn:E1; [|discriminate].
  intros F. injection F as <-. exists x. auto.
Qed.

Lemma overwrite_same f p im h : fst (fst (overwrite_vector f p (im, h))) = im.
Proof.
  unfold overwrite_vector, mbind, deref, lift, write_vector. cbn [fst snd].
  destruct (nth_error (vectors h) p) as [s|]; [|reflexivity].
  destruct (f (sI s)); [|reflexivity..]. destruct (f (sQ s)); [|reflexivity..]. destruct (f (sU s)); reflexivity.
Qed.

Lemma exec_step W c h h' r : exec W c h = (h', r) -> step W h c h' r.
Proof.
  intros E. destruct c; cbn [exec] in E.
  - injection E as <- <-. apply s_default.
  - unfold create in E. destruct (choose_dic dic h) as [d1 h1] eqn:Ec.
    change (mkimage (length (arrays h1)) (rows data) (cols data) (length (headers h1)) 0 None d1
              false false false false) with (blank h1 data d1) in E.
    destruct (mbind update_stokes (fun _ => corrections W dark flat) (blank h1 data d1, room h1 data))
      as [[im2 h2] r2] eqn:Em.
    match type of E with returning ?st ?m = _ => rewrite (returning_is st m im2 h2 r2 Em) in E end. injection E as <- <-.
    eapply s_create; eassumption.
  - destruct (nth_error (images h) i) as [im|] eqn:Ei.
    2:{ injection E as <- <-. apply s_fail. discriminate. }
    unfold copy_of in E. destruct (choose_dic dic h) as [d1 h1] eqn:Ec.
    destruct (corrections W dark flat (im, h1)) as [[im2 h2] r2] eqn:Em.
    match type of E with returning ?st ?m = _ => rewrite (returning_is st m im2 h2 r2 Em) in E end. injection E as <- <-.
    eapply s_derived; [apply d_copy|exact Ei|]. rewrite Ec. exact Em.
  - pose proof (in_place_step W _ _ _ _ _ _ (ip_dark W i dark) E) as S. destruct r; exact S.
  - pose proof (in_place_step W _ _ _ _ _ _ (ip_flat W i flat) E) as S. destruct r; exact S.
  - pose proof (in_place_step W _ _ _ _ _ _ (ip_ifov W i) E) as S. destruct r; exact S.
  - pose proof (in_place_step W _ _ _ _ _ _ (ip_demosaic W i mode) E) as S. destruct r; exact S.
  - match type of E with (let (_, _) := ?t in _) = _ => destruct t as [h1 r1] eqn:E1 end.
    pose proof (in_place_step W _ _ _ _ _ _ (ip_mask W i y x r0 overoccult fill) E1) as S.
    injection E as <- <-. exact S.
  - destruct (binning <=? 0) eqn:Eb; [injection E as <- <-; apply s_fail; discriminate|].
    refine (on_copy_step W _ _ _ _ _ _ _ reads_my_data _ E). intros im a Ei Ea. cbn beta.
    apply d_rebin; [lia|]. exact (my_data_value _ _ _ _ Ei Ea).
  - refine (on_copy_step W _ _ _ _ _ _ _ _ _ E).
    + apply reads_bind; [exact reads_my_data|reflexivity].
    + intros im a Ei Ea. apply read_value in Ea; [|exact reads_my_data]. destruct Ea as (d & E1 & E2).
      cbn beta. eapply d_congrid; [exact (my_data_value _ _ _ _ Ei E1)|exact E2].
  - unfold on_copy in E. destruct (nth_error (images h) i) as [im|] eqn:Ei.
    2:{ injection E as <- <-. apply s_fail. discriminate. }
    unfold my_data, mbind, self, deref, lift, ret in E. cbn [fst snd] in E.
    destruct (nth_error (arrays h) (i_data im)) as [d|] eqn:Ed.
    2:{ injection E as <- <-. apply s_fail. discriminate. }
    destruct (split_polarizations d) as [s|e|] eqn:Es.
    2,3: injection E as <- <-; apply s_fail; discriminate.
    destruct (mask_quad (keep_shape (turn W angle)) s) as [q|e|] eqn:Eq.
    2,3: injection E as <- <-; apply s_fail; discriminate.
    pose proof (overwrite_same (keep_shape (turn W angle)) (i_stokes im) im h) as Hs.
    destruct (overwrite_vector (keep_shape (turn W angle)) (i_stokes im) (im, h)) as [[im1 h1] r1] eqn:Eo.
    cbn [fst] in Hs. subst im1.
    destruct r1 as [u|e|].
    + unfold copy_of in E. destruct (choose_dic None h1) as [d1 h2] eqn:Ec.
      destruct (set_data (merge_polarizations q) (im, h2)) as [[im3 h3] r3] eqn:Em.
      destruct (set_data_stokes _ _ _ _ _ _ Em) as (_ & -> & _).
      rewrite (returning_is _ _ _ _ _ Em) in E. injection E as <- <-.
      apply (s_rotate W h i angle im d s q h1 (Ok u) im3 h3 (Ok tt) Ei Ed Es Eq Eo). rewrite Ec. auto.
    + injection E as <- <-.
      apply (s_rotate W h i angle im d s q h1 (Raise e) im h1 (Raise e) Ei Ed Es Eq Eo). split; [reflexivity|discriminate].
    + injection E as <- <-.
      apply (s_rotate W h i angle im d s q h1 NoFuel im h1 NoFuel Ei Ed Es Eq Eo). split; [reflexivity|discriminate].
  - refine (on_copy_step W _ _ _ _ _ _ _ _ _ E).
    + apply reads_bind; [exact reads_my_data|reflexivity].
    + intros im a Ei Ea. apply read_value in Ea; [|exact reads_my_data]. destruct Ea as (d & E1 & E2).
      eapply d_shift; [exact (my_data_value _ _ _ _ Ei E1)|exact E2].
  - refine (on_copy_step W _ _ _ _ _ _ _ _ _ E).
    + apply reads_bind; [exact reads_my_data|]. intros d. apply reads_bind; [apply reads_data_of|reflexivity].
    + intros im a Ei Ea. apply read_value in Ea; [|exact reads_my_data]. destruct Ea as (d & E1 & E2).
      apply read_value in E2; [|apply reads_data_of]. destruct E2 as (f & E2 & E3).
      eapply d_clean; [exact (my_data_value _ _ _ _ Ei E1)|exact (data_of_value _ _ _ _ E2)|exact E3].
  - refine (on_copy_step W _ _ _ _ _ _ _ _ _ E).
    + apply reads_bind; [exact reads_my_data|]. intros d. apply reads_bind; [apply reads_data_of|reflexivity].
    + intros im a Ei Ea. apply read_value in Ea; [|exact reads_my_data]. destruct Ea as (d & E1 & E2).
      apply read_value in E2; [|apply reads_data_of]. destruct E2 as (g & E2 & E3).
      eapply d_with; [exact (my_data_value _ _ _ _ Ei E1)|exact (data_of_value _ _ _ _ E2)|exact E3].
  - destruct (nth_error (images h) i) as [im|] eqn:Ei.
    2:{ injection E as <- <-. apply s_fail. discriminate. }
    destruct (nth_error (arrays h) (i_data im)) as [d|] eqn:Ed.
    2:{ injection E as <- <-. apply s_fail. discriminate. }
    destruct (mbind update_stokes (fun _ => set_self (with_header (i_header im)))
                (blank h (combine_number W f d s) (i_dic im), room h (combine_number W f d s)))
      as [[im2 h2] r2] eqn:Em.
    cbv zeta in E. match type of E with returning ?st ?m = _ => rewrite (returning_is st m im2 h2 r2 Em) in E end. injection E as <- <-.
    eapply s_number; eassumption.
  - refine (on_copy_step W _ _ _ _ _ _ _ _ _ E).
    + reflexivity.
    + intros im a Ei _. cbn beta. apply d_demod.
Qed.

(** ** Steps and the invariant *)

(** Everything already there is kept. *)
Definition grows (h h' : heap) : Prop :=
  keeps (arrays h) (arrays h') /\ keeps (headers h) (headers h') /\ keeps (vectors h) (vectors h') /\
  keeps (quads h) (quads h').

Lemma obj_ok_grows h h' x : grows h h' -> obj_ok h x -> obj_ok h' x.
Proof.
  intros (G1 & G2 & G3 & G4) [O1 O2 O3 O4 O5 O6]. split; auto.
  - destruct O1 as (d & E & Hm & Hd). exists d. split; [apply G1, E|auto].
  - apply keeps_len in G2. lia.
  - apply keeps_len in G3. lia.
  - intros p E. apply keeps_len in G4. specialize (O4 p E). lia.
Qed.
Lemma obj_ok_images h l x : obj_ok (put_images l h) x <-> obj_ok h x.
Proof. split; intros [O1 O2 O3 O4 O5 O6]; split; assumption. Qed.
Lemma heap_ok_put h l : (forall x, In x l -> obj_ok h x) -> heap_ok (put_images l h).
Proof. intros H. apply Forall_forall. intros x Hx. apply obj_ok_images. apply H. exact Hx. Qed.
Lemma obj_ok_at h i im : heap_ok h -> nth_error (images h) i = Some im -> obj_ok h im.
Proof. unfold heap_ok. rewrite Forall_forall. intros H E. apply H. exact (nth_error_In _ _ E). Qed.

Lemma grows_room h d : grows h (room h d).
Proof. repeat split; cbn; auto using keeps_app, keeps_refl. Qed.
Lemma grows_refl h : grows h h.
Proof. repeat split; auto using keeps_refl. Qed.
Lemma choose_grows dic h : grows h (snd (choose_dic dic h)) /\ images (snd (choose_dic dic h)) = images h.
Proof. unfold choose_dic. destruct dic; [|destruct (default_angles h)]; (split; [repeat split; cbn; auto using keeps_refl|reflexivity]). Qed.

Lemma heap_ok_grows h h' : grows h h' -> images h' = images h -> heap_ok h -> heap_ok h'.
Proof.
  intros G E H. unfold heap_ok in *. rewrite E, Forall_forall in *. intros x Hx. eapply obj_ok_grows; eauto.
Qed.

Lemma in_replace {A} (l : list A) p a x : In x (replace l p a) -> x = a \/ In x l.
Proof.
  revert p; induction l as [|b l IH]; intros [|p]; cbn; try tauto.
  - intros [->|Hx]; auto.
  - intros [->|Hx]; [auto|]. destruct (IH p Hx); auto.
Qed.

Lemma handed_ok im h r : all_ok (im, h) -> heap_ok (handed r im h).
Proof.
  intros [O1 O2]. destruct r; [|exact O2..]. apply heap_ok_put. intros x Hx. apply in_app_or in Hx.
  destruct Hx as [Hx|[<-|[]]]; [|exact O1]. unfold heap_ok in O2. rewrite Forall_forall in O2. apply O2. exact Hx.
Qed.

Lemma inplace_inv W c i m : inplace W c i m -> inv m (fun _ => True).
Proof.
  destruct 1; [apply inv_subtract_dark|apply inv_correct_flat|apply inv_ifov|apply inv_demosaic|apply inv_mask].
Qed.
Lemma data_at_mosaic h i d : heap_ok h -> data_at h i d -> mosaic d.
Proof.
  intros H (im & E1 & E2). destruct (ok_data _ _ (obj_ok_at _ _ _ H E1)) as (d' & E & Hm & _). congruence.
Qed.
Lemma combine_even W f (a b r : arr R) : mosaic a -> combine_arrays W f a b = Ok r -> same_shape r a.
Proof.
  intros Ha. destruct f; cbn [combine_arrays].
  1-3: apply bmap2_even_l; exact Ha.
  apply divide_where_even. exact Ha.
Qed.
Lemma derived_inv W h c i dic m : heap_ok h -> derived W h c i dic m -> inv m (fun _ => True).
Proof.
  intros H. destruct 1 as [i dic dark flat|i b data Hb Hd|i ny nx data d Hd E|i y x mv data d Hd E
                          |i m data flags d Hd Hf E|f i j data second d Hd Hs E|i dm b].
  - apply inv_corrections.
  - apply (inv_bind _ _ _ _ (inv_lift _)). intros d E. apply inv_update.
    exact (proj1 (rebin_mosaic _ _ _ _ (data_at_mosaic _ _ _ H Hd) Hb E)).
  - apply (inv_bind _ _ _ _ (inv_set_data d (proj1 (congrid_mosaic _ _ _ _ _ E)))). intros _ _.
    apply (inv_bind _ _ _ _ inv_self). intros im _. apply (inv_bind _ _ _ _ (inv_deref _ _)). intros s _.
    apply (inv_bind _ _ _ _ (inv_lift _)). intros a _. apply (inv_bind _ _ _ _ (inv_lift _)). intros q _.
    apply (inv_bind _ _ _ _ (inv_lift _)). intros u _. apply inv_new_vector_set.
  - apply inv_update. pose proof (data_at_mosaic _ _ _ H Hd) as Hm.
    exact (mosaic_shape _ _ (shift_even _ _ _ _ _ Hm E) Hm).
  - apply inv_update. exact (proj1 (clean_shape _ _ _ _ (data_at_mosaic _ _ _ H Hf) (data_at_mosaic _ _ _ H Hd) E)).
  - apply inv_update. pose proof (data_at_mosaic _ _ _ H Hd) as Hm.
    exact (mosaic_shape _ _ (combine_even _ _ _ _ _ Hm E) Hm).
  - apply (inv_bind _ _ _ _ (inv_from_demodulator _ _)). intros s _. apply inv_assoc.
    apply (inv_bind _ _ _ _ (inv_new_vector_set _)). intros _ _. apply inv_set_demodulated.
Qed.
Lemma derived_sat W h c i dic m : derived W h c i dic m -> sat false m.
Proof.
  destruct 1 as [i dic dark flat|i b data Hb Hd|i ny nx data d Hd E|i y x mv data d Hd E
                          |i m data flags d Hd Hf E|f i j data second d Hd Hs E|i dm b].
  - apply sat_corrections.
  - apply sat_bind; [apply sat_lift|intros d]. apply sat_update.
  - apply sat_bind; [apply sat_set_data|intros _]. apply sat_bind; [apply sat_self|intros im].
    apply sat_bind; [apply sat_deref|intros s]. apply sat_bind; [apply sat_lift|intros a].
    apply sat_bind; [apply sat_lift|intros q]. apply sat_bind; [apply sat_lift|intros u]. apply sat_new_vector_set.
  - apply sat_update.
  - apply sat_update.
  - apply sat_update.
  - apply sat_bind; [apply sat_from_demodulator|intros s]. apply sat_assoc.
    apply sat_bind; [apply sat_new_vector_set|intros _]. apply sat_set_demodulated.
Qed.
Lemma inplace_sat W c i m : inplace W c i m -> sat true m.
Proof.
  destruct 1; [apply sat_subtract_dark|apply sat_correct_flat|apply sat_ifov|apply sat_demosaic|apply sat_mask].
Qed.

(** A fresh object: its first Stokes vector, or an exception with nothing kept. *)
Lemma update_blank im h d :
  nth_error (arrays h) (i_data im) = Some d -> wf d -> i_demosaiced im = false ->
  (exists r, update_stokes (im, h) = ((im, h), r) /\ forall a, r <> Ok a) \/
  (mosaic d /\ complete (i_dic im) /\ exists s, data_stokes (i_dic im) d = Ok s /\
     update_stokes (im, h) = ((with_stokes (length (vectors h)) im, add_vector s h), Ok tt)).
Proof.
  intros Ed Hw Hn.
  assert (U : update_stokes (im, h) =
    match data_stokes (i_dic im) d with
    | Ok s => ((with_stokes (length (vectors h)) im, add_vector s h), Ok tt)
    | Raise e => ((im, h), Raise e)
    | NoFuel => ((im, h), NoFuel)
    end).
  { unfold update_stokes, theo_components, data_stokes, my_data, mbind, self, deref, lift. cbn [fst snd].
    rewrite Hn. cbn [fst snd]. rewrite Ed. destruct (split_polarizations d) as [q|e|]; [|reflexivity..]. cbn [bind].
    destruct (theo_stokes (i_dic im) q); reflexivity. }
  rewrite U. destruct (data_stokes (i_dic im) d) as [s|e|] eqn:Es.
  2:{ left. exists (Raise e). split; [reflexivity|discriminate]. }
  2:{ left. exists NoFuel. split; [reflexivity|discriminate]. }
  right. unfold data_stokes in Es. destruct (split_polarizations d) as [q|e|] eqn:Eq; [|discriminate..].
  split; [exact (split_mosaic _ _ Hw Eq)|]. split; [exact (theo_complete _ _ _ Es)|]. exists s. auto.
Qed.

(** Continuing on a fresh object. *)
Lemma fresh_start h d dic (m : method unit) im' h' r :
  wf d -> heap_ok h ->
  mbind update_stokes (fun _ => m) (blank h d dic, room h d) = ((im', h'), r) ->
  (im' = blank h d dic /\ h' = room h d /\ forall a, r <> Ok a) \/
  (mosaic d /\ exists s, data_stokes dic d = Ok s /\
     let im1 := with_stokes (length (vectors h)) (blank h d dic) in
     let h1 := add_vector s (room h d) in
     all_ok (im1, h1) /\ m (im1, h1) = ((im', h'), r)).
Proof.
  intros Hw Hok E.
  destruct (update_blank (blank h d dic) (room h d) d) as [(r1 & E1 & Hr)|(Hm & Hc & s & Es & E1)].
  - cbn. rewrite nth_error_app2, Nat.sub_diag by lia. reflexivity.
  - exact Hw.
  - reflexivity.
  - left. unfold mbind in E. rewrite E1 in E. destruct r1; [exfalso; eapply Hr; reflexivity|..];
      injection E as <- <- <-; repeat split; discriminate.
  - right. split; [exact Hm|]. exists s. split; [exact Es|]. cbv zeta.
    unfold mbind in E. rewrite E1 in E. split; [|exact E]. split; cbn [fst snd].
    + split; cbn; auto; try discriminate.
      * exists d. rewrite nth_error_app2, Nat.sub_diag by lia. cbn. auto.
      * rewrite app_length; cbn; lia.
      * rewrite app_length; cbn; lia.
    + refine (heap_ok_grows h _ _ _ Hok); [|reflexivity]. repeat split; cbn; auto using keeps_app, keeps_refl.
Qed.

Lemma number_shape W f d s : same_shape (combine_number W f d s) d.
Proof. destruct f; split; reflexivity. Qed.

Lemma step_ok W h c h' r :
  heap_ok h -> (match c with Create d _ _ _ => wf d | _ => True end) -> step W h c h' r -> heap_ok h'.
Proof.
  intros Hok Hc S. destruct S as [c r Hr|d|c i m im im' h' r Hi Ei Em|c i dic m im im' h' r Hd Ei Em
    |data dic dark flat d1 h1 im' h' r Ec Em|f i s im data im' h' r Ei Ed Em
    |i angle im data s q h1 r1 im' h' r Ei Ed Es Eq Eo Em].
  - exact Hok.
  - refine (heap_ok_grows h _ _ _ Hok); [|reflexivity]. repeat split; cbn; auto using keeps_refl.
  - pose proof (inplace_inv _ _ _ _ Hi (im, h) (conj (obj_ok_at _ _ _ Hok Ei) Hok)) as Hv.
    rewrite Em in Hv. destruct Hv as ([O1 O2] & _). cbn [fst snd] in *. apply heap_ok_put. intros x Hx.
    apply in_replace in Hx. destruct Hx as [->|Hx]; [exact O1|].
    unfold heap_ok in O2. rewrite Forall_forall in O2. apply O2. exact Hx.
  - destruct (choose_grows dic h) as (G & Gi).
    assert (A : all_ok (im, snd (choose_dic dic h))).
    { split; cbn [fst snd].
      - apply (obj_ok_grows h); [exact G|]. exact (obj_ok_at _ _ _ Hok Ei).
      - exact (heap_ok_grows _ _ G Gi Hok). }
    pose proof (derived_inv _ _ _ _ _ _ Hok Hd _ A) as Hv. rewrite Em in Hv. apply handed_ok. exact (proj1 Hv).
  - destruct (choose_grows dic h) as (G & Gi). rewrite Ec in G, Gi. cbn [snd] in G, Gi.
    pose proof (heap_ok_grows _ _ G Gi Hok) as Hok1.
    destruct (fresh_start _ _ _ _ _ _ _ Hc Hok1 Em) as [(-> & -> & Hr)|(Hm & s & Es & A & Em')].
    + destruct r; [exfalso; eapply Hr; reflexivity|..]; exact (heap_ok_grows h1 _ (grows_room _ _) eq_refl Hok1).
    + cbv zeta in A, Em'. pose proof (inv_corrections W dark flat _ A) as Hv. rewrite Em' in Hv.
      apply handed_ok. exact (proj1 Hv).
  - pose proof (obj_ok_at _ _ _ Hok Ei) as Oi.
    destruct (ok_data _ _ Oi) as (d' & E' & Hm' & _).
    assert (d' = data) as -> by congruence.
    assert (Hw : wf (combine_number W f data s)).
    { destruct (number_shape W f data s) as [H1 H2]. destruct Hm' as (P1 & P2 & _). split; lia. }
    destruct (fresh_start _ _ _ _ _ _ _ Hw Hok Em) as [(-> & -> & Hr)|(Hm & st & Es & [O1 O2] & Em')].
    + destruct r; [exfalso; eapply Hr; reflexivity|..]; exact (heap_ok_grows h _ (grows_room _ _) eq_refl Hok).
    + cbv zeta in *. injection Em' as <- <- <-. apply handed_ok. split; cbn [fst snd] in *; [|exact O2].
      destruct O1 as [P1 P2 P3 P4 P5 P6]. split; cbn in *; auto.
      rewrite app_length. pose proof (ok_header _ _ Oi). lia.
  - pose proof (obj_ok_at _ _ _ Hok Ei) as Oi. destruct (ok_data _ _ Oi) as (d' & E' & Hm' & _).
    assert (d' = data) as -> by congruence.
    assert (Hm : mosaic (merge_polarizations q)).
    { exact (mosaic_shape _ _ (turned_even _ _ _ _ Hm' Es Eq) Hm'). }
    pose proof (inv_overwrite (keep_shape (turn W angle)) (i_stokes im) (im, h) (conj Oi Hok)) as Hv.
    rewrite Eo in Hv. destruct Hv as ([P1 P2] & _). cbn [fst snd] in P1, P2.
    destruct r1 as [u|e|].
    + destruct Em as (Em & ->). destruct (choose_grows None h1) as (G & Gi).
      pose proof (inv_set_data _ Hm (im, snd (choose_dic None h1))) as Hs.
      rewrite Em in Hs. apply handed_ok. apply Hs. split; cbn [fst snd].
      * exact (obj_ok_grows _ _ _ G P1).
      * exact (heap_ok_grows _ _ G Gi P2).
    + destruct Em as (-> & Hr). destruct r; [exfalso; eapply Hr; reflexivity|exact P2..].
    + destruct Em as (-> & Hr). destruct r; [exfalso; eapply Hr; reflexivity|exact P2..].
Qed.

Lemma run_app (hist : history) e h : run_history (hist ++ [e]) h = fst (exec (fst e) (snd e) (run_history hist h)).
Proof. unfold run_history. rewrite fold_left_app. reflexivity. Qed.

(** Induction over histories. *)
Lemma history_ind (P : heap -> Prop) :
  P empty_heap ->
  (forall W c h h' r, heap_ok h -> P h -> (match c with Create d _ _ _ => wf d | _ => True end) ->
     step W h c h' r -> P h') ->
  forall hist h, reached hist h -> P h.
Proof.
  intros H0 Hs hist h (Hf & ->).
  assert (G : heap_ok (run_history hist empty_heap) /\ P (run_history hist empty_heap)); [|exact (proj2 G)].
  induction hist as [|[W c] hist IH] using rev_ind; [split; [constructor|exact H0]|].
  apply Forall_app in Hf. destruct Hf as (Hf & Hc). apply Forall_inv in Hc. cbn [snd] in Hc.
  destruct (IH Hf) as (I1 & I2). rewrite run_app. cbn [fst snd].
  destruct (exec W c (run_history hist empty_heap)) as [h' r] eqn:E. apply exec_step in E. cbn [fst].
  split; [exact (step_ok _ _ _ _ _ I1 Hc E)|exact (Hs _ _ _ _ _ I1 I2 Hc E)].
Qed.
Lemma reached_ok hist h : reached hist h -> heap_ok h.
Proof. apply history_ind; [constructor|]. intros. eapply step_ok; eassumption. Qed.
