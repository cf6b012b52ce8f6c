(** The heap of images: angle dictionaries, demosaiced images, hot pixels, counterexamples. *)
From Coq Require Import Reals Lra ZifyBool.
From Verif Require Import Base.Base Base.BaseFacts Base.Num Base.Bcast Model.Demosaic Model.Rebin Model.Shift
  Model.Ifov Model.Stokes Model.Utils Model.Roi Model.Demodulate Model.ImageObj Spec.MosaicSpec
  Spec.StokesSpec Spec.ImageSpec Proofs.DemosaicFacts Proofs.MosaicFacts Proofs.StokesFacts
  Proofs.ObjFacts Proofs.ObjInv Proofs.ObjExec Proofs.ObjViews.

(** ** C59, C62: angle dictionaries *)

Lemma step_images W h c h' r : step W h c h' r ->
  forall j im, nth_error (images h) j = Some im -> exists im', nth_error (images h') j = Some im' /\ i_dic im' = i_dic im.
Proof.
  intros S j x Ex. destruct S as [c r Hr|d|c i m im im' h' r Hi Ei Em|c i dic m im im' h' r Hd Ei Em
    |data dic dark flat d1 h1 im' h' r Ec Em|f i s im data im' h' r Ei Ed Em
    |i angle im data s q h1 r1 im' h' r Ei Ed Es Eq Eo Em].
  - eauto.
  - eauto.
  - pose proof (inplace_sat _ _ _ _ Hi _ _ _ _ _ Em) as V. cbn [put_images images].
    rewrite (ev_images _ _ _ _ _ V). destruct (Nat.eq_dec j i) as [->|Hne].
    + exists im'. rewrite replace_same by exact (lt_nth_error _ _ _ Ei). split; [reflexivity|].
      rewrite (ev_dic _ _ _ _ _ V). congruence.
    + exists x. rewrite replace_other by exact Hne. auto.
  - pose proof (derived_sat _ _ _ _ _ _ Hd _ _ _ _ _ Em) as V. destruct (choose_grows dic h) as (_ & Gi).
    pose proof (ev_images _ _ _ _ _ V) as Hi. rewrite Gi in Hi. exists x. split; [|reflexivity].
    destruct r; cbn [handed put_images images]; rewrite Hi; [apply keeps_app|..]; exact Ex.
  - destruct (choose_grows dic h) as (_ & Gi). rewrite Ec in Gi. cbn [snd] in Gi.
    assert (V : sat false (mbind update_stokes (fun _ => corrections W dark flat))).
    { apply sat_bind; [apply sat_update_stokes|intros _; apply sat_corrections]. }
    pose proof (ev_images _ _ _ _ _ (V _ _ _ _ _ Em)) as Hi. cbn [room images] in Hi. rewrite Gi in Hi.
    exists x. split; [|reflexivity].
    destruct r; cbn [handed put_images images]; rewrite Hi; [apply keeps_app|..]; exact Ex.
  - assert (Hi : images h' = images h).
    { unfold mbind in Em. destruct (update_stokes _) as [[im1 h1] r1] eqn:E1.
      pose proof (ev_images _ _ _ _ _ (sat_update_stokes false _ _ _ _ _ E1)) as H1. cbn [room images] in H1.
      destruct r1; injection Em as <- <- <-; exact H1. }
    exists x. split; [|reflexivity].
    destruct r; cbn [handed put_images images]; rewrite Hi; [apply keeps_app|..]; exact Ex.
  - destruct (overwrite_evolves _ _ _ _ _ _ Eo) as (Vo & _). exists x. split; [|reflexivity].
    destruct r1 as [u|e|].
    + destruct Em as (Em & ->). pose proof (ev_images _ _ _ _ _ (sat_set_data false _ _ _ _ _ _ Em)) as Hi.
      destruct (choose_grows None h1) as (_ & Gi). rewrite Gi, (ev_images _ _ _ _ _ Vo) in Hi.
      cbn [handed put_images images]. rewrite Hi. apply keeps_app. exact Ex.
    + destruct Em as (-> & Hr). destruct r; [exfalso; eapply Hr; reflexivity|..];
        cbn [handed]; rewrite (ev_images _ _ _ _ _ Vo); exact Ex.
    + destruct Em as (-> & Hr). destruct r; [exfalso; eapply Hr; reflexivity|..];
        cbn [handed]; rewrite (ev_images _ _ _ _ _ Vo); exact Ex.
Qed.

Lemma arrays_exist_app a b : arrays_exist (a ++ b) <-> arrays_exist a /\ arrays_exist b.
Proof. apply Forall_app. Qed.
Lemma reached_app hist h more : reached hist h -> arrays_exist more -> reached (hist ++ more) (run_history more h).
Proof.
  intros (Hf & ->) Hm. split; [apply arrays_exist_app; auto|]. unfold run_history. rewrite fold_left_app. reflexivity.
Qed.

Lemma c59_stays hist h more j v :
  reached hist h -> arrays_exist more -> view_of h j = Some v ->
  exists u, view_of (run_history more h) j = Some u /\ v_dic u = v_dic v.
Proof.
  intros Hr Hm Ev.
  assert (G : exists im im', nth_error (images h) j = Some im /\ look h im = Some v /\
             nth_error (images (run_history more h)) j = Some im' /\ i_dic im' = i_dic im).
  { apply view_inv in Ev. destruct Ev as (im & Ei & El). exists im. clear Hr.
    induction more as [|[W c] more IH] using rev_ind; [exists im; auto|].
    apply arrays_exist_app in Hm. destruct Hm as (Hm & _). destruct (IH Hm) as (im1 & E1 & E2 & E3 & E4).
    rewrite run_app. cbn [fst snd]. destruct (exec W c (run_history more h)) as [h' r] eqn:E. cbn [fst].
    apply exec_step in E. destruct (step_images _ _ _ _ _ E _ _ E3) as (im2 & E5 & E6).
    exists im2. repeat split; auto. congruence. }
  destruct G as (im & im' & E1 & E2 & E3 & E4).
  destruct (look_ok _ _ (obj_ok_at _ _ _ (reached_ok _ _ (reached_app _ _ _ Hr Hm)) E3)) as (u & Eu).
  exists u. split; [unfold view_of; rewrite E3; exact Eu|].
  apply look_inv in Eu. apply look_inv in E2. destruct Eu as (_ & _ & _ & _ & _ & _ & U & _), E2 as (_ & _ & _ & _ & _ & _ & V & _).
  congruence.
Qed.

Lemma evolves_default ow im h im' h' : evolves ow im h im' h' -> default_angles h' = default_angles h.
Proof. exact (ev_default _ _ _ _ _). Qed.
Definition current (h : heap) : angle_dic := match default_angles h with Some d => d | None => polarcam_angles end.
Lemma choose_current dic h : current (snd (choose_dic dic h)) = current h.
Proof. unfold choose_dic, current. destruct dic; [reflexivity|]. destruct (default_angles h) eqn:E; cbn; rewrite ?E; reflexivity. Qed.
Lemma current_same h h' : default_angles h' = default_angles h -> current h' = current h.
Proof. unfold current. intros ->. reflexivity. Qed.
Lemma handed_current r im h : current (handed r im h) = current h.
Proof. destruct r; reflexivity. Qed.

Lemma step_default W h c h' r : step W h c h' r ->
  (forall d, c <> SetDefault d) -> current h' = current h.
Proof.
  intros S Hn. destruct S as [c r Hr|d|c i m im im' h' r Hi Ei Em|c i dic m im im' h' r Hd Ei Em
    |data dic dark flat d1 h1 im' h' r Ec Em|f i s im data im' h' r Ei Ed Em
    |i angle im data s q h1 r1 im' h' r Ei Ed Es Eq Eo Em].
  - reflexivity.
  - exfalso. exact (Hn d eq_refl).
  - pose proof (inplace_sat _ _ _ _ Hi _ _ _ _ _ Em) as V.
    exact (current_same _ _ (ev_default _ _ _ _ _ V)).
  - rewrite handed_current. pose proof (derived_sat _ _ _ _ _ _ Hd _ _ _ _ _ Em) as V.
    rewrite (current_same _ _ (ev_default _ _ _ _ _ V)), choose_current. reflexivity.
  - rewrite handed_current.
    assert (V : sat false (mbind update_stokes (fun _ => corrections W dark flat))).
    { apply sat_bind; [apply sat_update_stokes|intros _; apply sat_corrections]. }
    rewrite (current_same _ _ (ev_default _ _ _ _ _ (V _ _ _ _ _ Em))).
    pose proof (choose_current dic h) as Hc. rewrite Ec in Hc. exact Hc.
  - rewrite handed_current. unfold mbind in Em. destruct (update_stokes _) as [[im1 h1] r1] eqn:E1.
    pose proof (ev_default _ _ _ _ _ (sat_update_stokes false _ _ _ _ _ E1)) as H1. cbn [room default_angles] in H1.
    apply current_same. destruct r1; injection Em as <- <- <-; exact H1.
  - rewrite handed_current. destruct (overwrite_evolves _ _ _ _ _ _ Eo) as (Vo & _).
    destruct r1 as [u|e|].
    + destruct Em as (Em & ->). rewrite (current_same _ _ (ev_default _ _ _ _ _ (sat_set_data false _ _ _ _ _ _ Em))).
      rewrite choose_current. apply current_same, (ev_default _ _ _ _ _ Vo).
    + destruct Em as (-> & Hr). apply current_same, (ev_default _ _ _ _ _ Vo).
    + destruct Em as (-> & Hr). apply current_same, (ev_default _ _ _ _ _ Vo).
Qed.
Lemma last_default_app hist e d :
  last_default (hist ++ [e]) d = match snd e with SetDefault d' => d' | _ => last_default hist d end.
Proof.
  revert d; induction hist as [|[W c] hist IH]; intros d; cbn [app last_default].
  - destruct e as [W []]; reflexivity.
  - destruct c; apply IH.
Qed.
Lemma reached_default hist h : reached hist h -> current h = last_default hist polarcam_angles.
Proof.
  intros (_ & ->). induction hist as [|[W c] hist IH] using rev_ind; [reflexivity|].
  rewrite run_app, last_default_app. cbn [fst snd].
  destruct (exec W c (run_history hist empty_heap)) as [h' r] eqn:E. cbn [fst].
  destruct c; try (apply exec_step in E; rewrite (step_default _ _ _ _ _ E) by discriminate; exact IH).
  cbn in E. injection E as <- _. reflexivity.
Qed.

Lemma handed_last r im h k u :
  name_of r h = Ok (Some k) -> view_of (handed r im h) k = Some u -> look h im = Some u.
Proof.
  destruct r as [[]|e|]; cbn [name_of on_ok handed]; [|discriminate..]. intros E. injection E as <-.
  unfold view_of. cbn [put_images images]. rewrite nth_error_app2, Nat.sub_diag by lia. cbn. auto.
Qed.
Lemma handed_look r im h k : name_of r h = Ok (Some k) -> obj_ok h im ->
  exists u, view_of (handed r im h) k = Some u /\ look h im = Some u.
Proof.
  destruct r as [[]|e|]; cbn [name_of on_ok handed]; [|discriminate..]. intros E O. injection E as <-.
  destruct (look_ok _ _ O) as (u & Eu). exists u. split; [|exact Eu].
  unfold view_of. cbn [put_images images]. rewrite nth_error_app2, Nat.sub_diag by lia. exact Eu.
Qed.

(** The objects new images are made from. *)
Lemma derived_from W h c i : new_from c = Some i -> forall k dic m, derived W h c k dic m -> k = i.
Proof. intros Hn k dic m Hd. destruct Hd; cbn in Hn; injection Hn as ->; reflexivity. Qed.

Lemma c59_created hist h W d dic dark flat h' k :
  reached hist h -> wf d -> exec W (Create d dic dark flat) h = (h', Ok (Some k)) ->
  view_of h k = None /\
  exists u, view_of h' k = Some u /\
    v_dic u = match dic with Some a => a | None => last_default hist polarcam_angles end.
Proof.
  intros Hr Hw E. rewrite <- (reached_default _ _ Hr). pose proof (reached_ok _ _ Hr) as Hok.
  apply exec_step in E. inversion E as [? ? Hf|?|c0 ? ? ? ? ? ? Hi|c0 ? ? ? ? ? ? ? Hd| | | ]; subst.
  - exfalso. eapply Hf. reflexivity.
  - inversion Hi.
  - inversion Hd.
  - match goal with H : choose_dic dic h = _ |- _ => rename H into Ec end.
    match goal with H : mbind update_stokes _ _ = _ |- _ => rename H into Em end.
    match goal with H : name_of _ _ = _ |- _ => rename H into Ek end.
    destruct (choose_grows dic h) as (G & Gi). rewrite Ec in G, Gi. cbn [snd] in G, Gi.
    pose proof (heap_ok_grows _ _ G Gi Hok) as Hok1.
    destruct (fresh_start _ _ _ _ _ _ _ Hw Hok1 Em) as [(-> & -> & Hf)|(Hm & s & Es & A & Em')].
    { exfalso. destruct r; [eapply Hf; reflexivity|discriminate..]. }
    cbv zeta in A, Em'. pose proof (inv_corrections W dark flat _ A) as Hv. rewrite Em' in Hv.
    pose proof (sat_corrections false W dark flat _ _ _ _ _ Em') as V.
    split.
    + destruct r as [[]|e|]; [|discriminate..]. cbn in Ek. injection Ek as <-. unfold view_of.
      rewrite (ev_images _ _ _ _ _ V). cbn [add_vector room images]. rewrite Gi.
      destruct (nth_error (images h) (length (images h))) eqn:En; [|reflexivity].
      apply lt_nth_error in En. lia.
    + destruct (handed_look _ _ _ _ Ek (proj1 (proj1 Hv))) as (u & Eu & El). exists u. split; [exact Eu|].
      cbn [fst snd] in El. apply look_inv in El. destruct El as (_ & _ & _ & _ & _ & _ & D & _).
      rewrite D, (ev_dic _ _ _ _ _ V). cbn. unfold choose_dic in Ec. unfold current.
      destruct dic; [injection Ec as -> _; reflexivity|].
      destruct (default_angles h); injection Ec as -> _; reflexivity.
Qed.

(** What a call on image [i] that returns a new image gives. *)
Lemma c59_derived hist h W c i v h' k :
  reached hist h -> new_from c = Some i -> view_of h i = Some v -> exec W c h = (h', Ok (Some k)) ->
  view_of h k = None /\ exists u, view_of h' k = Some u /\ v_dic u = v_dic v.
Proof.
  intros Hr Hn Ev E. pose proof (reached_ok _ _ Hr) as Hok. apply view_inv in Ev. destruct Ev as (x & Ex & El).
  apply look_inv in El. destruct El as (_ & _ & _ & _ & _ & _ & Dv & _).
  apply exec_step in E.
  assert (Hnew : forall h1 (im1 : image), heap_ok (handed (Ok tt) im1 h1) -> images h1 = images h ->
      i_dic im1 = i_dic x -> name_of (Ok tt) h1 = Ok (Some k) ->
      view_of h k = None /\ exists u, view_of (handed (Ok tt) im1 h1) k = Some u /\ v_dic u = v_dic v).
  { intros h1 im1 Hk1 Hi Hd Ek. cbn in Ek. injection Ek as <-. split.
    - unfold view_of. rewrite Hi. destruct (nth_error (images h) (length (images h))) eqn:En; [|reflexivity].
      apply lt_nth_error in En. lia.
    - assert (O : obj_ok h1 im1).
      { apply (obj_ok_images h1 (images h1 ++ [im1])). unfold heap_ok in Hk1. rewrite Forall_forall in Hk1.
        apply Hk1. cbn. apply in_or_app. right. left. reflexivity. }
      destruct (handed_look (Ok tt) im1 h1 _ eq_refl O) as (u & Eu & El). exists u. split; [exact Eu|].
      apply look_inv in El. destruct El as (_ & _ & _ & _ & _ & _ & D & _). congruence. }
  assert (Hok' : heap_ok h').
  { refine (step_ok _ _ _ _ _ Hok _ E). destruct c; try exact I. discriminate Hn. }
  inversion E as [c0 r Hf|d|c0 i0 m im im' h0 r Hi Ei Em|c0 i0 dic m im im' h0 r Hd Ei Em
    |data dic dark flat d1 h1 im' h0 r Ec Em|f i0 s im data im' h0 r Ei Ed Em
    |i0 angle im data s q h1 r1 im' h0 r Ei Ed Es Eq Eo Em]; subst.
  - exfalso. eapply Hf. reflexivity.
  - destruct Hi; discriminate Hn.
  - pose proof (derived_from _ _ _ _ Hn _ _ _ Hd) as ->. assert (im = x) as -> by congruence.
    destruct r as [[]|e|]; [|discriminate..].
    pose proof (derived_sat _ _ _ _ _ _ Hd _ _ _ _ _ Em) as V. apply Hnew; auto.
    + rewrite (ev_images _ _ _ _ _ V). apply choose_grows.
    + exact (ev_dic _ _ _ _ _ V).
  - discriminate Hn.
  - cbn in Hn. injection Hn as ->. assert (im = x) as -> by congruence.
    destruct r as [[]|e|]; [|discriminate..].
    destruct (ok_data _ _ (obj_ok_at _ _ _ Hok Ex)) as (d' & E' & Hm' & _). assert (d' = data) as -> by congruence.
    assert (Hw : wf (combine_number W f data s)).
    { destruct (number_shape W f data s) as [N1 N2]. destruct Hm' as (P1 & P2 & _). split; lia. }
    destruct (fresh_start _ _ _ _ _ _ _ Hw Hok Em) as [(_ & _ & Hf)|(Hm & st & Es & A & Em')].
    { exfalso. eapply Hf. reflexivity. }
    cbv zeta in *. injection Em' as <- <-. apply Hnew; auto.
  - cbn in Hn. injection Hn as ->. assert (im = x) as -> by congruence.
    destruct r as [[]|e|]; [|discriminate..].
    destruct (overwrite_evolves _ _ _ _ _ _ Eo) as (Vo & _).
    destruct r1 as [u|e|].
    2,3: exfalso; destruct Em as (_ & Hf); eapply Hf; reflexivity.
    destruct Em as (Em & _). pose proof (sat_set_data false _ _ _ _ _ _ Em) as V. apply Hnew; auto.
    + rewrite (ev_images _ _ _ _ _ V). destruct (choose_grows None h1) as (_ & ->). exact (ev_images _ _ _ _ _ Vo).
    + exact (ev_dic _ _ _ _ _ V).
Qed.

Lemma look_choose dic h im : look (snd (choose_dic dic h)) im = look h im.
Proof. unfold choose_dic. destruct dic; [|destruct (default_angles h)]; reflexivity. Qed.

(** A copy is the source, whatever dictionary was asked for. *)
Lemma c62_ignored W h i v dic :
  view_of h i = Some v ->
  exists h' k, exec W (CopyOf i dic None None) h = (h', Ok (Some k)) /\ view_of h' k = Some v.
Proof.
  intros Ev. apply view_inv in Ev. destruct Ev as (im & Ei & El). cbn [exec]. rewrite Ei.
  unfold copy_of. pose proof (look_choose dic h im) as Hl. destruct (choose_grows dic h) as (_ & Gi).
  destruct (choose_dic dic h) as [d1 h1] eqn:Ec. cbn [snd] in Hl, Gi.
  exists (put_images (images h1 ++ [im]) h1), (length (images h1)). split; [reflexivity|].
  unfold view_of. cbn [put_images images]. rewrite nth_error_app2, Nat.sub_diag by lia. cbn [nth_error].
  rewrite <- El, <- Hl. reflexivity.
Qed.

(** ** New data and the Stokes vector of it *)

Definition with_data (p : nat) (d : arr R) (im : image) : image :=
  mkimage p (rows d) (cols d) (i_header im) (i_stokes im) (i_demos im)
    (i_dic im) (i_demosaiced im) (i_demodulated im) (i_dark im) (i_flat im).
Definition after_data (d : arr R) (im : image) (h : heap) : heap :=
  mkheap (arrays h ++ [d]) (replace (headers h) (i_header im) (mkheader (cols d) (rows d))) (vectors h) (quads h)
    (images h) (default_angles h).
Lemma set_data_is d im h : set_data d (im, h) = ((with_data (length (arrays h)) d im, after_data d im h), Ok tt).
Proof. reflexivity. Qed.
Lemma after_ok d im h : mosaic d -> all_ok (im, h) -> all_ok (with_data (length (arrays h)) d im, after_data d im h).
Proof. intros Hm A. exact (proj1 (inv_set_data d Hm (im, h) A)). Qed.
Lemma update_data_is d im h : mosaic d -> all_ok (im, h) ->
  exists q s, source_quad (after_data d im h) (with_data (length (arrays h)) d im) q /\
    theo_stokes (i_dic im) q = Ok s /\
    update_data_and_stokes d (im, h) =
      ((with_stokes (length (vectors h)) (with_data (length (arrays h)) d im), add_vector s (after_data d im h)), Ok tt).
Proof.
  intros Hm A. pose proof (after_ok d im h Hm A) as [O _]. cbn [fst snd] in O.
  destruct (update_ok _ _ O) as (q & s & Hs & Es & E). exists q, s. split; [exact Hs|]. split; [exact Es|].
  unfold update_data_and_stokes. unfold mbind. rewrite set_data_is. exact E.
Qed.

(** ** C58: demosaiced images *)

Definition from_quad (h : heap) (im : image) (q : quad R) (S : stokes R) : Prop :=
  i_demosaiced im = true /\ (exists p, i_demos im = Some p /\ nth_error (quads h) p = Some q) /\
  theo_stokes (i_dic im) q = Ok S.
(** After a method that succeeds the vector is that of the demosaiced images. *)
Definition stale {A} (q : quad R) (S : stokes R) (m : method A) : Prop :=
  forall im h im' h' a, all_ok (im, h) -> from_quad h im q S -> m (im, h) = ((im', h'), Ok a) ->
    from_quad h' im' q S /\ nth_error (vectors h') (i_stokes im') = Some S.
Definition quiet {A} (q : quad R) (S : stokes R) (m : method A) (P : A -> Prop) : Prop :=
  forall im h im' h' a, all_ok (im, h) -> from_quad h im q S -> m (im, h) = ((im', h'), Ok a) ->
    all_ok (im', h') /\ from_quad h' im' q S /\ P a.

Lemma stale_bind {A B} q S (m : method A) P (k : A -> method B) :
  quiet q S m P -> (forall a, P a -> stale q S (k a)) -> stale q S (mbind m k).
Proof.
  intros Hm Hk im h im' h' b A0 F E. unfold mbind in E. destruct (m (im, h)) as [[im1 h1] r1] eqn:Em.
  destruct r1 as [a|e|]; [|discriminate..]. destruct (Hm _ _ _ _ _ A0 F Em) as (A1 & F1 & HP).
  exact (Hk a HP _ _ _ _ _ A1 F1 E).
Qed.
Lemma quiet_read {A} q S (m : method A) P : (forall st, fst (m st) = st) -> inv m P -> quiet q S m P.
Proof.
  intros Hr Hi im h im' h' a A0 F E. specialize (Hr (im, h)). specialize (Hi (im, h) A0). rewrite E in Hr, Hi.
  cbn [fst] in Hr. injection Hr as -> ->. destruct Hi as (H1 & H2). auto.
Qed.
Lemma quiet_set_data q S d : mosaic d -> quiet q S (set_data d) (fun _ => True).
Proof.
  intros Hm im h im' h' a A0 (F1 & (p & F2 & F3) & F4) E. rewrite set_data_is in E. injection E as <- <- _.
  split; [exact (after_ok _ _ _ Hm A0)|]. split; [|exact I]. split; [exact F1|]. split; [|exact F4]. exists p. auto.
Qed.
Lemma update_from_quad q S im h : all_ok (im, h) -> from_quad h im q S ->
  update_stokes (im, h) = ((with_stokes (length (vectors h)) im, add_vector S h), Ok tt).
Proof.
  intros [O _] (F1 & (p & F2 & F3) & F4). destruct (update_ok _ _ O) as (q' & s & Hs & Es & E).
  unfold source_quad in Hs. cbn [fst snd] in *. rewrite F1 in Hs. destruct Hs as (p' & G1 & G2).
  assert (q' = q) as -> by congruence. assert (s = S) as -> by congruence. exact E.
Qed.
Lemma stale_update q S : stale q S update_stokes.
Proof.
  intros im h im' h' a A0 F E. rewrite (update_from_quad q S im h A0 F) in E. injection E as <- <- _. split; [exact F|].
  cbn. rewrite nth_error_app2, Nat.sub_diag by lia. reflexivity.
Qed.
Lemma stale_update_then {A} q S (k : method A) :
  (forall im h im' h' a, k (im, h) = ((im', h'), Ok a) -> h' = h /\ i_stokes im' = i_stokes im /\
     i_demosaiced im' = i_demosaiced im /\ i_demos im' = i_demos im /\ i_dic im' = i_dic im) ->
  stale q S (mbind update_stokes (fun _ => k)).
Proof.
  intros Hk im h im' h' a A0 F E. unfold mbind in E.
  rewrite (update_from_quad q S im h A0 F) in E. destruct (Hk _ _ _ _ _ E) as (-> & K1 & K2 & K3 & K4).
  destruct F as (F1 & (p & F2 & F3) & F4). split.
  - split; [rewrite K2; exact F1|]. split; [exists p; rewrite K3; auto|rewrite K4; exact F4].
  - rewrite K1. cbn. rewrite nth_error_app2, Nat.sub_diag by lia. reflexivity.
Qed.
Lemma stale_data q S d : mosaic d -> stale q S (update_data_and_stokes d).
Proof. intros Hm. apply (stale_bind _ _ _ _ _ (quiet_set_data q S d Hm)). intros _ _. apply stale_update. Qed.

Lemma stale_dark q S j : stale q S (subtract_dark j).
Proof.
  apply (stale_bind _ _ _ _ _ (quiet_read _ _ _ _ reads_my_data inv_my_data)). intros d Hd.
  apply (stale_bind _ _ _ _ _ (quiet_read _ _ _ _ (reads_data_of j) (inv_data_of j))). intros e He.
  apply (stale_bind _ _ _ _ _ (quiet_read _ _ _ _ (reads_lift _) (inv_lift _))). intros f Hf.
  pose proof (mosaic_shape f d (bmap2_even_l _ _ _ _ Hd Hf) Hd) as Hm.
  apply (stale_bind _ _ _ _ _ (quiet_set_data q S f Hm)). intros _ _.
  apply (stale_bind _ _ _ _ _ (quiet_set_data q S _ (mosaic_amap _ _ Hm))). intros _ _.
  apply stale_update_then. intros im h im' h' a E. injection E as <- <- _. auto 6.
Qed.
Lemma stale_flat q S W j : stale q S (correct_flat W j).
Proof.
  apply (stale_bind _ _ _ _ _ (quiet_read _ _ _ _ (reads_data_of j) (inv_data_of j))). intros e He.
  apply (stale_bind _ _ _ _ _ (quiet_read _ _ _ _ reads_my_data inv_my_data)). intros d Hd.
  apply (stale_bind _ _ _ _ _ (quiet_read _ _ _ _ (reads_lift _) (inv_lift _))). intros f Hf.
  pose proof (mosaic_shape f d (divide_where_even _ _ _ _ Hd Hf) Hd) as Hm.
  apply (stale_bind _ _ _ _ _ (quiet_set_data q S f Hm)). intros _ _.
  apply stale_update_then. intros im h im' h' a E. injection E as <- <- _. auto 6.
Qed.
Lemma stale_ifov q S : stale q S correct_ifov.
Proof.
  intros im h im' h' a A0 F E. destruct (my_data_is (im, h) A0) as (d & Ed & E1 & Hm & H1 & H2).
  unfold correct_ifov in E. unfold mbind at 1 in E. rewrite Ed in E. unfold mbind at 1, self at 1 in E.
  cbn [fst] in *. unfold mbind, lift in E.
  destruct (ifov_jitcorrect d (i_height im) (i_width im)) as [f|e|] eqn:Ef; [|discriminate..].
  refine (stale_data q S f _ _ _ _ _ _ A0 F E).
  exact (mosaic_shape f d (ifov_even _ _ _ _ Hm H1 H2 Ef) Hm).
Qed.

Lemma c58_stale hist h i v :
  reached hist h -> view_of h i = Some v -> v_demosaiced v = true ->
  exists q S, v_quad v = Some q /\ theo_stokes (v_dic v) q = Ok S /\
    forall W c h' k u, corrects c i -> exec W c h = (h', Ok (Some k)) -> view_of h' k = Some u ->
      v_vector u = S /\ v_quad u = Some q /\ v_demosaiced u = true.
Proof.
  intros Hr Ev Hd. pose proof (reached_ok _ _ Hr) as Hok. apply view_inv in Ev. destruct Ev as (x & Ex & El).
  pose proof (obj_ok_at _ _ _ Hok Ex) as Ox. apply look_inv in El.
  destruct El as (L1 & L2 & L3 & L4 & L5 & L6 & L7 & L8 & _). rewrite Hd in L8. symmetry in L8.
  pose proof (ok_demos _ _ Ox L8) as Hne. destruct (i_demos x) as [p|] eqn:Ep; [|congruence].
  destruct L4 as (q & Q1 & Q2). destruct (ok_dic _ _ Ox q) as (S & Es). exists q, S.
  split; [exact Q2|]. split; [rewrite L7; exact Es|]. intros W c h' k u Hc E Eu.
  assert (F0 : from_quad h x q S) by (split; [exact L8|]; split; [exists p; auto|exact Es]).
  assert (Hend : forall (im' : image) (h1 : heap), from_quad h1 im' q S -> nth_error (vectors h1) (i_stokes im') = Some S ->
             look h1 im' = Some u -> v_vector u = S /\ v_quad u = Some q /\ v_demosaiced u = true).
  { intros im' h1 (G1 & (p' & G2 & G3) & _) G4 El. apply look_inv in El.
    destruct El as (_ & _ & M3 & M4 & _ & _ & _ & M8 & _). rewrite G2 in M4. destruct M4 as (q' & M5 & M6).
    repeat split; congruence. }
  apply exec_step in E.
  inversion E as [c0 r Hf|d|c0 i0 m im im' h0 r Hi Ei Em|c0 i0 dic m im im' h0 r Hde Ei Em
    |data dic dark flat d1 h1 im' h0 r Ec Em|f i0 s im data im' h0 r Ei Ed Em
    |i0 angle im data s q1 h1 r1 im' h0 r Ei Ed Es1 Eq Eo Em]; subst; try contradiction.
  - exfalso. eapply Hf. reflexivity.
  - assert (Hs : i0 = i /\ stale q S m /\ k = i).
    { destruct Hi; cbn [corrects] in Hc; try contradiction; subst; (split; [reflexivity|]);
        (destruct r as [[]|e|]; [|discriminate..]);
        (match goal with H : on_ok _ _ = Ok (Some k) |- _ => cbn in H; injection H as <- end);
        (split; [apply stale_dark || apply stale_flat || apply stale_ifov|reflexivity]). }
    destruct Hs as (-> & Hs & ->). assert (im = x) as -> by congruence. destruct r as [[]|e|]; [|discriminate..].
    destruct (Hs _ _ _ _ _ (conj Ox Hok) F0 Em) as (G1 & G2). unfold view_of in Eu. cbn [put_images images] in Eu.
    rewrite replace_same in Eu.
    2:{ rewrite (ev_images _ _ _ _ _ (inplace_sat _ _ _ _ Hi _ _ _ _ _ Em)). exact (lt_nth_error _ _ _ Ex). }
    exact (Hend _ _ G1 G2 Eu).
  - destruct r as [[]|e|]; [|discriminate..].
    assert (Hs : i0 = i /\ stale q S m).
    { destruct Hde as [i1 dic dark flat|i1 b data Hb Hda|i1 ny nx data d1 Hda E1|i1 y x0 mv data d1 Hda E1
                          |i1 m data flags d1 Hda Hf E1|f i1 j data second d1 Hda Hs E1|i1 dm b];
        cbn [corrects] in Hc; try contradiction; (split; [exact Hc|]).
      - apply (stale_bind _ _ _ _ _ (quiet_read _ _ _ _ (reads_lift _) (inv_lift _))). intros d E1. apply stale_data.
        exact (proj1 (rebin_mosaic _ _ _ _ (data_at_mosaic _ _ _ Hok Hda) Hb E1)).
      - apply stale_data. pose proof (data_at_mosaic _ _ _ Hok Hda) as Hm.
        exact (mosaic_shape _ _ (shift_even _ _ _ _ _ Hm E1) Hm).
      - apply stale_data.
        exact (proj1 (clean_shape _ _ _ _ (data_at_mosaic _ _ _ Hok Hf) (data_at_mosaic _ _ _ Hok Hda) E1)).
      - apply stale_data. pose proof (data_at_mosaic _ _ _ Hok Hda) as Hm.
        exact (mosaic_shape _ _ (combine_even _ _ _ _ _ Hm E1) Hm). }
    destruct Hs as (-> & Hs). assert (im = x) as -> by congruence.
    destruct (choose_grows dic h) as ((G1 & G2 & G3 & G4) & Gi).
    assert (F1 : from_quad (snd (choose_dic dic h)) x q S).
    { destruct F0 as (T1 & (p' & T2 & T3) & T4). split; [exact T1|]. split; [exists p'; auto|exact T4]. }
    destruct (Hs _ _ _ _ _ (choose_all_ok dic h x Hok Ox) F1 Em) as (K1 & K2).
    apply (Hend im' h0 K1 K2). refine (handed_last (Ok tt) im' h0 k u _ Eu). assumption.
Qed.

Lemma c58_demosaic_again hist h i v W :
  reached hist h -> view_of h i = Some v ->
  exists h' u, exec W (DemosaicImage i "adjacent") h = (h', Ok (Some i)) /\ view_of h' i = Some u /\
    v_data u = v_data v /\ v_demosaiced u = true /\
    forall a, describes (v_dic v) a ->
      let s k := interpolated (v_data v) k in
      stokes_is (v_vector u) (rows (v_data v)) (cols (v_data v))
        (fun y x => (s 0%Z y x + s 1%Z y x + s 2%Z y x + s 3%Z y x) / 2)%R
        (fun y x => s (p0 a) y x - s (p90 a) y x)%R
        (fun y x => s (p45 a) y x - s (pm45 a) y x)%R.
Proof.
  intros Hr Ev. pose proof (reached_ok _ _ Hr) as Hok. apply view_inv in Ev. destruct Ev as (x & Ex & El).
  pose proof (obj_ok_at _ _ _ Hok Ex) as Ox. apply look_inv in El.
  destruct El as (L1 & L2 & L3 & L4 & L5 & L6 & L7 & L8 & _).
  destruct (ok_data _ _ Ox) as (d & Ed & Hm & _). assert (d = v_data v) as -> by congruence.
  destruct (demosaic_adjacent_spec (v_data v) Hm) as (q & Eq & Hq).
  set (x1 := mkimage (i_data x) (i_height x) (i_width x) (i_header x) (i_stokes x) (Some (length (quads h)))
              (i_dic x) true (i_demodulated x) (i_dark x) (i_flat x)).
  set (h1 := mkheap (arrays h) (headers h) (vectors h) (quads h ++ [q]) (images h) (default_angles h)).
  assert (O1 : obj_ok h1 x1).
  { destruct Ox as [O1 O2 O3 O4 O5 O6]. split; cbn; auto; [|discriminate].
    intros p Ep. injection Ep as <-. rewrite app_length. cbn. lia. }
  destruct (update_ok _ _ O1) as (q' & S & Hs & Es & Eu).
  unfold source_quad in Hs. cbn [x1 i_demosaiced i_demos] in Hs. destruct Hs as (p & P1 & P2).
  injection P1 as <-. cbn [h1 quads] in P2. rewrite nth_error_app2, Nat.sub_diag in P2 by lia. injection P2 as <-.
  set (x2 := with_stokes (length (vectors h1)) x1) in *. set (h2 := add_vector S h1) in *.
  assert (Em : demosaic_image "adjacent" (x, h) = ((x2, h2), Ok tt)).
  { unfold demosaic_image, my_data. unfold mbind at 1 2. unfold self at 1, deref at 1. cbn [fst snd]. rewrite Ed.
    unfold mbind at 1, lift at 1. rewrite Eq. unfold mbind at 1, new_quad at 1. unfold mbind at 1, set_demosaiced at 1, set_self at 1.
    exact Eu. }
  cbn [exec]. unfold in_place. rewrite Ex, Em.
  assert (O2 : obj_ok h2 x2).
  { destruct O1 as [O1 O2 O3 O4 O5 O6]. split; cbn in *; auto. rewrite app_length. cbn. lia. }
  destruct (look_ok _ _ O2) as (u & Elu). eexists. exists u. split; [reflexivity|].
  split.
  { unfold view_of. cbn [put_images images]. rewrite replace_same by exact (lt_nth_error _ _ _ Ex). exact Elu. }
  apply look_inv in Elu. destruct Elu as (M1 & M2 & M3 & M4 & M5 & M6 & M7 & M8 & _).
  cbn in M1, M3, M7, M8. rewrite nth_error_app2, Nat.sub_diag in M3 by lia. cbn in M3. injection M3 as M3.
  split; [congruence|]. split; [exact M8|]. intros a Ha. cbv zeta. rewrite L7 in Ha.
  destruct (theo_stokes_spec (i_dic x) a q (rows (v_data v)) (cols (v_data v)) Ha) as (S' & ES & HS).
  { intros k Hk. destruct (Hq k Hk) as (R & C & _). auto. }
  cbn [x1 i_dic] in Es. rewrite Es in ES. injection ES as <-. rewrite <- M3.
  destruct HS as (S1 & S2 & S3 & S4). split; [exact S1|]. split; [exact S2|]. split; [exact S3|].
  intros y z Hy Hz. destruct (S4 y z Hy Hz) as (T1 & T2 & T3). rewrite T1, T2, T3.
  assert (Hi : forall k, 0 <= k < 4 -> cell (qnth q k) y z = interpolated (v_data v) k y z).
  { intros k Hk. destruct (Hq k Hk) as (_ & _ & Hc). apply Hc; assumption. }
  destruct Ha as ((P0 & P45 & Pm45 & P90 & _) & _). rewrite !Hi by (assumption || lia).
  cbn. repeat split; lra.
Qed.

(** ** C72: hot pixels *)

Lemma split_families {A} (d : arr A) s : mosaic d -> split_polarizations d = Ok s ->
  s = mkquad (family_image d 0) (family_image d 1) (family_image d 2) (family_image d 3).
Proof.
  intros (H1 & H2 & H3 & H4) E. unfold split_polarizations in E.
  destruct (negb (rows d mod 2 =? 0) || negb (cols d mod 2 =? 0)); [discriminate|]. injection E as <-.
  unfold stride2, family_image. rewrite !stride2_len_even by lia. reflexivity.
Qed.
Lemma qnth_families {A} (d : arr A) k : 0 <= k < 4 ->
  qnth (mkquad (family_image d 0) (family_image d 1) (family_image d 2) (family_image d 3)) k = family_image d k.
Proof. intros Hk. assert (k = 0 \/ k = 1 \/ k = 2 \/ k = 3) as [->|[->|[->| ->]]] by lia; reflexivity. Qed.

Lemma bmap2_same_ok {A B C} (f : A -> B -> C) a b : same_shape a b -> exists r, bmap2 f a b = Ok r /\
  rows r = rows b /\ cols r = cols b /\
  forall y x, 0 <= y < rows b -> 0 <= x < cols b -> cell r y x = f (cell a y x) (cell b y x).
Proof.
  intros [H1 H2]. unfold bmap2, bdim. rewrite H1, H2, !Z.eqb_refl. eexists. split; [reflexivity|]. cbn [rows cols cell].
  split; [reflexivity|]. split; [reflexivity|]. intros y x Hy Hx. unfold bcell. rewrite H1, H2.
  destruct (rows b =? 1) eqn:E1, (cols b =? 1) eqn:E2; f_equal; f_equal; lia.
Qed.

Lemma clean_family_ok W (f a : arr R) : same_shape f a -> exists r, clean_family W f a = Ok r /\
  rows r = rows a /\ cols r = cols a /\
  forall y x, 0 <= y < rows a -> 0 <= x < cols a ->
    cell r y x = if Req_EM_T (cell f y x) 1 then median W a y x else cell a y x.
Proof.
  intros Hs. unfold clean_family.
  destruct (bmap2_same_ok (fun g (uv : R * R) => if Reqb g 1 then fst uv else snd uv) f
     (amap2 pair (mkarr (rows a) (cols a) (median W a)) a)) as (r & E & H1 & H2 & H3); [exact Hs|].
  exists r. split; [exact E|]. split; [exact H1|]. split; [exact H2|]. intros y x Hy Hx.
  rewrite H3 by assumption. cbn [amap2 cell fst snd]. unfold Reqb. destruct (Req_EM_T (cell f y x) 1); reflexivity.
Qed.

Lemma clean_data_ok W (flags data : arr R) : mosaic flags -> mosaic data -> same_shape flags data ->
  exists r, clean_data W flags data = Ok r /\ rows r = rows data /\ cols r = cols data /\
    forall y x, 0 <= y < rows data -> 0 <= x < cols data ->
      cell r y x = if Req_EM_T (cell flags y x) 1 then median W (family_image data (family y x)) (y / 2) (x / 2)
                   else cell data y x.
Proof.
  intros Hf Hd [S1 S2]. destruct (split_ok_mosaic data Hd) as (s & Es). destruct (split_ok_mosaic flags Hf) as (f & Ef).
  pose proof (split_families _ _ Hd Es) as ->. pose proof (split_families _ _ Hf Ef) as ->.
  unfold clean_data. rewrite Es, Ef. cbn [bind q0 q1 q2 q3].
  assert (Hk : forall k, same_shape (family_image flags k) (family_image data k)).
  { intros k. split; cbn; congruence. }
  destruct (clean_family_ok W _ _ (Hk 0)) as (a & Ea & Ha). destruct (clean_family_ok W _ _ (Hk 1)) as (b & Eb & Hb).
  destruct (clean_family_ok W _ _ (Hk 2)) as (c & Ec & Hc). destruct (clean_family_ok W _ _ (Hk 3)) as (e & Ee & He).
  rewrite Ea, Eb, Ec, Ee. cbn [bind]. eexists. split; [reflexivity|].
  destruct Hd as (D1 & D2 & D3 & D4). rewrite merge_rows, merge_cols. cbn [q0].
  destruct Ha as (A1 & A2 & A3). rewrite A1, A2. cbn [family_image rows cols].
  split; [lia|]. split; [lia|]. intros y x Hy Hx. rewrite merge_cell. fold (family y x).
  assert (Hfam : 0 <= family y x < 4) by (unfold family; lia).
  assert (Hcell : cell (qnth (mkquad a b c e) (family y x)) (y / 2) (x / 2) =
     if Req_EM_T (cell (family_image flags (family y x)) (y / 2) (x / 2)) 1
     then median W (family_image data (family y x)) (y / 2) (x / 2)
     else cell (family_image data (family y x)) (y / 2) (x / 2)).
  { destruct Hb as (_ & _ & B3), Hc as (_ & _ & C3), He as (_ & _ & E3). cbn [family_image rows cols] in A3, B3, C3, E3.
    assert (0 <= y / 2 < rows data / 2) by lia. assert (0 <= x / 2 < cols data / 2) by lia.
    assert (family y x = 0 \/ family y x = 1 \/ family y x = 2 \/ family y x = 3) as [->|[->|[->| ->]]] by lia;
      cbn [qnth q0 q1 q2 q3 Z.eqb Pos.eqb]; [apply A3|apply B3|apply C3|apply E3]; assumption. }
  rewrite Hcell.
  assert (Hs : forall (d : arr R), cell (family_image d (family y x)) (y / 2) (x / 2) = cell d y x).
  { intros d. cbn [family_image cell]. unfold sample, family. f_equal; lia. }
  rewrite !Hs. reflexivity.
Qed.

Lemma c72_clean hist h W i m v w :
  reached hist h -> view_of h i = Some v -> view_of h m = Some w -> same_shape (v_data w) (v_data v) ->
  exists h' k u, exec W (CleanHot i m) h = (h', Ok (Some k)) /\ view_of h' k = Some u /\
    rows (v_data u) = rows (v_data v) /\ cols (v_data u) = cols (v_data v) /\
    forall y x, 0 <= y < rows (v_data v) -> 0 <= x < cols (v_data v) ->
      (cell (v_data w) y x = 1%R ->
         cell (v_data u) y x = median W (family_image (v_data v) (family y x)) (y / 2) (x / 2)) /\
      (cell (v_data w) y x <> 1%R -> cell (v_data u) y x = cell (v_data v) y x).
Proof.
  intros Hr Ev Ew Hs. pose proof (reached_ok _ _ Hr) as Hok.
  apply view_inv in Ev. destruct Ev as (x & Ex & El). apply view_inv in Ew. destruct Ew as (z & Ez & Elz).
  pose proof (obj_ok_at _ _ _ Hok Ex) as Ox. pose proof (obj_ok_at _ _ _ Hok Ez) as Oz.
  apply look_inv in El. destruct El as (L1 & _). apply look_inv in Elz. destruct Elz as (M1 & _).
  destruct (ok_data _ _ Ox) as (d & Ed & Hm & _). assert (d = v_data v) as -> by congruence.
  destruct (ok_data _ _ Oz) as (d & Ed' & Hm' & _). assert (d = v_data w) as -> by congruence.
  destruct (clean_data_ok W _ _ Hm' Hm Hs) as (r & Er & R1 & R2 & R3).
  assert (Hmr : mosaic r) by (apply (mosaic_shape r (v_data v)); [split; assumption|exact Hm]).
  pose proof (choose_all_ok None h x Hok Ox) as A0.
  destruct (update_data_is r x (snd (choose_dic None h)) Hmr A0) as (q & S & Hq & ES & EU).
  cbn [exec]. unfold on_copy. rewrite Ex. unfold my_data, data_of, mbind, self, deref, lift. cbn [fst snd].
  rewrite Ed, Ez, Ed', Er. unfold copy_of. destruct (choose_dic None h) as [d1 h1] eqn:Ec. cbn [snd] in *.
  rewrite (returning_is _ _ _ _ _ EU). set (x2 := with_stokes _ _) in *. set (h2 := add_vector _ _) in *.
  assert (A2 : all_ok (x2, h2)).
  { pose proof (inv_update r Hmr _ A0) as Hi. rewrite EU in Hi. exact (proj1 Hi). }
  destruct (handed_look (Ok tt) x2 h2 _ eq_refl (proj1 A2)) as (u & Eu & Elu).
  exists (handed (Ok tt) x2 h2), (length (images h2)), u. split; [reflexivity|]. split; [exact Eu|].
  apply look_inv in Elu. destruct Elu as (U1 & _). cbn in U1. rewrite nth_error_app2, Nat.sub_diag in U1 by lia.
  cbn in U1. injection U1 as <-. split; [exact R1|]. split; [exact R2|]. intros y c Hy Hc.
  rewrite R3 by assumption. destruct (Req_EM_T (cell (v_data w) y c) 1); split; intros; congruence.
Qed.

(** ** Binning an image changes the header of the image itself *)

Lemma c56_rebin_header hist h W i b v h' k :
  reached hist h -> view_of h i = Some v -> exec W (Rebin i b) h = (h', Ok (Some k)) ->
  exists u n, view_of h' i = Some u /\ view_of h' k = Some n /\
    v_data u = v_data v /\ v_vector u = v_vector v /\
    rows (v_data n) = 2 * (rows (v_data v) / (2 * b)) /\ cols (v_data n) = 2 * (cols (v_data v) / (2 * b)) /\
    v_header u = v_header n /\ header_fits n.
Proof.
  intros Hr Ev E. pose proof (reached_ok _ _ Hr) as Hok. apply view_inv in Ev. destruct Ev as (x & Ex & El).
  pose proof (obj_ok_at _ _ _ Hok Ex) as Ox. pose proof El as El0. apply look_inv in El. destruct El as (L1 & _).
  cbn [exec] in E. destruct (b <=? 0) eqn:Eb; [discriminate|]. unfold on_copy in E. rewrite Ex in E.
  unfold my_data, mbind, self, deref in E. cbn [fst snd] in E. rewrite L1 in E.
  unfold copy_of in E. pose proof (choose_all_ok None h x Hok Ox) as A0.
  destruct (choose_grows None h) as ((G1 & G2 & G3 & G4) & Gi).
  destruct (choose_dic None h) as [d1 h1] eqn:Ec. cbn [snd] in *.
  destruct (ok_data _ _ Ox) as (d & Ed & Hm & _). assert (d = v_data v) as -> by congruence.
  unfold returning, lift in E.
  destruct (micropolarray_rebin (fuel W) (v_data v) b) as [r|e|] eqn:Er; [|discriminate..].
  destruct (rebin_mosaic (fuel W) (v_data v) r b Hm ltac:(lia) Er) as (Hmr & R1 & R2).
  destruct (update_data_is r x h1 Hmr A0) as (q & S & Hq & ES & EU). rewrite EU in E.
  set (x2 := with_stokes _ _) in *. set (h2 := add_vector _ _) in *. injection E as <- <-.
  assert (A2 : all_ok (x2, h2)).
  { pose proof (inv_update r Hmr _ A0) as Hi. rewrite EU in Hi. exact (proj1 Hi). }
  destruct (look_ok _ _ (proj1 A2)) as (n & En). cbn [fst snd] in En.
  destruct (look_other_header h h2 x v) as (hd & Elu); [| | | |exact El0|].
  { exact (keeps_trans _ _ _ G1 (keeps_app _ _)). }
  { exact (keeps_trans _ _ _ G3 (keeps_app _ _)). }
  { exact G4. }
  { cbn. rewrite replace_length. unfold choose_dic in Ec. destruct (default_angles h); injection Ec as _ <-; reflexivity. }
  eexists. exists n. split.
  { unfold view_of. cbn [put_images images h2 add_vector after_data]. rewrite Gi, (keeps_app _ _ _ _ Ex). exact Elu. }
  split.
  { unfold view_of. cbn [put_images images h2 add_vector after_data]. rewrite nth_error_app2, Nat.sub_diag by lia. exact En. }
  cbn [v_data v_vector v_header]. split; [reflexivity|]. split; [reflexivity|].
  apply look_inv in En. destruct En as (N1 & N2 & _). apply look_inv in Elu. destruct Elu as (_ & U2 & _).
  cbn in N1, N2, U2. rewrite nth_error_app2, Nat.sub_diag in N1 by lia. cbn in N1. injection N1 as N1. rewrite <- N1.
  split; [exact R1|]. split; [exact R2|]. split; [congruence|].
  rewrite replace_same in N2. 2:{ apply keeps_len in G2. pose proof (ok_header _ _ Ox). lia. }
  injection N2 as N2. unfold header_fits. rewrite <- N1, <- N2. split; reflexivity.
Qed.

(** Choosing a default makes it the default. *)
Lemma c59_remembered hist h W d dark flat h' k :
  reached hist h -> exec W (Create d None dark flat) h = (h', Ok k) ->
  default_angles h' = Some (last_default hist polarcam_angles).
Proof.
  intros Hr E. rewrite <- (reached_default _ _ Hr). unfold exec, create, returning in E. unfold choose_dic in E.
  assert (V : forall st h1 im1 h2 r, mbind update_stokes (fun _ => corrections W dark flat) (st, h1) = ((im1, h2), r) ->
            default_angles h2 = default_angles h1).
  { intros st h1 im1 h2 r Em. assert (S : sat false (mbind update_stokes (fun _ => corrections W dark flat))).
    { apply sat_bind; [apply sat_update_stokes|intros _; apply sat_corrections]. }
    exact (ev_default _ _ _ _ _ (S _ _ _ _ _ Em)). }
  unfold current.
  destruct (default_angles h) as [a|] eqn:Ed; unfold mbind at 1 2, new_array, new_header in E;
    cbn [set_default_dic arrays headers vectors quads images default_angles] in E;
    (match type of E with context [mbind ?m ?f ?st] => destruct (mbind m f st) as [[im1 h2] r] eqn:Em end);
    apply V in Em; cbn [default_angles] in Em; rewrite ?Ed in Em;
    (destruct r; [|discriminate..]; injection E as <- _; exact Em).
Qed.
