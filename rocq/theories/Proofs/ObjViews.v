(** The heap of images: Stokes vectors that follow the data, untouched images, header sizes. *)
From Coq Require Import Reals Lra ZifyBool.
From Verif Require Import Base.Base Base.BaseFacts Base.Num Base.Bcast Model.Demosaic Model.Rebin Model.Shift
  Model.Ifov Model.Stokes Model.Utils Model.Roi Model.Demodulate Model.ImageObj Spec.MosaicSpec
  Spec.StokesSpec Spec.ImageSpec Proofs.DemosaicFacts Proofs.MosaicFacts Proofs.StokesFacts
  Proofs.ObjFacts Proofs.ObjInv Proofs.ObjExec.

(** ** C55: the Stokes vector follows the data *)

Definition fresh (h : heap) (im : image) : Prop :=
  i_demosaiced im = false /\
  exists d s, nth_error (arrays h) (i_data im) = Some d /\ nth_error (vectors h) (i_stokes im) = Some s /\
    data_stokes (i_dic im) d = Ok s.

Definition refreshes {A} (m : method A) : Prop :=
  forall im h im' h' r, all_ok (im, h) -> fresh h im -> m (im, h) = ((im', h'), r) -> fresh h' im'.
Definition renews {A} (m : method A) : Prop :=
  forall im h im' h' r, all_ok (im, h) -> i_demosaiced im = false -> m (im, h) = ((im', h'), r) -> fresh h' im'.

Lemma renews_refreshes {A} (m : method A) : renews m -> refreshes m.
Proof. intros H im h im' h' r A0 [F _] E. exact (H _ _ _ _ _ A0 F E). Qed.
Lemma refreshes_read {A B} (m : method A) P (k : A -> method B) :
  (forall st, fst (m st) = st) -> inv m P -> (forall a, P a -> refreshes (k a)) -> refreshes (mbind m k).
Proof.
  intros Hr Hi Hk im h im' h' r A0 F E. unfold mbind in E. specialize (Hr (im, h)). specialize (Hi (im, h) A0).
  destruct (m (im, h)) as [st1 r1]. cbn [fst] in Hr. subst st1. destruct Hi as (_ & HP).
  destruct r1 as [a|e|].
  - exact (Hk a (HP a eq_refl) _ _ _ _ _ A0 F E).
  - injection E as <- <- _. exact F.
  - injection E as <- <- _. exact F.
Qed.
Lemma reads_lift {A} (r : result A) st : fst (lift r st) = st.
Proof. reflexivity. Qed.
Lemma refreshes_bind {A B} (m : method A) P (k : A -> method B) :
  refreshes m -> inv m P -> (forall a, P a -> refreshes (k a)) -> refreshes (mbind m k).
Proof.
  intros Hr Hi Hk im h im' h' r A0 F E. unfold mbind in E. specialize (Hi (im, h) A0).
  destruct (m (im, h)) as [[im1 h1] r1] eqn:Em. specialize (Hr _ _ _ _ _ A0 F Em). destruct Hi as (A1 & HP).
  destruct r1 as [a|e|].
  - exact (Hk a (HP a eq_refl) _ _ _ _ _ A1 Hr E).
  - injection E as <- <- _. exact Hr.
  - injection E as <- <- _. exact Hr.
Qed.
Lemma renews_set_data {A} d (k : method A) : mosaic d -> renews k -> renews (mbind (set_data d) (fun _ => k)).
Proof.
  intros Hm Hk im h im' h' r A0 F E. unfold mbind in E. pose proof (inv_set_data d Hm (im, h) A0) as Hi.
  destruct (set_data d (im, h)) as [[im1 h1] r1] eqn:Em.
  destruct (set_data_stokes _ _ _ _ _ _ Em) as (_ & -> & _ & _ & _ & Hd).
  exact (Hk _ _ _ _ _ (proj1 Hi) (eq_trans Hd F) E).
Qed.
Lemma update_fresh im h : obj_ok h im -> i_demosaiced im = false ->
  exists im' h', update_stokes (im, h) = ((im', h'), Ok tt) /\ fresh h' im'.
Proof.
  intros O F. destruct (update_ok im h O) as (q & s & Hs & Es & E). exists (with_stokes (length (vectors h)) im), (add_vector s h).
  split; [exact E|]. unfold source_quad in Hs. rewrite F in Hs. destruct Hs as (d & Ed & Eq).
  split; [exact F|]. exists d, s. cbn. split; [exact Ed|]. split.
  - rewrite nth_error_app2, Nat.sub_diag by lia. reflexivity.
  - unfold data_stokes. rewrite Eq. exact Es.
Qed.
Lemma renews_update {A} (k : method A) : refreshes k -> renews (mbind update_stokes (fun _ => k)).
Proof.
  intros Hk im h im' h' r A0 F E. pose proof (inv_update_stokes (im, h) A0) as Hi.
  destruct (update_fresh im h (proj1 A0) F) as (im1 & h1 & E1 & F1). rewrite E1 in Hi.
  unfold mbind in E. rewrite E1 in E. exact (Hk _ _ _ _ _ (proj1 Hi) F1 E).
Qed.
Lemma renews_update_only : renews update_stokes.
Proof.
  intros im h im' h' r A0 F E. destruct (update_fresh im h (proj1 A0) F) as (im1 & h1 & E1 & F1).
  rewrite E1 in E. injection E as <- <- _. exact F1.
Qed.
Lemma refreshes_ret {A} (a : A) : refreshes (ret a).
Proof. intros im h im' h' r _ F E. injection E as <- <- _. exact F. Qed.
Lemma refreshes_flags : refreshes set_dark_flag /\ refreshes set_flat_flag.
Proof. split; intros im h im' h' r _ F E; injection E as <- <- _; exact F. Qed.
Lemma renews_data d : mosaic d -> renews (update_data_and_stokes d).
Proof. intros Hm. apply renews_set_data; [exact Hm|exact renews_update_only]. Qed.

Lemma refreshes_dark j : refreshes (subtract_dark j).
Proof.
  apply (refreshes_read _ _ _ reads_my_data inv_my_data). intros d Hd.
  apply (refreshes_read _ _ _ (reads_data_of j) (inv_data_of j)). intros e He.
  apply (refreshes_read _ _ _ (reads_lift _) (inv_lift _)). intros f Hf. apply renews_refreshes.
  assert (Hm : mosaic f) by (apply (mosaic_shape f d); [apply (bmap2_even_l _ _ _ _ Hd Hf)|exact Hd]).
  apply renews_set_data; [exact Hm|]. apply renews_set_data; [apply (mosaic_amap _ _ Hm)|].
  apply renews_update. apply refreshes_flags.
Qed.
Lemma refreshes_flat W j : refreshes (correct_flat W j).
Proof.
  apply (refreshes_read _ _ _ (reads_data_of j) (inv_data_of j)). intros e He.
  apply (refreshes_read _ _ _ reads_my_data inv_my_data). intros d Hd.
  apply (refreshes_read _ _ _ (reads_lift _) (inv_lift _)). intros f Hf. apply renews_refreshes.
  assert (Hm : mosaic f) by (apply (mosaic_shape f d); [apply (divide_where_even _ _ _ _ Hd Hf)|exact Hd]).
  apply renews_set_data; [exact Hm|]. apply renews_update. apply refreshes_flags.
Qed.
Lemma refreshes_ifov : refreshes correct_ifov.
Proof.
  intros im h im' h' r A0 F E. destruct (my_data_is (im, h) A0) as (d & Ed & E1 & Hm & H1 & H2).
  unfold correct_ifov in E. unfold mbind at 1 in E. rewrite Ed in E. unfold mbind at 1, self at 1 in E.
  cbn [fst] in *. unfold mbind, lift in E.
  destruct (ifov_jitcorrect d (i_height im) (i_width im)) as [f|e|] eqn:Ef.
  - refine (renews_data f _ _ _ _ _ _ A0 (proj1 F) E).
    apply (mosaic_shape f d); [exact (ifov_even _ _ _ _ Hm H1 H2 Ef)|exact Hm].
  - injection E as <- <- _. exact F.
  - injection E as <- <- _. exact F.
Qed.
Lemma refreshes_corrections W dark flat : refreshes (corrections W dark flat).
Proof.
  apply (refreshes_bind _ (fun _ => True)).
  - destruct dark; [apply refreshes_dark|apply refreshes_ret].
  - destruct dark; [apply inv_subtract_dark|apply inv_ret; exact I].
  - intros _ _. destruct flat; [apply refreshes_flat|apply refreshes_ret].
Qed.

Lemma inplace_refreshes W c i m : inplace W c i m -> plain_call c -> refreshes m /\ sat false m.
Proof.
  destruct 1; cbn [plain_call]; try contradiction; intros _;
    (split; [apply refreshes_dark || apply refreshes_flat || apply refreshes_ifov
            |apply sat_subtract_dark || apply sat_correct_flat || apply sat_ifov]).
Qed.
Lemma derived_refreshes W h c i dic m : heap_ok h -> derived W h c i dic m -> plain_call c -> refreshes m.
Proof.
  intros H. destruct 1 as [i dic dark flat|i b data Hb Hd|i ny nx data d Hd E|i y x mv data d Hd E
                          |i m data flags d Hd Hf E|f i j data second d Hd Hs E|i dm b];
    cbn [plain_call]; try contradiction; intros _.
  - apply refreshes_corrections.
  - apply (refreshes_read _ _ _ (reads_lift _) (inv_lift _)). intros d E.
    apply renews_refreshes, renews_data.
    exact (proj1 (rebin_mosaic _ _ _ _ (data_at_mosaic _ _ _ H Hd) Hb E)).
  - apply renews_refreshes, renews_data. pose proof (data_at_mosaic _ _ _ H Hd) as Hm.
    exact (mosaic_shape _ _ (shift_even _ _ _ _ _ Hm E) Hm).
  - apply renews_refreshes, renews_data.
    exact (proj1 (clean_shape _ _ _ _ (data_at_mosaic _ _ _ H Hf) (data_at_mosaic _ _ _ H Hd) E)).
  - apply renews_refreshes, renews_data. pose proof (data_at_mosaic _ _ _ H Hd) as Hm.
    exact (mosaic_shape _ _ (combine_even _ _ _ _ _ Hm E) Hm).
Qed.

Lemma fresh_grows h h' x : keeps (arrays h) (arrays h') -> keeps (vectors h) (vectors h') -> fresh h x -> fresh h' x.
Proof. intros G1 G2 (F & d & s & E1 & E2 & E3). split; [exact F|]. exists d, s. auto. Qed.
Lemma evolves_keeps_vectors im h im' h' : evolves false im h im' h' -> keeps (vectors h) (vectors h').
Proof. intros V p a E. destruct (ev_vectors _ _ _ _ _ V p a E) as [E'|[H _]]; [exact E'|discriminate]. Qed.
Definition all_fresh (h : heap) : Prop := Forall (fresh h) (images h).
Lemma all_fresh_grows h h' : keeps (arrays h) (arrays h') -> keeps (vectors h) (vectors h') ->
  images h' = images h -> all_fresh h -> all_fresh h'.
Proof.
  intros G1 G2 E H. unfold all_fresh in *. rewrite E, Forall_forall in *. intros x Hx. exact (fresh_grows _ _ _ G1 G2 (H x Hx)).
Qed.
Lemma all_fresh_evolves im h im' h' : evolves false im h im' h' -> all_fresh h -> all_fresh h'.
Proof.
  intros V. exact (all_fresh_grows _ _ (ev_arrays _ _ _ _ _ V) (evolves_keeps_vectors _ _ _ _ V) (ev_images _ _ _ _ _ V)).
Qed.
Lemma fresh_at h i im : all_fresh h -> nth_error (images h) i = Some im -> fresh h im.
Proof. unfold all_fresh. rewrite Forall_forall. intros H E. apply H. exact (nth_error_In _ _ E). Qed.
Lemma handed_fresh r im h : fresh h im -> all_fresh h -> all_fresh (handed r im h).
Proof.
  intros F H. destruct r; [|exact H..]. unfold all_fresh in *. cbn [handed put_images images].
  rewrite Forall_forall in *. intros x Hx. apply in_app_or in Hx. destruct Hx as [Hx|[<-|[]]]; [exact (H x Hx)|exact F].
Qed.
Lemma choose_all_ok dic h im : heap_ok h -> obj_ok h im -> all_ok (im, snd (choose_dic dic h)).
Proof.
  intros Hok Oi. destruct (choose_grows dic h) as (G & Gi). split; cbn [fst snd].
  - exact (obj_ok_grows h _ _ G Oi).
  - exact (heap_ok_grows _ _ G Gi Hok).
Qed.

Lemma step_fresh W h c h' r :
  heap_ok h -> all_fresh h -> plain_call c -> (match c with Create d _ _ _ => wf d | _ => True end) ->
  step W h c h' r -> all_fresh h'.
Proof.
  intros Hok Hf Hp Hc S. destruct S as [c r Hr|d|c i m im im' h' r Hi Ei Em|c i dic m im im' h' r Hd Ei Em
    |data dic dark flat d1 h1 im' h' r Ec Em|f i s im data im' h' r Ei Ed Em
    |i angle im data s q h1 r1 im' h' r Ei Ed Es Eq Eo Em]; try contradiction.
  - exact Hf.
  - exact Hf.
  - destruct (inplace_refreshes _ _ _ _ Hi Hp) as (Hr & Hs).
    specialize (Hr _ _ _ _ _ (conj (obj_ok_at _ _ _ Hok Ei) Hok) (fresh_at _ _ _ Hf Ei) Em).
    pose proof (all_fresh_evolves _ _ _ _ (Hs _ _ _ _ _ Em) Hf) as Ha.
    unfold all_fresh in *. cbn [put_images images]. rewrite Forall_forall in *. intros x Hx.
    apply in_replace in Hx. destruct Hx as [->|Hx]; [exact Hr|exact (Ha x Hx)].
  - destruct (choose_grows dic h) as ((G1 & _ & G3 & _) & Gi).
    pose proof (derived_refreshes _ _ _ _ _ _ Hok Hd Hp) as Hr.
    specialize (Hr _ _ _ _ _ (choose_all_ok dic h im Hok (obj_ok_at _ _ _ Hok Ei))
                  (fresh_grows _ _ _ G1 G3 (fresh_at _ _ _ Hf Ei)) Em).
    apply handed_fresh; [exact Hr|].
    apply (all_fresh_evolves _ _ _ _ (derived_sat _ _ _ _ _ _ Hd _ _ _ _ _ Em)).
    exact (all_fresh_grows _ _ G1 G3 Gi Hf).
  - destruct (choose_grows dic h) as (G & Gi). rewrite Ec in G, Gi. cbn [snd] in G, Gi.
    pose proof (heap_ok_grows _ _ G Gi Hok) as Hok1. destruct G as (G1 & _ & G3 & _).
    pose proof (all_fresh_grows _ _ G1 G3 Gi Hf) as Hf1.
    assert (Hroom : all_fresh (room h1 data)).
    { apply (all_fresh_grows h1); [apply keeps_app|apply keeps_refl|reflexivity|exact Hf1]. }
    destruct (fresh_start _ _ _ _ _ _ _ Hc Hok1 Em) as [(-> & -> & Hr)|(Hm & s & Es & A & Em')].
    + destruct r; [exfalso; eapply Hr; reflexivity|exact Hroom..].
    + cbv zeta in A, Em'. set (h2 := add_vector s (room h1 data)) in *.
      assert (Hf2 : all_fresh h2).
      { apply (all_fresh_grows (room h1 data)); [apply keeps_refl|apply keeps_app|reflexivity|exact Hroom]. }
      apply handed_fresh.
      * refine (refreshes_corrections W dark flat _ _ _ _ _ A _ Em'). split; [reflexivity|]. exists data, s.
        cbn. rewrite !nth_error_app2, !Nat.sub_diag by lia. cbn. auto.
      * exact (all_fresh_evolves _ _ _ _ (sat_corrections false W dark flat _ _ _ _ _ Em') Hf2).
  - pose proof (obj_ok_at _ _ _ Hok Ei) as Oi.
    destruct (ok_data _ _ Oi) as (d' & E' & Hm' & _).
    assert (d' = data) as -> by congruence.
    assert (Hw : wf (combine_number W f data s)).
    { destruct (number_shape W f data s) as [H1 H2]. destruct Hm' as (P1 & P2 & _). split; lia. }
    assert (Hroom : all_fresh (room h (combine_number W f data s))).
    { apply (all_fresh_grows h); [apply keeps_app|apply keeps_refl|reflexivity|exact Hf]. }
    destruct (fresh_start _ _ _ _ _ _ _ Hw Hok Em) as [(-> & -> & Hr)|(Hm & st & Es & A & Em')].
    + destruct r; [exfalso; eapply Hr; reflexivity|exact Hroom..].
    + cbv zeta in *. injection Em' as <- <- <-. apply handed_fresh.
      * split; [reflexivity|]. exists (combine_number W f data s), st.
        cbn. rewrite !nth_error_app2, !Nat.sub_diag by lia. cbn. auto.
      * apply (all_fresh_grows (room h (combine_number W f data s))); [apply keeps_refl|apply keeps_app|reflexivity|exact Hroom].
Qed.

(** The same over a history, for a predicate on calls. *)
Lemma history_ind_on (C : op -> Prop) (P : heap -> Prop) :
  P empty_heap ->
  (forall W c h h' r, heap_ok h -> P h -> C c -> (match c with Create d _ _ _ => wf d | _ => True end) ->
     step W h c h' r -> P h') ->
  forall hist h, reached hist h -> Forall (fun e => C (snd e)) hist -> P h.
Proof.
  intros H0 Hs hist h (Hf & ->) HC.
  assert (G : heap_ok (run_history hist empty_heap) /\ P (run_history hist empty_heap)); [|exact (proj2 G)].
  induction hist as [|[W c] hist IH] using rev_ind; [split; [constructor|exact H0]|].
  apply Forall_app in Hf. destruct Hf as (Hf & Hc). apply Forall_inv in Hc. cbn [snd] in Hc.
  apply Forall_app in HC. destruct HC as (HC & Hcc). apply Forall_inv in Hcc. cbn [snd] in Hcc.
  destruct (IH Hf HC) as (I1 & I2). rewrite run_app. cbn [fst snd].
  destruct (exec W c (run_history hist empty_heap)) as [h' r] eqn:E. apply exec_step in E. cbn [fst].
  split; [exact (step_ok _ _ _ _ _ I1 Hc E)|exact (Hs _ _ _ _ _ I1 I2 Hcc Hc E)].
Qed.

Lemma look_ok h im : obj_ok h im -> exists v, look h im = Some v.
Proof.
  intros [O1 O2 O3 O4 O5 O6]. destruct O1 as (d & E1 & _). destruct (nth_error_lt _ _ O2) as (hd & E2).
  destruct (nth_error_lt _ _ O3) as (s & E3). unfold look. rewrite E1, E2, E3.
  destruct (i_demos im) as [p|]; [|eauto]. destruct (nth_error_lt _ _ (O4 p eq_refl)) as (q & E4).
  rewrite E4. cbn. eauto.
Qed.
Lemma view_exists h i : heap_ok h -> (i < length (images h))%nat -> exists v, view_of h i = Some v.
Proof.
  intros H Hi. destruct (nth_error_lt _ _ Hi) as (im & E). unfold view_of. rewrite E.
  apply look_ok. exact (obj_ok_at _ _ _ H E).
Qed.
Lemma view_inv h i v : view_of h i = Some v -> exists im, nth_error (images h) i = Some im /\ look h im = Some v.
Proof. unfold view_of. destruct (nth_error (images h) i) as [im|]; [eauto|discriminate]. Qed.
Lemma look_inv h im v : look h im = Some v ->
  nth_error (arrays h) (i_data im) = Some (v_data v) /\ nth_error (headers h) (i_header im) = Some (v_header v) /\
  nth_error (vectors h) (i_stokes im) = Some (v_vector v) /\
  (match i_demos im with None => v_quad v = None | Some p => exists q, nth_error (quads h) p = Some q /\ v_quad v = Some q end) /\
  v_height v = i_height im /\ v_width v = i_width im /\ v_dic v = i_dic im /\ v_demosaiced v = i_demosaiced im /\
  v_demodulated v = i_demodulated im /\ v_dark v = i_dark im /\ v_flat v = i_flat im.
Proof.
  unfold look. destruct (nth_error (arrays h) (i_data im)) as [d|]; [|discriminate].
  destruct (nth_error (headers h) (i_header im)) as [hd|]; [|discriminate].
  destruct (nth_error (vectors h) (i_stokes im)) as [s|]; [|discriminate].
  destruct (i_demos im) as [p|].
  - destruct (nth_error (quads h) p) as [q|] eqn:Eq; [|discriminate]. cbn [option_map]. intros E. injection E as <-.
    cbn. repeat split; eauto.
  - intros E. injection E as <-. cbn. repeat split.
Qed.

Lemma c55_views hist h i : reached hist h -> (i < length (images h))%nat ->
  exists v, view_of h i = Some v /\ mosaic (v_data v) /\ v_height v = rows (v_data v) /\ v_width v = cols (v_data v).
Proof.
  intros Hr Hi. pose proof (reached_ok _ _ Hr) as Hok. destruct (view_exists _ _ Hok Hi) as (v & E). exists v.
  split; [exact E|]. apply view_inv in E. destruct E as (im & E1 & E2).
  destruct (ok_data _ _ (obj_ok_at _ _ _ Hok E1)) as (d & Ed & Hm & Hh & Hw).
  apply look_inv in E2. destruct E2 as (F1 & F2 & F3 & F4 & F5 & F6 & F7). rewrite Ed in F1. injection F1 as ->.
  repeat split; try apply Hm; congruence.
Qed.

Lemma c55_reflects hist h i v :
  reached hist h -> Forall (fun e => plain_call (snd e)) hist -> view_of h i = Some v ->
  v_demosaiced v = false /\ shows_its_data v.
Proof.
  intros Hr Hp Ev.
  assert (Hf : all_fresh h).
  { revert hist h Hr Hp Ev. intros hist h Hr Hp _. revert hist h Hr Hp.
    apply history_ind_on; [constructor|]. intros. eapply step_fresh; eassumption. }
  apply view_inv in Ev. destruct Ev as (im & Ei & El).
  destruct (fresh_at _ _ _ Hf Ei) as (F1 & d & s & F2 & F3 & F4).
  pose proof (obj_ok_at _ _ _ (reached_ok _ _ Hr) Ei) as Oi. destruct (ok_data _ _ Oi) as (d' & Ed & Hm & _).
  rewrite Ed in F2. injection F2 as <-.
  apply look_inv in El. destruct El as (L1 & _ & L3 & _ & _ & _ & L7 & L8 & _).
  rewrite Ed in L1. injection L1 as ->. rewrite F3 in L3. injection L3 as ->.
  split; [congruence|]. split; [exact Hm|]. intros a Ha. cbv zeta. rewrite L7 in Ha.
  destruct (data_stokes_spec (i_dic im) a (v_data v) Ha Hm) as (s' & Es & Hs).
  rewrite F4 in Es. injection Es as <-. destruct Hs as (S1 & S2 & S3 & S4).
  split; [exact S1|]. split; [exact S2|]. split; [exact S3|]. intros y x Hy Hx.
  destruct (S4 y x Hy Hx) as (T1 & T2 & T3). rewrite T1, T2, T3. cbn. repeat split; lra.
Qed.

(** ** C56: other images *)

Lemma look_keeps h h' im v : grows h h' -> look h im = Some v -> look h' im = Some v.
Proof.
  intros (G1 & G2 & G3 & G4). unfold look.
  destruct (nth_error (arrays h) (i_data im)) as [d|] eqn:E1; [|discriminate]. rewrite (G1 _ _ E1).
  destruct (nth_error (headers h) (i_header im)) as [hd|] eqn:E2; [|discriminate]. rewrite (G2 _ _ E2).
  destruct (nth_error (vectors h) (i_stokes im)) as [s|] eqn:E3; [|discriminate]. rewrite (G3 _ _ E3).
  destruct (i_demos im) as [p|]; [|auto]. destruct (nth_error (quads h) p) as [q|] eqn:E4; [|discriminate].
  rewrite (G4 _ _ E4). auto.
Qed.
Lemma view_handed h h' r im j v : grows h h' -> images h' = images h -> view_of h j = Some v ->
  view_of (handed r im h') j = Some v.
Proof.
  intros G Ei Ev. apply view_inv in Ev. destruct Ev as (x & Ex & El). unfold view_of.
  assert (E : nth_error (images (handed r im h')) j = Some x).
  { destruct r; cbn [handed]; [|rewrite Ei; exact Ex..]. cbn. rewrite Ei. apply keeps_app. exact Ex. }
  rewrite E. apply (look_keeps h'); [|exact (look_keeps _ _ _ _ G El)].
  destruct r; apply grows_refl || (repeat split; cbn; auto using keeps_refl).
Qed.

(** The size of the object's own data. *)
Definition sized (a b : Z) (st : image * heap) : Prop :=
  exists d, nth_error (arrays (snd st)) (i_data (fst st)) = Some d /\ rows d = a /\ cols d = b.
Definition invs {A} (a b : Z) (m : method A) (P : A -> Prop) : Prop :=
  forall st, all_ok st -> sized a b st ->
    let (st', r) := m st in all_ok st' /\ sized a b st' /\ forall v, r = Ok v -> P v.

Lemma invs_bind {A B} a b (m : method A) P (k : A -> method B) Q :
  invs a b m P -> (forall v, P v -> invs a b (k v) Q) -> invs a b (mbind m k) Q.
Proof.
  intros Hm Hk st Hst Hz. unfold mbind. specialize (Hm st Hst Hz). destruct (m st) as [st' r].
  destruct Hm as (Hst' & Hz' & Hr). destruct r as [v|e|]; [|split; [exact Hst'|split; [exact Hz'|discriminate]]..].
  exact (Hk v (Hr v eq_refl) st' Hst' Hz').
Qed.
Lemma invs_same {A} a b (m : method A) P :
  inv m P -> (forall im h im' h' r, m (im, h) = ((im', h'), r) -> i_data im' = i_data im /\ arrays h' = arrays h) ->
  invs a b m P.
Proof.
  intros Hi Hs [im h] Hst Hz. specialize (Hi (im, h) Hst). destruct (m (im, h)) as [[im' h'] r] eqn:E.
  destruct (Hs _ _ _ _ _ E) as (E1 & E2). destruct Hi as (H1 & H2). split; [exact H1|]. split; [|exact H2].
  unfold sized in *. cbn [fst snd] in *. rewrite E1, E2. exact Hz.
Qed.
Lemma invs_read {A} a b (m : method A) P : (forall st, fst (m st) = st) -> inv m P -> invs a b m P.
Proof.
  intros Hr Hi. apply invs_same; [exact Hi|]. intros im h im' h' r E. specialize (Hr (im, h)). rewrite E in Hr.
  cbn [fst] in Hr. injection Hr as -> ->. auto.
Qed.
Lemma invs_lift {A} a b (r : result A) : invs a b (lift r) (fun v => r = Ok v).
Proof. apply invs_read; [reflexivity|apply inv_lift]. Qed.
Lemma invs_self a b : invs a b self (fun _ => True).
Proof. apply invs_read; [reflexivity|apply inv_self]. Qed.
Lemma invs_deref {A} a b (f : heap -> list A) p : invs a b (deref f p) (fun _ => True).
Proof. apply invs_read; [reflexivity|apply inv_deref]. Qed.
Lemma invs_my_data a b : invs a b my_data (fun d => mosaic d /\ rows d = a /\ cols d = b).
Proof.
  intros st Hst Hz. destruct (my_data_is st Hst) as (d & E & E1 & Hm & _). rewrite E.
  split; [exact Hst|]. split; [exact Hz|]. intros v F. injection F as <-. split; [exact Hm|].
  destruct Hz as (d' & E2 & H1 & H2). rewrite E1 in E2. injection E2 as <-. auto.
Qed.
Lemma invs_data_of a b j : invs a b (data_of j) mosaic.
Proof. apply invs_read; [apply reads_data_of|apply inv_data_of]. Qed.
Lemma invs_set_data a b d : mosaic d -> rows d = a -> cols d = b -> invs a b (set_data d) (fun _ => True).
Proof.
  intros Hm H1 H2 [im h] Hst Hz. pose proof (inv_set_data d Hm (im, h) Hst) as Hi.
  destruct (set_data d (im, h)) as [[im' h'] r] eqn:E. destruct Hi as (Hi & Hi2). split; [exact Hi|]. split; [|exact Hi2].
  unfold set_data, mbind, new_array, set_self, self, write_header in E. cbn in E. injection E as <- <- _.
  exists d. cbn. rewrite nth_error_app2, Nat.sub_diag by lia. auto.
Qed.
Lemma invs_new_vector_set a b s : invs a b (call p <- new_vector s; set_stokes p) (fun _ => True).
Proof.
  apply invs_same; [apply inv_new_vector_set|]. intros im h im' h' r E.
  unfold set_stokes, mbind, new_vector, set_self in E. cbn in E. injection E as <- <- _. auto.
Qed.
Lemma invs_new_quad_set a b q f : invs a b (call p <- new_quad q; set_demosaiced p f) (fun _ => True).
Proof.
  apply invs_same; [apply inv_new_quad_set|]. intros im h im' h' r E.
  unfold set_demosaiced, mbind, new_quad, set_self in E. cbn in E. injection E as <- <- _. auto.
Qed.
Lemma invs_flags a b : invs a b set_demodulated (fun _ => True) /\ invs a b set_dark_flag (fun _ => True) /\
  invs a b set_flat_flag (fun _ => True).
Proof.
  split; [|split]; (apply invs_same; [apply inv_set_demodulated || apply inv_set_dark || apply inv_set_flat|]);
    intros im h im' h' r E; injection E as <- <- _; auto.
Qed.
Lemma reads_theo st : fst (theo_components st) = st.
Proof.
  unfold theo_components. revert st. apply reads_bind; [reflexivity|]. intros im. apply reads_bind; [|reflexivity].
  destruct (i_demosaiced im).
  - destruct (i_demos im); reflexivity.
  - apply reads_bind; [exact reads_my_data|reflexivity].
Qed.
Lemma invs_update_stokes a b : invs a b update_stokes (fun _ => True).
Proof.
  apply (invs_bind _ _ _ (fun _ => True)); [apply invs_read; [exact reads_theo|exact inv_theo]|].
  intros s _. apply invs_new_vector_set.
Qed.
Lemma invs_ret {A} a b (v : A) : invs a b (ret v) (fun _ => True).
Proof. apply invs_read; [reflexivity|apply inv_ret; exact I]. Qed.
Lemma invs_dark a b j : invs a b (subtract_dark j) (fun _ => True).
Proof.
  apply (invs_bind _ _ _ _ _ _ (invs_my_data a b)). intros d (Hd & H1 & H2).
  apply (invs_bind _ _ _ _ _ _ (invs_data_of a b j)). intros e He.
  apply (invs_bind _ _ _ _ _ _ (invs_lift a b _)). intros f Hf.
  pose proof (bmap2_even_l _ _ _ _ Hd Hf) as Hs. pose proof (mosaic_shape f d Hs Hd) as Hm. destruct Hs as [S1 S2].
  apply (invs_bind _ _ _ _ _ _ (invs_set_data a b f Hm ltac:(congruence) ltac:(congruence))). intros _ _.
  apply (invs_bind _ _ _ _ _ _ (invs_set_data a b _ (mosaic_amap _ _ Hm) ltac:(cbn; congruence) ltac:(cbn; congruence))). intros _ _.
  apply (invs_bind _ _ _ _ _ _ (invs_update_stokes a b)). intros _ _. apply invs_flags.
Qed.
Lemma invs_flat a b W j : invs a b (correct_flat W j) (fun _ => True).
Proof.
  apply (invs_bind _ _ _ _ _ _ (invs_data_of a b j)). intros e He.
  apply (invs_bind _ _ _ _ _ _ (invs_my_data a b)). intros d (Hd & H1 & H2).
  apply (invs_bind _ _ _ _ _ _ (invs_lift a b _)). intros f Hf.
  pose proof (divide_where_even _ _ _ _ Hd Hf) as Hs. pose proof (mosaic_shape f d Hs Hd) as Hm. destruct Hs as [S1 S2].
  apply (invs_bind _ _ _ _ _ _ (invs_set_data a b f Hm ltac:(congruence) ltac:(congruence))). intros _ _.
  apply (invs_bind _ _ _ _ _ _ (invs_update_stokes a b)). intros _ _. apply invs_flags.
Qed.
Lemma invs_update a b d : mosaic d -> rows d = a -> cols d = b -> invs a b (update_data_and_stokes d) (fun _ => True).
Proof.
  intros Hm H1 H2. apply (invs_bind _ _ _ _ _ _ (invs_set_data a b d Hm H1 H2)). intros _ _. apply invs_update_stokes.
Qed.
Lemma invs_ifov a b : invs a b correct_ifov (fun _ => True).
Proof.
  intros st Hst Hz. destruct (my_data_is st Hst) as (d & E & E1 & Hm & H1 & H2).
  unfold correct_ifov, mbind at 1. rewrite E. unfold mbind at 1, self at 1.
  assert (Hi : invs a b (call corrected <- lift (ifov_jitcorrect d (i_height (fst st)) (i_width (fst st)));
                    update_data_and_stokes corrected) (fun _ => True)).
  { apply (invs_bind _ _ _ _ _ _ (invs_lift a b _)). intros f Hf.
    pose proof (ifov_even _ _ _ _ Hm H1 H2 Hf) as Hs. destruct Hz as (d' & E2 & G1 & G2).
    rewrite E1 in E2. injection E2 as <-. pose proof (mosaic_shape f d Hs Hm). destruct Hs as [S1 S2].
    apply invs_update; [assumption|congruence..]. }
  exact (Hi st Hst Hz).
Qed.
Lemma invs_corrections a b W dark flat : invs a b (corrections W dark flat) (fun _ => True).
Proof.
  apply (invs_bind _ _ _ (fun _ => True)).
  - destruct dark; [apply invs_dark|apply invs_ret].
  - intros _ _. destruct flat; [apply invs_flat|apply invs_ret].
Qed.
Lemma invs_assoc {A B C} a b (m : method A) (k : A -> method B) (l : B -> method C) Q :
  invs a b (mbind (mbind m k) l) Q -> invs a b (mbind m (fun v => mbind (k v) l)) Q.
Proof. intros H st Hst Hz. specialize (H st Hst Hz). rewrite mbind_assoc in H. exact H. Qed.
Lemma invs_demosaic a b mode : invs a b (demosaic_image mode) (fun _ => True).
Proof.
  apply (invs_bind _ _ _ _ _ _ (invs_my_data a b)). intros d Hd.
  apply (invs_bind _ _ _ _ _ _ (invs_lift a b _)). intros q _.
  apply invs_assoc. apply (invs_bind _ _ _ _ _ _ (invs_new_quad_set a b q true)). intros _ _. apply invs_update_stokes.
Qed.
Lemma overwrite_data f p im h im' h' r : overwrite_vector f p (im, h) = ((im', h'), r) ->
  im' = im /\ arrays h' = arrays h /\ headers h' = headers h.
Proof.
  unfold overwrite_vector, mbind, deref, lift, write_vector. cbn [fst snd].
  destruct (nth_error (vectors h) p) as [s|]; [|intros E; injection E as <- <- _; auto].
  destruct (f (sI s)); [|intros E; injection E as <- <- _; auto..].
  destruct (f (sQ s)); [|intros E; injection E as <- <- _; auto..].
  destruct (f (sU s)); intros E; injection E as <- <- _; auto.
Qed.
Lemma invs_overwrite a b f p : invs a b (overwrite_vector f p) (fun _ => True).
Proof.
  apply invs_same; [apply inv_overwrite|]. intros im h im' h' r E.
  destruct (overwrite_data _ _ _ _ _ _ _ E) as (-> & -> & _). auto.
Qed.
Lemma invs_mask a b y x r over fill : invs a b (mask_occulter y x r over fill) (fun _ => True).
Proof.
  apply (invs_bind _ _ _ _ _ _ (invs_self a b)). intros im _.
  apply (invs_bind _ _ _ _ _ _ (invs_my_data a b)). intros d (Hd & H1 & H2).
  apply (invs_bind _ _ _ _ _ _ (invs_lift a b _)). intros f Hf.
  pose proof (roi_even _ _ _ _ _ _ _ Hd Hf) as Hs. pose proof (mosaic_shape f d Hs Hd) as Hm. destruct Hs as [S1 S2].
  apply (invs_bind _ _ _ _ _ _ (invs_set_data a b f Hm ltac:(congruence) ltac:(congruence))). intros _ _.
  apply (invs_bind _ _ _ _ _ _ (invs_self a b)). intros im1 _. apply (invs_bind _ _ _ (fun _ => True)).
  - destruct (i_demosaiced im1); [|apply invs_ret].
    destruct (i_demos im1); [|apply invs_read; [reflexivity|apply (inv_weak _ _ _ (fun _ _ => I) (inv_lift _))]].
    apply (invs_bind _ _ _ _ _ _ (invs_deref a b _ _)). intros q _.
    apply (invs_bind _ _ _ _ _ _ (invs_lift a b _)). intros q' _. apply invs_new_quad_set.
  - intros _ _. apply invs_overwrite.
Qed.
Lemma invs_from_demodulator a b d f : invs a b (stokes_from_demodulator d f) (fun _ => True).
Proof.
  unfold stokes_from_demodulator. destruct f.
  - apply (invs_bind _ _ _ _ _ _ (invs_demosaic a b _)). intros _ _.
    apply (invs_bind _ _ _ _ _ _ (invs_self a b)). intros im _.
    destruct (i_demos im); [|apply invs_read; [reflexivity|apply (inv_weak _ _ _ (fun _ _ => I) (inv_lift _))]].
    apply (invs_bind _ _ _ _ _ _ (invs_deref a b _ _)). intros q _.
    apply (invs_bind _ _ _ _ _ _ (invs_deref a b _ _)). intros s _.
    apply invs_read; [reflexivity|apply (inv_weak _ _ _ (fun _ _ => I) (inv_lift _))].
  - apply (invs_bind _ _ _ _ _ _ (invs_my_data a b)). intros q _.
    apply (invs_bind _ _ _ _ _ _ (invs_self a b)). intros im _.
    apply (invs_bind _ _ _ _ _ _ (invs_deref a b _ _)). intros s _.
    apply invs_read; [reflexivity|apply (inv_weak _ _ _ (fun _ _ => I) (inv_lift _))].
Qed.

(** With a header that fits and data of the same size every header stays as it is. *)
Lemma headers_kept ow im h im' h' a b :
  evolves ow im h im' h' -> obj_ok h im -> nth_error (headers h) (i_header im) = Some (mkheader b a) ->
  sized a b (im', h') -> headers h' = headers h.
Proof.
  intros V O E (d & Ed & H1 & H2). cbn [fst snd] in Ed.
  destruct (ev_header _ _ _ _ _ V) as [[_ F]|(d' & F1 & F2)]; [exact F|].
  rewrite Ed in F1. injection F1 as <-. specialize (F2 (ok_header _ _ O)).
  assert (K : forall l l' : list header, length l' = length l -> (forall p, nth_error l' p = nth_error l p) -> l' = l).
  { induction l as [|x l IH]; intros [|y l'] Hl Hp; cbn in Hl; try lia; [reflexivity|].
    pose proof (Hp 0%nat) as H0. cbn in H0. injection H0 as ->. f_equal. apply IH; [lia|]. intros p. exact (Hp (S p)). }
  apply K; [exact (ev_hlen _ _ _ _ _ V)|]. intros p.
  destruct (Nat.eq_dec p (i_header im)) as [->|Hne]; [|exact (ev_headers _ _ _ _ _ V p Hne)].
  rewrite F2, E, H1, H2. reflexivity.
Qed.

(** Methods on a copy that keep the size. *)
Lemma derived_invs W h c i dic m im d :
  heap_ok h -> derived W h c i dic m -> nth_error (images h) i = Some im ->
  nth_error (arrays h) (i_data im) = Some d -> size_kept h c -> invs (rows d) (cols d) m (fun _ => True).
Proof.
  intros H Hd Ei Ed. revert Ei Ed. destruct Hd as [i dic dark flat|i b data Hb Hd|i ny nx data d1 Hd E|i y x mv data d1 Hd E
                          |i m data flags d1 Hd Hf E|f i j data second d1 Hd Hs E|i dm b];
    cbn [size_kept]; try contradiction; intros Ei Ed Hk.
  - apply invs_corrections.
  - pose proof (data_at_mosaic _ _ _ H Hd) as Hm. destruct Hd as (x0 & X1 & X2).
    assert (data = d) as -> by congruence. pose proof (shift_even _ _ _ _ _ Hm E) as Hs.
    pose proof (mosaic_shape _ _ Hs Hm). destruct Hs. apply invs_update; assumption.
  - pose proof (data_at_mosaic _ _ _ H Hd) as Hm. pose proof (data_at_mosaic _ _ _ H Hf) as Hmf.
    destruct (clean_shape _ _ _ _ Hmf Hm E) as (Hr & Hs).
    destruct Hd as (x0 & X1 & X2). assert (data = d) as -> by congruence.
    destruct Hf as (x1 & Y1 & Y2).
    assert (Hss : same_shape d flags).
    { destruct (look_ok _ _ (obj_ok_at _ _ _ H X1)) as (v & Ev). destruct (look_ok _ _ (obj_ok_at _ _ _ H Y1)) as (w & Ew).
      specialize (Hk v w). unfold view_of in Hk. rewrite X1, Y1 in Hk. specialize (Hk Ev Ew).
      apply look_inv in Ev. apply look_inv in Ew. destruct Ev as (V1 & _), Ew as (W1 & _). congruence. }
    destruct (Hs Hss). apply invs_update; assumption.
  - pose proof (data_at_mosaic _ _ _ H Hd) as Hm. destruct Hd as (x0 & X1 & X2).
    assert (data = d) as -> by congruence. pose proof (combine_even _ _ _ _ _ Hm E) as Hsh.
    pose proof (mosaic_shape _ _ Hsh Hm). destruct Hsh. apply invs_update; assumption.
  - apply (invs_bind _ _ _ _ _ _ (invs_from_demodulator _ _ _ _)). intros s _. apply invs_assoc.
    apply (invs_bind _ _ _ _ _ _ (invs_new_vector_set _ _ _)). intros _ _. apply invs_flags.
Qed.
Lemma inplace_invs W c i m a b : inplace W c i m -> invs a b m (fun _ => True).
Proof.
  destruct 1; [apply invs_dark|apply invs_flat|apply invs_ifov|apply invs_demosaic|apply invs_mask].
Qed.

Lemma evolves_grows im h im' h' : evolves false im h im' h' -> headers h' = headers h -> grows h h'.
Proof.
  intros V E. repeat split.
  - exact (ev_arrays _ _ _ _ _ V).
  - rewrite E. apply keeps_refl.
  - exact (evolves_keeps_vectors _ _ _ _ V).
  - exact (ev_quads _ _ _ _ _ V).
Qed.
Lemma grows_trans a b c : grows a b -> grows b c -> grows a c.
Proof.
  intros (A1 & A2 & A3 & A4) (B1 & B2 & B3 & B4).
  split; [exact (keeps_trans _ _ _ A1 B1)|]. split; [exact (keeps_trans _ _ _ A2 B2)|].
  split; [exact (keeps_trans _ _ _ A3 B3)|exact (keeps_trans _ _ _ A4 B4)].
Qed.
(** Which images stay as they are. *)
Lemma c56_step W h c h' r i j u v :
  heap_ok h -> new_from c = Some i -> view_of h i = Some u -> view_of h j = Some v ->
  (match c with Rotate _ _ | Rebin _ _ | Congrid _ _ _ => False | _ => True end) ->
  (match c with WithNumber _ _ _ => True | _ => header_fits u end) -> size_kept h c ->
  step W h c h' r -> view_of h' j = Some v.
Proof.
  intros Hok Hn Eu Ev Hc Hfit Hk S. destruct S as [c r Hr|d|c k m im im' h' r Hi Ei Em|c k dic m im im' h' r Hd Ei Em
    |data dic dark flat d1 h1 im' h' r Ec Em|f k s im data im' h' r Ei Ed Em
    |k angle im data s q h1 r1 im' h' r Ei Ed Es Eq Eo Em]; try contradiction; try discriminate Hn.
  - exact Ev.
  - destruct Hi; discriminate Hn.
  - assert (k = i) as -> by (destruct Hd; cbn in Hn; injection Hn as ->; reflexivity).
    assert (Hfit' : header_fits u) by (destruct Hd; exact Hfit).
    pose proof (obj_ok_at _ _ _ Hok Ei) as Oi. unfold view_of in Eu. rewrite Ei in Eu. apply look_inv in Eu.
    destruct Eu as (L1 & L2 & _). destruct (choose_grows dic h) as (G & Gi).
    assert (G' : headers (snd (choose_dic dic h)) = headers h).
    { unfold choose_dic. destruct dic; [|destruct (default_angles h)]; reflexivity. }
    pose proof (choose_all_ok dic h im Hok Oi) as A0.
    pose proof (derived_invs _ _ _ _ _ _ _ _ Hok Hd Ei L1 Hk _ A0) as Hz.
    assert (Hz0 : sized (rows (v_data u)) (cols (v_data u)) (im, snd (choose_dic dic h))).
    { exists (v_data u). split; [apply (proj1 G); exact L1|auto]. }
    specialize (Hz Hz0). rewrite Em in Hz. destruct Hz as (A1 & Hz & _).
    pose proof (derived_sat _ _ _ _ _ _ Hd _ _ _ _ _ Em) as V.
    assert (Hh : headers h' = headers (snd (choose_dic dic h))).
    { eapply headers_kept; [exact V|exact (proj1 A0)| |exact Hz]. rewrite G', L2. destruct Hfit' as (F1 & F2).
      rewrite <- F1, <- F2. destruct (v_header u); reflexivity. }
    apply (view_handed h); [|rewrite (ev_images _ _ _ _ _ V); exact Gi|exact Ev].
    exact (grows_trans _ _ _ G (evolves_grows _ _ _ _ V Hh)).
  - pose proof (obj_ok_at _ _ _ Hok Ei) as Oi. destruct (ok_data _ _ Oi) as (d' & E' & Hm' & _).
    assert (d' = data) as -> by congruence.
    assert (Hw : wf (combine_number W f data s)).
    { destruct (number_shape W f data s) as [H1 H2]. destruct Hm' as (P1 & P2 & _). split; lia. }
    destruct (fresh_start _ _ _ _ _ _ _ Hw Hok Em) as [(-> & -> & Hr)|(Hm & st & Es & A & Em')].
    + apply (view_handed h); [apply grows_room|reflexivity|exact Ev].
    + cbv zeta in *. injection Em' as <- <- <-. apply (view_handed h); [|reflexivity|exact Ev].
      repeat split; cbn; auto using keeps_app, keeps_refl.
Qed.

(** Nothing but headers may change when an image is binned or resized. *)
Lemma look_other_header h h' im v :
  keeps (arrays h) (arrays h') -> keeps (vectors h) (vectors h') -> keeps (quads h) (quads h') ->
  length (headers h') = length (headers h) -> look h im = Some v ->
  exists hd, look h' im = Some (mkview (v_data v) (v_height v) (v_width v) hd (v_vector v) (v_quad v) (v_dic v)
    (v_demosaiced v) (v_demodulated v) (v_dark v) (v_flat v)).
Proof.
  intros G1 G3 G4 Gl. unfold look.
  destruct (nth_error (arrays h) (i_data im)) as [d|] eqn:E1; [|discriminate]. rewrite (G1 _ _ E1).
  destruct (nth_error (headers h) (i_header im)) as [hd|] eqn:E2; [|discriminate].
  destruct (nth_error_lt (headers h') (i_header im)) as (hd' & E2').
  { rewrite Gl. exact (lt_nth_error _ _ _ E2). } rewrite E2'.
  destruct (nth_error (vectors h) (i_stokes im)) as [s|] eqn:E3; [|discriminate]. rewrite (G3 _ _ E3).
  destruct (i_demos im) as [p|].
  - destruct (nth_error (quads h) p) as [q|] eqn:E4; [|discriminate].
    rewrite (G4 _ _ E4). cbn. intros E. injection E as <-. cbn. eauto.
  - intros E. injection E as <-. cbn. eauto.
Qed.
Lemma c56_resize W h c h' r j v :
  heap_ok h -> (match c with Rebin _ _ | Congrid _ _ _ => True | _ => False end) -> view_of h j = Some v ->
  step W h c h' r ->
  exists hd, view_of h' j = Some (mkview (v_data v) (v_height v) (v_width v) hd (v_vector v) (v_quad v) (v_dic v)
    (v_demosaiced v) (v_demodulated v) (v_dark v) (v_flat v)).
Proof.
  intros Hok Hc Ev S. destruct S as [c r Hr|d|c k m im im' h' r Hi Ei Em|c k dic m im im' h' r Hd Ei Em
    |data dic dark flat d1 h1 im' h' r Ec Em|f k s im data im' h' r Ei Ed Em
    |k angle im data s q h1 r1 im' h' r Ei Ed Es Eq Eo Em]; try contradiction.
  - exists (v_header v). rewrite Ev. destruct v; reflexivity.
  - destruct Hi; contradiction.
  - pose proof (derived_sat _ _ _ _ _ _ Hd _ _ _ _ _ Em) as V. destruct (choose_grows dic h) as ((G1 & G2 & G3 & G4) & Gi).
    apply view_inv in Ev. destruct Ev as (x & Ex & El).
    assert (G' : headers (snd (choose_dic dic h)) = headers h).
    { unfold choose_dic. destruct dic; [|destruct (default_angles h)]; reflexivity. }
    destruct (look_other_header h h' x v) as (hd & El').
    + exact (keeps_trans _ _ _ G1 (ev_arrays _ _ _ _ _ V)).
    + exact (keeps_trans _ _ _ G3 (evolves_keeps_vectors _ _ _ _ V)).
    + exact (keeps_trans _ _ _ G4 (ev_quads _ _ _ _ _ V)).
    + rewrite (ev_hlen _ _ _ _ _ V), G'. reflexivity.
    + exact El.
    + exists hd. unfold view_of. pose proof (ev_images _ _ _ _ _ V) as Hi. rewrite Gi in Hi.
      assert (E : nth_error (images (handed r im' h')) j = Some x).
      { destruct r; cbn [handed]; [|rewrite Hi; exact Ex..]. cbn. rewrite Hi. apply keeps_app. exact Ex. }
      rewrite E. destruct r; exact El'.
Qed.

(** ** C57: header sizes *)

Definition fits (h : heap) (im : image) : Prop :=
  exists d, nth_error (arrays h) (i_data im) = Some d /\
    nth_error (headers h) (i_header im) = Some (mkheader (cols d) (rows d)).
Definition all_fit (h : heap) : Prop := Forall (fits h) (images h).
Lemma fits_grows h h' x : keeps (arrays h) (arrays h') -> keeps (headers h) (headers h') -> fits h x -> fits h' x.
Proof. intros G1 G2 (d & E1 & E2). exists d. auto. Qed.
Lemma all_fit_grows h h' : keeps (arrays h) (arrays h') -> keeps (headers h) (headers h') ->
  images h' = images h -> all_fit h -> all_fit h'.
Proof.
  intros G1 G2 E H. unfold all_fit in *. rewrite E, Forall_forall in *. intros x Hx. exact (fits_grows _ _ _ G1 G2 (H x Hx)).
Qed.
Lemma fits_at h i im : all_fit h -> nth_error (images h) i = Some im -> fits h im.
Proof. unfold all_fit. rewrite Forall_forall. intros H E. apply H. exact (nth_error_In _ _ E). Qed.
Lemma handed_fits r im h : fits h im -> all_fit h -> all_fit (handed r im h).
Proof.
  intros F H. destruct r; [|exact H..]. unfold all_fit in *. cbn [handed put_images images].
  rewrite Forall_forall in *. intros x Hx. apply in_app_or in Hx. destruct Hx as [Hx|[<-|[]]]; [exact (H x Hx)|exact F].
Qed.
(** A method on a fitting object that keeps the size. *)
Lemma fits_method ow im h im' h' d :
  evolves ow im h im' h' -> obj_ok h im -> nth_error (arrays h) (i_data im) = Some d ->
  nth_error (headers h) (i_header im) = Some (mkheader (cols d) (rows d)) -> sized (rows d) (cols d) (im', h') ->
  headers h' = headers h /\ fits h' im'.
Proof.
  intros V O Ed Eh Hz. pose proof (headers_kept _ _ _ _ _ _ _ V O Eh Hz) as Hh. split; [exact Hh|].
  destruct Hz as (d' & E' & H1 & H2). cbn [fst snd] in E'. exists d'. split; [exact E'|].
  rewrite (ev_hp _ _ _ _ _ V), Hh, Eh, H1, H2. reflexivity.
Qed.

Lemma step_fits W h c h' r :
  heap_ok h -> all_fit h -> size_kept h c -> (match c with Create d _ _ _ => wf d | _ => True end) ->
  step W h c h' r -> all_fit h'.
Proof.
  intros Hok Hf Hk Hc S. destruct S as [c r Hr|d|c i m im im' h' r Hi Ei Em|c i dic m im im' h' r Hd Ei Em
    |data dic dark flat d1 h1 im' h' r Ec Em|f i s im data im' h' r Ei Ed Em
    |i angle im data s q h1 r1 im' h' r Ei Ed Es Eq Eo Em].
  - exact Hf.
  - exact Hf.
  - pose proof (obj_ok_at _ _ _ Hok Ei) as Oi. destruct (fits_at _ _ _ Hf Ei) as (d & E1 & E2).
    pose proof (inplace_invs _ _ _ _ (rows d) (cols d) Hi (im, h) (conj Oi Hok)) as Hz.
    assert (Hz0 : sized (rows d) (cols d) (im, h)) by (exists d; auto).
    specialize (Hz Hz0). rewrite Em in Hz. destruct Hz as (_ & Hz & _).
    pose proof (inplace_sat _ _ _ _ Hi _ _ _ _ _ Em) as V.
    destruct (fits_method _ _ _ _ _ _ V Oi E1 E2 Hz) as (Hh & F).
    assert (Ha : all_fit h').
    { apply (all_fit_grows h); [exact (ev_arrays _ _ _ _ _ V)|rewrite Hh; apply keeps_refl|exact (ev_images _ _ _ _ _ V)|exact Hf]. }
    unfold all_fit in *. cbn [put_images images]. rewrite Forall_forall in *. intros x Hx.
    apply in_replace in Hx. destruct Hx as [->|Hx]; [exact F|exact (Ha x Hx)].
  - pose proof (obj_ok_at _ _ _ Hok Ei) as Oi. destruct (fits_at _ _ _ Hf Ei) as (d & E1 & E2).
    destruct (choose_grows dic h) as ((G1 & G2 & G3 & G4) & Gi).
    pose proof (choose_all_ok dic h im Hok Oi) as A0.
    pose proof (derived_invs _ _ _ _ _ _ _ _ Hok Hd Ei E1 Hk _ A0) as Hz.
    assert (Hz0 : sized (rows d) (cols d) (im, snd (choose_dic dic h))) by (exists d; auto).
    specialize (Hz Hz0). rewrite Em in Hz. destruct Hz as (_ & Hz & _).
    pose proof (derived_sat _ _ _ _ _ _ Hd _ _ _ _ _ Em) as V.
    destruct (fits_method _ _ _ _ _ _ V (proj1 A0) (G1 _ _ E1) (G2 _ _ E2) Hz) as (Hh & F).
    apply handed_fits; [exact F|].
    apply (all_fit_grows h); [exact (keeps_trans _ _ _ G1 (ev_arrays _ _ _ _ _ V))|rewrite Hh; exact G2
      |rewrite (ev_images _ _ _ _ _ V); exact Gi|exact Hf].
  - destruct (choose_grows dic h) as (G & Gi). rewrite Ec in G, Gi. cbn [snd] in G, Gi.
    pose proof (heap_ok_grows _ _ G Gi Hok) as Hok1. destruct G as (G1 & G2 & _).
    pose proof (all_fit_grows _ _ G1 G2 Gi Hf) as Hf1.
    assert (Hroom : all_fit (room h1 data)).
    { apply (all_fit_grows h1); [apply keeps_app|apply keeps_app|reflexivity|exact Hf1]. }
    destruct (fresh_start _ _ _ _ _ _ _ Hc Hok1 Em) as [(-> & -> & Hr)|(Hm & s & Es & A & Em')].
    + destruct r; [exfalso; eapply Hr; reflexivity|exact Hroom..].
    + cbv zeta in A, Em'. set (h2 := add_vector s (room h1 data)) in *.
      set (im2 := with_stokes (length (vectors h1)) (blank h1 data d1)) in *.
      assert (E1 : nth_error (arrays h2) (i_data im2) = Some data).
      { cbn. rewrite nth_error_app2, Nat.sub_diag by lia. reflexivity. }
      assert (E2 : nth_error (headers h2) (i_header im2) = Some (mkheader (cols data) (rows data))).
      { cbn. rewrite nth_error_app2, Nat.sub_diag by lia. reflexivity. }
      pose proof (invs_corrections (rows data) (cols data) W dark flat _ A) as Hz.
      assert (Hz0 : sized (rows data) (cols data) (im2, h2)) by (exists data; auto).
      specialize (Hz Hz0). rewrite Em' in Hz. destruct Hz as (_ & Hz & _).
      pose proof (sat_corrections false W dark flat _ _ _ _ _ Em') as V.
      destruct (fits_method _ _ _ _ _ _ V (proj1 A) E1 E2 Hz) as (Hh & F).
      apply handed_fits; [exact F|].
      apply (all_fit_grows (room h1 data));
        [exact (ev_arrays _ _ _ _ _ V)|rewrite Hh; apply keeps_refl|exact (ev_images _ _ _ _ _ V)|exact Hroom].
  - pose proof (obj_ok_at _ _ _ Hok Ei) as Oi. destruct (fits_at _ _ _ Hf Ei) as (d' & E1 & E2).
    assert (d' = data) as -> by congruence.
    destruct (number_shape W f data s) as [H1 H2].
    destruct (ok_data _ _ Oi) as (d' & E' & Hm' & _). assert (d' = data) as -> by congruence.
    assert (Hw : wf (combine_number W f data s)) by (destruct Hm' as (P1 & P2 & _); split; lia).
    assert (Hroom : all_fit (room h (combine_number W f data s))).
    { apply (all_fit_grows h); [apply keeps_app|apply keeps_app|reflexivity|exact Hf]. }
    destruct (fresh_start _ _ _ _ _ _ _ Hw Hok Em) as [(-> & -> & Hr)|(Hm & st & Es & A & Em')].
    + destruct r; [exfalso; eapply Hr; reflexivity|exact Hroom..].
    + cbv zeta in *. injection Em' as <- <- <-. apply handed_fits.
      * exists (combine_number W f data s). cbn. rewrite nth_error_app2, Nat.sub_diag by lia. split; [reflexivity|].
        rewrite H1, H2. apply keeps_app. exact E2.
      * apply (all_fit_grows (room h (combine_number W f data s))); [apply keeps_refl|apply keeps_refl|reflexivity|exact Hroom].
  - pose proof (obj_ok_at _ _ _ Hok Ei) as Oi. destruct (fits_at _ _ _ Hf Ei) as (d' & E1 & E2).
    assert (d' = data) as -> by congruence.
    destruct (ok_data _ _ Oi) as (d' & E' & Hm' & _). assert (d' = data) as -> by congruence.
    pose proof (turned_even _ _ _ _ Hm' Es Eq) as [S1 S2].
    destruct (overwrite_data _ _ _ _ _ _ _ Eo) as (_ & O2 & O3).
    destruct (overwrite_evolves _ _ _ _ _ _ Eo) as (Vo & _).
    assert (Hf1 : all_fit h1).
    { apply (all_fit_grows h); [rewrite O2; apply keeps_refl|rewrite O3; apply keeps_refl|exact (ev_images _ _ _ _ _ Vo)|exact Hf]. }
    destruct r1 as [u|e|].
    + destruct Em as (Em & ->). destruct (choose_grows None h1) as ((G1 & G2 & G3 & G4) & Gi).
      pose proof (sat_set_data false _ _ _ _ _ _ Em) as V.
      assert (Hz : sized (rows data) (cols data) (im', h')).
      { unfold set_data, mbind, new_array, set_self, self, write_header in Em. cbn in Em. injection Em as <- <-.
        exists (merge_polarizations q). cbn. rewrite nth_error_app2, Nat.sub_diag by lia. auto. }
      assert (Oi1 : obj_ok (snd (choose_dic None h1)) im).
      { apply (obj_ok_grows h1); [repeat split; assumption|]. exact (obj_ok_evolves _ _ _ _ _ _ Vo Oi). }
      assert (E1' : nth_error (arrays (snd (choose_dic None h1))) (i_data im) = Some data) by (apply G1; rewrite O2; exact E1).
      assert (E2' : nth_error (headers (snd (choose_dic None h1))) (i_header im) = Some (mkheader (cols data) (rows data)))
        by (apply G2; rewrite O3; exact E2).
      destruct (fits_method _ _ _ _ _ _ V Oi1 E1' E2' Hz) as (Hh & F).
      apply handed_fits; [exact F|].
      apply (all_fit_grows h1); [exact (keeps_trans _ _ _ G1 (ev_arrays _ _ _ _ _ V))|rewrite Hh; exact G2
        |rewrite (ev_images _ _ _ _ _ V); exact Gi|exact Hf1].
    + destruct Em as (-> & Hr). destruct r; [exfalso; eapply Hr; reflexivity|exact Hf1..].
    + destruct Em as (-> & Hr). destruct r; [exfalso; eapply Hr; reflexivity|exact Hf1..].
Qed.

Lemma sizes_kept_app hist e h :
  sizes_kept (hist ++ [e]) h <-> sizes_kept hist h /\ size_kept (run_history hist h) (snd e).
Proof.
  revert h; induction hist as [|[W c] hist IH]; intros h; cbn [app sizes_kept].
  - destruct e as [W c]. cbn. tauto.
  - rewrite IH. cbn. tauto.
Qed.
Lemma c57_fits hist h i v :
  reached hist h -> sizes_kept hist empty_heap -> view_of h i = Some v -> header_fits v.
Proof.
  intros Hr Hk Ev. assert (Hf : heap_ok h /\ all_fit h).
  { clear Ev. destruct Hr as (Hf & ->). revert Hf Hk.
    induction hist as [|[W c] hist IH] using rev_ind; intros Hf Hk; [split; constructor|].
    apply Forall_app in Hf. destruct Hf as (Hf & Hc). apply Forall_inv in Hc. cbn [snd] in Hc.
    apply sizes_kept_app in Hk. destruct Hk as (Hk1 & Hk2). cbn [snd] in Hk2.
    destruct (IH Hf Hk1) as (I1 & I2). rewrite run_app. cbn [fst snd].
    destruct (exec W c (run_history hist empty_heap)) as [h' r] eqn:E. apply exec_step in E. cbn [fst].
    split; [exact (step_ok _ _ _ _ _ I1 Hc E)|exact (step_fits _ _ _ _ _ I1 I2 Hk2 Hc E)]. }
  destruct Hf as (_ & Hf). apply view_inv in Ev. destruct Ev as (im & Ei & El).
  destruct (fits_at _ _ _ Hf Ei) as (d & E1 & E2). apply look_inv in El. destruct El as (L1 & L2 & _).
  rewrite E1 in L1. injection L1 as ->. rewrite E2 in L2. injection L2 as L2. unfold header_fits. rewrite <- L2. auto.
Qed.
