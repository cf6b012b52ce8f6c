(** The calls that change other images, and concrete histories. *)
From Coq Require Import Reals Lra ZifyBool.
From Verif Require Import Base.Base Base.BaseFacts Base.Num Base.Bcast Model.Demosaic Model.Rebin Model.Shift
  Model.Ifov Model.Stokes Model.Utils Model.Roi Model.Demodulate Model.ImageObj Spec.MosaicSpec
  Spec.StokesSpec Spec.ImageSpec Proofs.DemosaicFacts Proofs.MosaicFacts Proofs.StokesFacts
  Proofs.ObjFacts Proofs.ObjInv Proofs.ObjExec Proofs.ObjViews Proofs.ObjMore.

Lemma c56_exec hist h W c i j u v h' r :
  reached hist h -> new_from c = Some i -> view_of h i = Some u -> view_of h j = Some v ->
  (match c with Rotate _ _ | Rebin _ _ | Congrid _ _ _ => False | _ => True end) ->
  (match c with WithNumber _ _ _ => True | _ => header_fits u end) -> size_kept h c ->
  exec W c h = (h', r) -> view_of h' j = Some v.
Proof.
  intros Hr Hn Eu Ev Hc Hf Hk E. apply reached_ok in Hr. apply exec_step in E.
  exact (c56_step W h c h' r i j u v Hr Hn Eu Ev Hc Hf Hk E).
Qed.
Lemma c56_resize_exec hist h W c j v h' r :
  reached hist h -> (match c with Rebin _ _ | Congrid _ _ _ => True | _ => False end) -> view_of h j = Some v ->
  exec W c h = (h', r) ->
  exists hd, view_of h' j = Some (mkview (v_data v) (v_height v) (v_width v) hd (v_vector v) (v_quad v) (v_dic v)
    (v_demosaiced v) (v_demodulated v) (v_dark v) (v_flat v)).
Proof.
  intros Hr Hc Ev E. apply reached_ok in Hr. apply exec_step in E. exact (c56_resize W h c h' r j v Hr Hc Ev E).
Qed.

Lemma c57_rebin hist h W i b v h' k :
  reached hist h -> view_of h i = Some v -> 0 < rows (v_data v) -> 2 <= b ->
  exec W (Rebin i b) h = (h', Ok (Some k)) ->
  exists u, view_of h' i = Some u /\ v_data u = v_data v /\ ~ header_fits u.
Proof.
  intros Hr Ev Hp Hb E. destruct (c56_rebin_header _ _ _ _ _ _ _ _ Hr Ev E) as (u & n & Eu & En & D & _ & R & _ & Hd & Fn).
  exists u. split; [exact Eu|]. split; [exact D|]. intros [_ F2]. destruct Fn as [_ N2]. rewrite Hd, N2, R, D in F2.
  assert (rows (v_data v) / (2 * b) * (2 * b) <= rows (v_data v)) by (pose proof (Z.mul_div_le (rows (v_data v)) (2 * b)); lia).
  assert (0 <= rows (v_data v) / (2 * b)) by (apply Z.div_pos; lia). nia.
Qed.

Lemma overwrite_ok f p im h im' h' : overwrite_vector f p (im, h) = ((im', h'), Ok tt) ->
  im' = im /\ exists s t, nth_error (vectors h) p = Some s /\
    f (sI s) = Ok (sI t) /\ f (sQ s) = Ok (sQ t) /\ f (sU s) = Ok (sU t) /\
    h' = mkheap (arrays h) (headers h) (replace (vectors h) p t) (quads h) (images h) (default_angles h).
Proof.
  unfold overwrite_vector, mbind, deref, lift, write_vector. cbn [fst snd].
  destruct (nth_error (vectors h) p) as [s|]; [|discriminate].
  destruct (f (sI s)) as [a|e|] eqn:Ea; [|discriminate..]. destruct (f (sQ s)) as [b|e|] eqn:Eb; [|discriminate..].
  destruct (f (sU s)) as [c|e|] eqn:Ec; [|discriminate..]. intros E. injection E as <- <-.
  split; [reflexivity|]. exists s, (mkstokes a b c). cbn [vectors arrays headers quads images default_angles].
  assert (Hr : forall (l : list (stokes R)) q x y, replace (replace l q x) q y = replace l q y).
  { induction l as [|z l IH]; intros [|q] x y; cbn; try reflexivity. rewrite IH. reflexivity. }
  rewrite !Hr. auto 6.
Qed.

(** Rotating an image overwrites the Stokes vector of the image itself. *)
Lemma c56_rotate hist h W i angle v h' k :
  reached hist h -> view_of h i = Some v -> exec W (Rotate i angle) h = (h', Ok (Some k)) ->
  exists u, view_of h' i = Some u /\ v_data u = v_data v /\
    turn W angle (sI (v_vector v)) = Ok (sI (v_vector u)) /\
    turn W angle (sQ (v_vector v)) = Ok (sQ (v_vector u)) /\
    turn W angle (sU (v_vector v)) = Ok (sU (v_vector u)).
Proof.
  intros Hr Ev E. pose proof (reached_ok _ _ Hr) as Hok. apply view_inv in Ev. destruct Ev as (x & Ex & El).
  pose proof (obj_ok_at _ _ _ Hok Ex) as Ox. apply look_inv in El. destruct El as (L1 & _ & L3 & L4 & _).
  apply exec_step in E.
  inversion E as [c0 r Hf|d|c0 i0 m im im' h0 r Hi Ei Em|c0 i0 dic m im im' h0 r Hd Ei Em
    |data dic dark flat d1 h1 im' h0 r Ec Em|f i0 s im data im' h0 r Ei Ed Em
    |i0 a0 im data s q h1 r1 im' h0 r Ei Ed Es Eq Eo Em]; subst.
  - exfalso. eapply Hf. reflexivity.
  - inversion Hi.
  - inversion Hd.
  - assert (im = x) as -> by congruence. assert (data = v_data v) as -> by congruence.
    destruct r1 as [[]|e|]; [|destruct r; [exfalso; destruct Em as (_ & Hf); eapply Hf; reflexivity|discriminate..]..].
    destruct Em as (Em & ->). destruct (overwrite_ok _ _ _ _ _ _ Eo) as (_ & s0 & t & Es0 & F1 & F2 & F3 & ->).
    assert (s0 = v_vector v) as -> by congruence.
    set (h1 := mkheap _ _ _ _ _ _) in *.
    pose proof (sat_set_data false _ _ _ _ _ _ Em) as V. destruct (choose_grows None h1) as ((G1 & G2 & G3 & G4) & Gi).
    assert (Vt : nth_error (vectors h0) (i_stokes x) = Some t).
    { destruct (set_data_stokes _ _ _ _ _ _ Em) as (_ & _ & -> & _). apply G3. unfold h1. cbn [vectors]. apply replace_same.
      exact (lt_nth_error _ _ _ L3). }
    assert (Hh : heap_ok (handed (Ok tt) im' h0)) by (refine (step_ok _ _ _ _ _ Hok _ E); exact I).
    assert (Ei' : nth_error (images (handed (Ok tt) im' h0)) i = Some x).
    { cbn. rewrite (ev_images _ _ _ _ _ V), Gi. cbn [h1 images]. apply keeps_app. exact Ex. }
    destruct (look_ok _ _ (obj_ok_at _ _ _ Hh Ei')) as (u & Eu). exists u.
    split; [unfold view_of; rewrite Ei'; exact Eu|].
    apply look_inv in Eu. destruct Eu as (U1 & _ & U3 & _). cbn in U1, U3.
    assert (D : nth_error (arrays h0) (i_data x) = Some (v_data v)) by (apply (ev_arrays _ _ _ _ _ V), G1; exact L1).
    split; [congruence|]. assert (v_vector u = t) as -> by congruence.
    unfold keep_shape in F1, F2, F3.
    destruct (turn W angle (sI (v_vector v))) as [a|e|]; [|discriminate..]. cbn [bind] in F1.
    destruct (same_shapeb a _); [|discriminate]. injection F1 as ->.
    destruct (turn W angle (sQ (v_vector v))) as [b|e|]; [|discriminate..]. cbn [bind] in F2.
    destruct (same_shapeb b _); [|discriminate]. injection F2 as ->.
    destruct (turn W angle (sU (v_vector v))) as [c|e|]; [|discriminate..]. cbn [bind] in F3.
    destruct (same_shapeb c _); [|discriminate]. injection F3 as ->. auto.
Qed.

Lemma shown h i (P : view -> Prop) :
  (match view_of h i with Some u => P u | None => False end) -> exists u, view_of h i = Some u /\ P u.
Proof. destruct (view_of h i) as [u|]; [eauto|contradiction]. Qed.

(** Methods that leave all headers as they are. *)
Definition same_headers {A} (m : method A) : Prop :=
  forall im h im' h' r, m (im, h) = ((im', h'), r) -> headers h' = headers h.
Lemma sh_read {A} (m : method A) : (forall st, fst (m st) = st) -> same_headers m.
Proof.
  intros Hr im h im' h' r E. specialize (Hr (im, h)). rewrite E in Hr. cbn in Hr. injection Hr as -> ->. reflexivity.
Qed.
Lemma sh_bind {A B} (m : method A) (k : A -> method B) :
  same_headers m -> (forall a, same_headers (k a)) -> same_headers (mbind m k).
Proof.
  intros Hm Hk im h im' h' r E. unfold mbind in E. destruct (m (im, h)) as [[im1 h1] r1] eqn:Em.
  apply Hm in Em. destruct r1 as [a|e|].
  - rewrite <- Em. exact (Hk a _ _ _ _ _ E).
  - injection E as <- <- <-. exact Em.
  - injection E as <- <- <-. exact Em.
Qed.
Lemma sh_self f : same_headers (set_self f).
Proof. intros im h im' h' r E. injection E as <- <- <-. reflexivity. Qed.
Lemma sh_vector s : same_headers (new_vector s).
Proof. intros im h im' h' r E. injection E as <- <- <-. reflexivity. Qed.
Lemma sh_quad s : same_headers (new_quad s).
Proof. intros im h im' h' r E. injection E as <- <- <-. reflexivity. Qed.
Lemma sh_update_stokes : same_headers update_stokes.
Proof.
  apply sh_bind.
  - apply sh_bind; [apply sh_read; reflexivity|]. intros im. apply sh_bind; [|intros q; apply sh_read; reflexivity].
    destruct (i_demosaiced im); [destruct (i_demos im)|]; try (apply sh_read; reflexivity).
    apply sh_bind; [apply sh_read; reflexivity|intros d; apply sh_read; reflexivity].
  - intros s. apply sh_bind; [apply sh_vector|intros p; apply sh_self].
Qed.
Lemma sh_demosaic mode : same_headers (demosaic_image mode).
Proof.
  apply sh_bind; [apply sh_read; reflexivity|]. intros d. apply sh_bind; [apply sh_read; reflexivity|]. intros q.
  apply sh_bind; [apply sh_quad|]. intros p. apply sh_bind; [apply sh_self|intros _; apply sh_update_stokes].
Qed.
Lemma sh_demod d b : same_headers (stokes_from_demodulator d b).
Proof.
  unfold stokes_from_demodulator. destruct b.
  - apply sh_bind; [apply sh_demosaic|]. intros _. apply sh_bind; [apply sh_read; reflexivity|]. intros im.
    destruct (i_demos im); [|apply sh_read; reflexivity].
    apply sh_bind; [apply sh_read; reflexivity|]. intros q.
    apply sh_bind; [apply sh_read; reflexivity|]. intros t. apply sh_read; reflexivity.
  - apply sh_bind; [apply sh_read; reflexivity|]. intros q.
    apply sh_bind; [apply sh_read; reflexivity|]. intros im.
    apply sh_bind; [apply sh_read; reflexivity|]. intros t. apply sh_read; reflexivity.
Qed.

Lemma c56_untouched hist h W c j v h' r :
  reached hist h ->
  (match c with CopyOf _ _ None None | WithNumber _ _ _ | Demodulate _ _ _ => True | _ => False end) ->
  view_of h j = Some v -> exec W c h = (h', r) -> view_of h' j = Some v.
Proof.
  intros Hr Hc Ev E. pose proof (reached_ok _ _ Hr) as Hok. apply exec_step in E.
  assert (K : forall i dic m im im' h0 (r0 : result unit), derived W h c i dic m -> nth_error (images h) i = Some im ->
     m (im, snd (choose_dic dic h)) = ((im', h0), r0) -> same_headers m -> view_of (handed r0 im' h0) j = Some v).
  { intros i dic m im im' h0 r0 Hd Ei Em Hs. apply Hs in Em as Hh.
    pose proof (derived_sat _ _ _ _ _ _ Hd _ _ _ _ _ Em) as V. destruct (choose_grows dic h) as (G & Gi).
    apply (view_handed h); [|rewrite (ev_images _ _ _ _ _ V); exact Gi|exact Ev].
    exact (grows_trans _ _ _ G (evolves_grows _ _ _ _ V Hh)). }
  inversion E as [c0 r0 Hf|d|c0 i0 m im im' h0 r0 Hi Ei Em|c0 i0 dic m im im' h0 r0 Hd Ei Em
    |data dic dark flat d1 h1 im' h0 r0 Ec Em|f i0 s im data im' h0 r0 Ei Ed Em
    |i0 a0 im data s q h1 r1 im' h0 r0 Ei Ed Es Eq Eo Em]; subst; try contradiction.
  - exact Ev.
  - destruct Hi; contradiction.
  - refine (K _ _ _ _ _ _ _ Hd Ei Em _). destruct Hd; try contradiction.
    + destruct dark, flat; try contradiction. intros a b a' b' r' E'. injection E' as <- <- <-. reflexivity.
    + apply sh_bind; [apply sh_demod|]. intros s. apply sh_bind; [apply sh_vector|]. intros p.
      apply sh_bind; [apply sh_self|intros _; apply sh_self].
  - destruct (nth_error_lt _ _ (lt_nth_error _ _ _ Ei)) as (z & Ez).
    destruct (view_exists h i0 Hok (lt_nth_error _ _ _ Ei)) as (u & Eu).
    exact (c56_step W h (WithNumber f i0 s) _ _ i0 j u v Hok eq_refl Eu Ev I I I E).
Qed.
