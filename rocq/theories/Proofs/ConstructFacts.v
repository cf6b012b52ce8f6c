(** Constructors and resampled images. *)
From Coq Require Import Reals Lra ZifyBool.
From Verif Require Import Base.Base Base.BaseFacts Base.Num Base.Bcast Model.Demosaic Model.Rebin Model.Shift
  Model.Ifov Model.Stokes Model.Utils Model.Roi Model.Demodulate Model.ImageObj Model.Construct Spec.MosaicSpec
  Spec.StokesSpec Spec.ImageSpec Spec.ConstructSpec Proofs.DemosaicFacts Proofs.MosaicFacts Proofs.StokesFacts
  Proofs.ObjFacts Proofs.ObjInv Proofs.ObjExec Proofs.ObjViews Proofs.ObjMore.

(** ** C81 *)
Lemma options_work {A} `{Num A} (d : arr A) o : mosaic d -> (o = "mean" \/ o = "adjacent")%string ->
  exists q, demosaic d o = Ok q /\ forall k, 0 <= k < 4 -> rows (qnth q k) = rows d /\ cols (qnth q k) = cols d.
Proof.
  intros Hm [-> | ->].
  - destruct (demosaic_mean_spec d Hm) as (q & E & Hq). exists q. split; [exact E|].
    intros k Hk. destruct (Hq k Hk) as (H1 & H2 & _). auto.
  - destruct (demosaic_adjacent_spec d Hm) as (q & E & Hq). exists q. split; [exact E|].
    intros k Hk. destruct (Hq k Hk) as (H1 & H2 & _). auto.
Qed.

(** ** C82 *)
Lemma mask_quad_first f s q : mask_quad f s = Ok q -> f (q0 s) = Ok (q0 q).
Proof.
  unfold mask_quad. destruct (f (q0 s)) as [a|e|]; [|discriminate..]. cbn [bind].
  destruct (f (q1 s)) as [b|e|]; [|discriminate..]. cbn [bind].
  destruct (f (q2 s)) as [c|e|]; [|discriminate..]. cbn [bind].
  destruct (f (q3 s)) as [d|e|]; [|discriminate..]. cbn [bind]. intros E. injection E as <-. reflexivity.
Qed.

Lemma congrid_data_size W data y x d : congrid_data W data y x = Ok d ->
  rows d = 2 * Z.quot y 2 /\ cols d = 2 * Z.quot x 2 /\ 0 <= Z.quot y 2 /\ 0 <= Z.quot x 2.
Proof.
  unfold congrid_data. destruct (split_polarizations data) as [s|e|]; [|discriminate..]. cbn [bind].
  destruct ((Z.quot y 2 <? 0) || (Z.quot x 2 <? 0)) eqn:Eneg; [discriminate|].
  match goal with |- bind ?m _ = _ -> _ => destruct m as [q|e|] eqn:Eq; [|discriminate..] end. cbn [bind].
  intros E. injection E as <-. apply mask_quad_first in Eq.
  destruct (resize W (q0 s) (Z.quot y 2) (Z.quot x 2)) as [b|e|]; [|discriminate..]. cbn [bind] in Eq.
  destruct ((rows b =? Z.quot y 2) && (cols b =? Z.quot x 2)) eqn:Eb; [|discriminate]. injection Eq as Eq.
  rewrite merge_rows, merge_cols, <- Eq.
  apply orb_false_elim in Eneg. destruct Eneg as [N1 N2]. apply Z.ltb_ge in N1, N2.
  apply andb_prop in Eb. destruct Eb as [B1 B2]. apply Z.eqb_eq in B1, B2. rewrite B1, B2. repeat split; try assumption; ring.
Qed.

Lemma quot_even n : 0 <= Z.quot (n - n mod 2) 2 -> 2 * Z.quot (n - n mod 2) 2 = n - n mod 2.
Proof.
  intros _. pose proof (Z.div_mod n 2 ltac:(lia)) as E. replace (n - n mod 2) with (n / 2 * 2) by lia.
  rewrite Z.quot_mul by lia. lia.
Qed.

Lemma congrid_sizes hist h W i ny nx v h' k :
  reached hist h -> view_of h i = Some v ->
  (forall a y x b, resize W a y x = Ok b -> rows b = y /\ cols b = x) ->
  exec W (Congrid i ny nx) h = (h', Ok (Some k)) ->
  exists u, view_of h' k = Some u /\ v_demosaiced u = v_demosaiced v /\ v_quad u = v_quad v /\
    rows (v_data u) = ny - ny mod 2 /\ cols (v_data u) = nx - nx mod 2 /\
    rows (sI (v_vector u)) = ny - ny mod 2 /\ cols (sI (v_vector u)) = nx - nx mod 2 /\
    rows (sQ (v_vector u)) = ny - ny mod 2 /\ cols (sQ (v_vector u)) = nx - nx mod 2 /\
    rows (sU (v_vector u)) = ny - ny mod 2 /\ cols (sU (v_vector u)) = nx - nx mod 2.
Proof.
  intros Hr Ev Hres E. pose proof (reached_ok _ _ Hr) as Hok. apply view_inv in Ev. destruct Ev as (x & Ex & El).
  pose proof (obj_ok_at _ _ _ Hok Ex) as Ox. apply look_inv in El. destruct El as (L1 & L2 & L3 & L4 & _ & _ & _ & L7 & _).
  cbn [exec] in E. unfold on_copy in E. rewrite Ex in E.
  unfold my_data, mbind, self, deref in E. cbn [fst snd] in E. rewrite L1 in E. unfold lift in E.
  destruct (congrid_data W (v_data v) (ny - ny mod 2) (nx - nx mod 2)) as [d|e|] eqn:Ed; [|discriminate..].
  destruct (congrid_data_size _ _ _ _ _ Ed) as (D1 & D2 & D3 & D4).
  rewrite (quot_even ny D3) in D1. rewrite (quot_even nx D4) in D2.
  unfold copy_of in E. pose proof (choose_all_ok None h x Hok Ox) as A0.
  destruct (choose_grows None h) as ((G1 & G2 & G3 & G4) & Gi).
  destruct (choose_dic None h) as [d1 h1] eqn:Ec. cbn [snd] in *.
  unfold returning in E. rewrite set_data_is in E. cbn [fst snd with_data i_stokes after_data vectors] in E.
  rewrite (G3 _ _ L3) in E.
  destruct (resize W (sI (v_vector v)) _ _) as [a|e|] eqn:Ea; [|discriminate..].
  destruct (resize W (sQ (v_vector v)) _ _) as [b|e|] eqn:Eb; [|discriminate..].
  destruct (resize W (sU (v_vector v)) _ _) as [c|e|] eqn:Ecc; [|discriminate..].
  apply Hres in Ea. apply Hres in Eb. apply Hres in Ecc.
  unfold new_vector, set_stokes, set_self in E. cbn in E. injection E as <- <-.
  unfold view_of. cbn [put_images images]. rewrite nth_error_app2, Nat.sub_diag by lia. cbn [nth_error].
  unfold look. cbn [put_images i_demos i_data i_header i_stokes arrays headers vectors quads i_height i_width i_dic
    i_demosaiced i_demodulated i_dark i_flat].
  rewrite (nth_error_app2 (arrays h1)), Nat.sub_diag by lia. cbn [nth_error].
  rewrite replace_same.
  2: { apply keeps_len in G2. pose proof (ok_header _ _ Ox). lia. }
  rewrite (nth_error_app2 (vectors h1)), Nat.sub_diag by lia. cbn [nth_error].
  assert (Q : (match i_demos x with None => Some None | Some p => option_map Some (nth_error (quads h1) p) end) = Some (v_quad v)).
  { destruct (i_demos x) as [p|]; [|rewrite L4; reflexivity]. destruct L4 as (q & Eq & ->).
    rewrite (G4 _ _ Eq). reflexivity. }
  rewrite Q. eexists. split; [reflexivity|].
  cbn [v_demosaiced v_quad v_data v_vector sI sQ sU]. repeat split; try lia; try tauto; congruence.
Qed.

Lemma congrid_fits hist h W i ny nx v h' k :
  reached hist h -> view_of h i = Some v ->
  (forall a y x b, resize W a y x = Ok b -> rows b = y /\ cols b = x) ->
  exec W (Congrid i ny nx) h = (h', Ok (Some k)) ->
  exists u, view_of h' k = Some u /\
    (v_demosaiced v = true -> vector_fits u) /\
    (v_demosaiced v = false -> 0 < ny - ny mod 2 \/ 0 < nx - nx mod 2 -> ~ vector_fits u).
Proof.
  intros Hr Ev Hres E. destruct (congrid_sizes _ _ _ _ _ _ _ _ _ Hr Ev Hres E) as (u & Eu & F & _ & Hs).
  exists u. split; [exact Eu|]. unfold vector_fits. rewrite F. split; intros ->.
  - repeat split; lia.
  - intros Hp Hv. lia.
Qed.

Lemma plain_fits hist h i v a :
  reached hist h -> Forall (fun e => plain_call (snd e)) hist -> view_of h i = Some v -> describes (v_dic v) a ->
  vector_fits v.
Proof.
  intros Hr Hp Ev Hd. destruct (c55_reflects _ _ _ _ Hr Hp Ev) as (F & (M1 & M2 & M3 & M4) & Hs).
  destruct (Hs a Hd) as (H1 & H2 & H3 & _). unfold vector_fits. rewrite F. repeat split; lia.
Qed.

(** ** C83 *)
Lemma setter_data a p : setter a = Ok p -> has_data p.
Proof. destruct a as [d|]; [|discriminate]. intros E. injection E as <-. exists d. auto. Qed.
Lemma known_data start x p : known x -> init_plain start x = Ok p -> has_data p.
Proof.
  destruct x as [[a|e|]|a|i|i|]; cbn [known init_plain bind]; try contradiction; intros _ E; try discriminate;
    try exact (setter_data _ _ E).
  destruct (data_attr i) as [d|e|]; [|discriminate..]. exact (setter_data _ _ E).
Qed.

Lemma micropol_data dic x m : source_ok x -> new_micropol dic x = Ok m ->
  has_data (m_plain m) /\
  match x with
  | FromMicropol i => p_data (m_plain m) = p_data (m_plain i) /\ m_stokes m = m_stokes i /\ m_dic m = m_dic i
  | _ => m_dic m = dic /\ m_demosaiced m = None /\
         exists d, p_data (m_plain m) = Some d /\ rows d mod 2 = 0 /\ cols d mod 2 = 0 /\
                   data_stokes dic d = Ok (m_stokes m)
  end.
Proof.
  intros Hs E. unfold new_micropol in E. destruct (init_plain _ x) as [p|e|] eqn:Ep; [|discriminate..]. cbn [bind] in E.
  assert (G : forall dic' p', has_data p' ->
    match p_data p' with None => Raise AttributeError | Some d => bind (data_stokes dic' d) (fun s => Ok (mkmicropol p' s dic' None)) end = Ok m ->
    has_data (m_plain m) /\ m_dic m = dic' /\ m_demosaiced m = None /\
    exists d, p_data (m_plain m) = Some d /\ rows d mod 2 = 0 /\ cols d mod 2 = 0 /\ data_stokes dic' d = Ok (m_stokes m)).
  { intros dic' p' Hd E'. destruct Hd as (d & Hd & Hz). rewrite Hd in E'.
    destruct (data_stokes dic' d) as [s|e|] eqn:Es; [|discriminate..]. cbn [bind] in E'. injection E' as <-.
    cbn [m_plain m_dic m_demosaiced m_stokes]. split; [exists d; auto|]. split; [reflexivity|]. split; [reflexivity|].
    exists d. split; [exact Hd|]. unfold data_stokes, split_polarizations in Es.
    destruct (rows d mod 2 =? 0) eqn:E1; [|discriminate]. destruct (cols d mod 2 =? 0) eqn:E2; [|discriminate].
    apply Z.eqb_eq in E1, E2. split; [exact E1|]. split; [exact E2|].
    unfold data_stokes, split_polarizations. rewrite E1, E2. exact Es. }
  destruct x as [r|a|i|i|]; cbn match in E.
  - apply (G dic p); [exact (known_data _ (FromFiles r) _ I Ep)|exact E].
  - apply (G dic p); [exact (known_data _ (FromArray a) _ I Ep)|exact E].
  - apply (G dic p); [exact (known_data _ (FromImage i) _ I Ep)|exact E].
  - destruct Hs as (d & Hd & Hz). unfold data_attr in E. rewrite Hd in E. cbn [bind setter] in E. injection E as <-.
    cbn [m_plain m_stokes m_dic p_data]. split; [exists d; auto|auto].
  - injection Ep as <-. discriminate E.
Qed.
