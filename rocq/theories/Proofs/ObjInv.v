(** The heap of images: invariants kept by every call. *)
From Coq Require Import Reals Lra ZifyBool.
From Verif Require Import Base.Base Base.BaseFacts Base.Num Base.Bcast Model.Demosaic Model.Rebin Model.Shift
  Model.Ifov Model.Stokes Model.Utils Model.Roi Model.Demodulate Model.ImageObj Spec.MosaicSpec
  Spec.StokesSpec Spec.ImageSpec Proofs.DemosaicFacts Proofs.MosaicFacts Proofs.MosaicProps Proofs.ShiftFacts
  Proofs.StokesFacts Proofs.ObjFacts.

(** ** Sizes of what is computed *)

Lemma mosaic_shape {A B} (a : arr A) (b : arr B) : same_shape a b -> mosaic b -> mosaic a.
Proof. intros [E1 E2]. unfold mosaic. rewrite E1, E2. auto. Qed.
Lemma same_shape_sym {A B} (a : arr A) (b : arr B) : same_shape a b -> same_shape b a.
Proof. intros []; split; congruence. Qed.
Lemma same_shape_trans {A B C} (a : arr A) (b : arr B) (c : arr C) :
  same_shape a b -> same_shape b c -> same_shape a c.
Proof. intros [] []; split; congruence. Qed.

Lemma bdim_even a b n : b mod 2 = 0 -> bdim a b = Some n -> n = b.
Proof.
  unfold bdim. intros Hb. destruct (a =? b) eqn:E; [intros F; injection F as <-; lia|].
  destruct (a =? 1); [intros F; injection F as <-; lia|].
  destruct (b =? 1) eqn:E1; [|discriminate]. assert (b = 1) by lia. subst b. discriminate.
Qed.
Lemma bdim_even_l a b n : a mod 2 = 0 -> bdim a b = Some n -> n = a.
Proof.
  unfold bdim. intros Ha. destruct (a =? b) eqn:E; [intros F; injection F as <-; lia|].
  destruct (a =? 1) eqn:E1; [assert (a = 1) by lia; subst a; discriminate|].
  destruct (b =? 1); [|discriminate]. intros F; injection F as <-; lia.
Qed.
Lemma bmap2_even {A B C} (f : A -> B -> C) a b r : mosaic b -> bmap2 f a b = Ok r -> same_shape r b.
Proof.
  intros (_ & _ & Hr & Hc). unfold bmap2.
  destruct (bdim (rows a) (rows b)) as [h|] eqn:Eh; [|discriminate].
  destruct (bdim (cols a) (cols b)) as [w|] eqn:Ew; [|discriminate].
  intros E. injection E as <-. split; cbn [rows cols].
  - exact (bdim_even _ _ _ Hr Eh).
  - exact (bdim_even _ _ _ Hc Ew).
Qed.
Lemma bmap2_even_l {A B C} (f : A -> B -> C) a b r : mosaic a -> bmap2 f a b = Ok r -> same_shape r a.
Proof.
  intros (_ & _ & Hr & Hc). unfold bmap2.
  destruct (bdim (rows a) (rows b)) as [h|] eqn:Eh; [|discriminate].
  destruct (bdim (cols a) (cols b)) as [w|] eqn:Ew; [|discriminate].
  intros E. injection E as <-. split; cbn [rows cols].
  - exact (bdim_even_l _ _ _ Hr Eh).
  - exact (bdim_even_l _ _ _ Hc Ew).
Qed.
Lemma divide_where_even junk (a b r : arr R) : mosaic a -> divide_where junk a b = Ok r -> same_shape r a.
Proof.
  intros Ha. unfold divide_where. destruct (bmap2 _ a b) as [q|e|] eqn:E; [|discriminate..].
  cbn [bind]. intros F. injection F as <-. exact (bmap2_even_l _ _ _ _ Ha E).
Qed.
Lemma roi_even {A} (data : arr A) c rho th fill incl r :
  mosaic data -> roi_from_polar data c rho th fill incl = Ok r -> same_shape r data.
Proof.
  intros Hd. unfold roi_from_polar. destruct (roi_condition _ _ _ _ _) as [m|e|]; [|discriminate..].
  cbn [bind]. apply bmap2_even. exact Hd.
Qed.
Lemma shift_even (d r : arr R) y x m : mosaic d -> shift_micropol d y x m = Ok r -> same_shape r d.
Proof.
  intros Hm E. destruct (mosaic_wf d Hm) as (Hw & Er & Ec).
  destruct (shift_micropol_spec d y x m Hw Er Ec) as (r' & E' & R & C & _).
  rewrite E in E'. injection E' as <-. split; assumption.
Qed.
Lemma ifov_even (d r : arr R) h w :
  mosaic d -> h = rows d -> w = cols d -> ifov_jitcorrect d h w = Ok r -> same_shape r d.
Proof.
  intros Hm -> -> E. destruct (ifov_spec d Hm) as (r' & E' & R & C & _).
  rewrite E in E'. injection E' as <-. split; assumption.
Qed.

Lemma while_more {S} (c : S -> bool) b f g s r :
  while_loop f c b s = Ok r -> (f <= g)%nat -> while_loop g c b s = Ok r.
Proof.
  revert g s; induction f as [|f IH]; intros [|g] s E Hl; cbn in *; try lia; try exact E.
  - destruct (c s); [discriminate|exact E].
  - destruct (c s); [|exact E]. apply IH; [exact E|lia].
Qed.
Lemma rebin_more fuel n (d r : arr R) b :
  micropolarray_rebin fuel d b = Ok r -> (fuel <= n)%nat -> micropolarray_rebin n d b = Ok r.
Proof.
  intros E Hn. unfold micropolarray_rebin, trim_to_match_2xbinning, trim1 in *.
  destruct (2 * b =? 0); [exact E|].
  destruct (while_loop fuel _ _ (cols d)) as [w|e|] eqn:Ew; [|discriminate..]. cbn [bind] in E.
  rewrite (while_more _ _ _ n _ _ Ew Hn). cbn [bind].
  destruct (while_loop fuel _ _ (rows d)) as [h|e|] eqn:Eh; [|discriminate..]. cbn [bind] in E.
  rewrite (while_more _ _ _ n _ _ Eh Hn). cbn [bind]. exact E.
Qed.
Lemma rebin_mosaic fuel (d r : arr R) b :
  mosaic d -> 1 <= b -> micropolarray_rebin fuel d b = Ok r ->
  mosaic r /\ rows r = 2 * (rows d / (2 * b)) /\ cols r = 2 * (cols d / (2 * b)).
Proof.
  intros Hm Hb E.
  set (n := Z.to_nat (Z.max (rows d) (cols d))).
  pose proof (rebin_more fuel (Nat.max fuel n) d r b E (Nat.le_max_l _ _)) as E'.
  destruct (mosaic_rebin d r b (Nat.max fuel n) Hm Hb (Nat.le_max_r _ _) E') as (H1 & H2 & H3 & _). auto.
Qed.

Lemma merge_mosaic (q : quad R) : wf (q0 q) -> mosaic (merge_polarizations q).
Proof. intros [H1 H2]. unfold mosaic. rewrite merge_rows, merge_cols. repeat split; lia. Qed.
Lemma split_shape {A} (d : arr A) s : mosaic d -> split_polarizations d = Ok s ->
  rows (q0 s) = rows d / 2 /\ cols (q0 s) = cols d / 2.
Proof.
  intros Hm E. destruct (mosaic_wf d Hm) as (Hw & Er & Ec).
  destruct (split_spec d Hw Er Ec) as (s' & E' & Hs). rewrite E in E'. injection E' as <-.
  destruct (Hs 0 ltac:(lia)) as (H1 & H2 & _). auto.
Qed.
Lemma split_ok_mosaic {A} (d : arr A) : mosaic d -> exists s, split_polarizations d = Ok s.
Proof.
  intros Hm. destruct (mosaic_wf d Hm) as (Hw & Er & Ec).
  destruct (split_spec d Hw Er Ec) as (s' & E' & Hs). eauto.
Qed.
Lemma split_mosaic {A} (d : arr A) s : wf d -> split_polarizations d = Ok s -> mosaic d.
Proof.
  intros [H1 H2]. unfold split_polarizations.
  destruct (negb (rows d mod 2 =? 0) || negb (cols d mod 2 =? 0)) eqn:E; [discriminate|].
  intros _. unfold mosaic. lia.
Qed.

Lemma mask_quad_first f q r : mask_quad f q = Ok r -> f (q0 q) = Ok (q0 r).
Proof.
  unfold mask_quad. destruct (f (q0 q)) as [a|e|]; [|discriminate..]. cbn [bind].
  destruct (f (q1 q)) as [b|e|]; [|discriminate..]. cbn [bind].
  destruct (f (q2 q)) as [c|e|]; [|discriminate..]. cbn [bind].
  destruct (f (q3 q)) as [d|e|]; [|discriminate..]. cbn [bind].
  intros E. injection E as <-. reflexivity.
Qed.
Lemma turned_even f (d : arr R) s q :
  mosaic d -> split_polarizations d = Ok s -> mask_quad (keep_shape f) s = Ok q ->
  same_shape (merge_polarizations q) d.
Proof.
  intros Hm Es Eq. destruct (split_shape d s Hm Es) as (R & C). apply mask_quad_first in Eq.
  unfold keep_shape in Eq. destruct (f (q0 s)) as [b|e|]; [|discriminate..]. cbn [bind] in Eq.
  destruct (same_shapeb b (q0 s)) eqn:Eb; [|discriminate]. injection Eq as ->.
  unfold same_shapeb in Eb. destruct Hm as (H1 & H2 & H3 & H4).
  split; [rewrite merge_rows|rewrite merge_cols]; lia.
Qed.
Lemma congrid_mosaic W (d r : arr R) y x :
  congrid_data W d y x = Ok r -> mosaic r /\ rows r = 2 * Z.quot y 2 /\ cols r = 2 * Z.quot x 2.
Proof.
  unfold congrid_data. destruct (split_polarizations d) as [s|e|]; [|discriminate..]. cbn [bind].
  set (y' := Z.quot y 2). set (x' := Z.quot x 2).
  destruct ((y' <? 0) || (x' <? 0)) eqn:Es; [discriminate|].
  destruct (mask_quad _ s) as [q|e|] eqn:Eq; [|discriminate..]. cbn [bind]. intros E. injection E as <-.
  apply mask_quad_first in Eq. destruct (resize W (q0 s) y' x') as [b|e|]; [|discriminate..].
  cbn [bind] in Eq. destruct ((rows b =? y') && (cols b =? x')) eqn:Eb; [|discriminate]. injection Eq as ->.
  split; [apply merge_mosaic; split; lia|]. rewrite merge_rows, merge_cols. lia.
Qed.

Lemma bdim_pos a b n : 0 <= a -> 0 <= b -> bdim a b = Some n -> 0 <= n.
Proof.
  unfold bdim. intros Ha Hb. destruct (a =? b); [intros F; injection F as <-; lia|].
  destruct (a =? 1); [intros F; injection F as <-; lia|].
  destruct (b =? 1); [|discriminate]. intros F; injection F as <-; lia.
Qed.
Lemma clean_shape W (flags data r : arr R) :
  mosaic flags -> mosaic data -> clean_data W flags data = Ok r ->
  mosaic r /\ (same_shape data flags -> same_shape r data).
Proof.
  intros Hf Hd. unfold clean_data.
  destruct (split_polarizations data) as [s|e|] eqn:Es; [|discriminate..]. cbn [bind].
  destruct (split_polarizations flags) as [f|e|] eqn:Ef; [|discriminate..]. cbn [bind].
  destruct (clean_family W (q0 f) (q0 s)) as [a|e|] eqn:Ea; [|discriminate..]. cbn [bind].
  destruct (clean_family W (q1 f) (q1 s)) as [b|e|]; [|discriminate..]. cbn [bind].
  destruct (clean_family W (q2 f) (q2 s)) as [c|e|]; [|discriminate..]. cbn [bind].
  destruct (clean_family W (q3 f) (q3 s)) as [g|e|]; [|discriminate..]. cbn [bind].
  intros E. injection E as <-.
  destruct (split_shape _ _ Hd Es) as (R1 & C1). destruct (split_shape _ _ Hf Ef) as (R2 & C2).
  unfold clean_family, bmap2 in Ea. cbn [amap2 rows cols] in Ea.
  destruct (bdim (rows (q0 f)) (rows (q0 s))) as [h|] eqn:Eh; [|discriminate].
  destruct (bdim (cols (q0 f)) (cols (q0 s))) as [w|] eqn:Ew; [|discriminate].
  injection Ea as <-. destruct Hd as (D1 & D2 & D3 & D4), Hf as (F1 & F2 & F3 & F4).
  assert (0 <= rows data / 2 /\ 0 <= cols data / 2 /\ 0 <= rows flags / 2 /\ 0 <= cols flags / 2)
    as (P1 & P2 & P3 & P4) by (repeat split; apply Z.div_pos; lia).
  split.
  - apply merge_mosaic. split; cbn [q0 rows cols].
    + rewrite R1, R2 in Eh. exact (bdim_pos _ _ _ P3 P1 Eh).
    + rewrite C1, C2 in Ew. exact (bdim_pos _ _ _ P4 P2 Ew).
  - intros [S1 S2]. split; [rewrite merge_rows|rewrite merge_cols]; cbn [q0 rows cols].
    + rewrite R1, R2, <- S1 in Eh. unfold bdim in Eh. rewrite Z.eqb_refl in Eh. injection Eh as <-. lia.
    + rewrite C1, C2, <- S2 in Ew. unfold bdim in Ew. rewrite Z.eqb_refl in Ew. injection Ew as <-. lia.
Qed.

Lemma demosaic_ok (d : arr R) : mosaic d -> exists q, demosaic d "adjacent" = Ok q.
Proof. intros Hm. destruct (demosaic_adjacent_spec d Hm) as (q & E & _). eauto. Qed.

(** ** Well-formed objects *)

(** The dictionary has the four angles, at positions that exist. *)
Definition complete (dic : angle_dic) : Prop := forall q : quad R, exists s, theo_stokes dic q = Ok s.

Lemma theo_complete dic (q : quad R) s : theo_stokes dic q = Ok s -> complete dic.
Proof.
  unfold complete, theo_stokes, quad_get. intros E q'.
  destruct (dict_get dic 0) as [i0|e|]; [|discriminate..]. cbn [bind] in *.
  destruct (norm_idx 4 i0); [|discriminate]. cbn [bind] in *.
  destruct (dict_get dic 90) as [i1|e|]; [|discriminate..]. cbn [bind] in *.
  destruct (norm_idx 4 i1); [|discriminate]. cbn [bind] in *.
  destruct (dict_get dic 45) as [i2|e|]; [|discriminate..]. cbn [bind] in *.
  destruct (norm_idx 4 i2); [|discriminate]. cbn [bind] in *.
  destruct (dict_get dic (-45)) as [i3|e|]; [|discriminate..]. cbn [bind] in *.
  destruct (norm_idx 4 i3); [|discriminate]. cbn [bind] in *. eauto.
Qed.

Record obj_ok (h : heap) (im : image) : Prop := mkobj_ok {
  ok_data : exists d, nth_error (arrays h) (i_data im) = Some d /\ mosaic d /\
              i_height im = rows d /\ i_width im = cols d;
  ok_header : (i_header im < length (headers h))%nat;
  ok_stokes : (i_stokes im < length (vectors h))%nat;
  ok_quad : forall p, i_demos im = Some p -> (p < length (quads h))%nat;
  ok_demos : i_demosaiced im = true -> i_demos im <> None;
  ok_dic : complete (i_dic im)
}.
Definition heap_ok (h : heap) : Prop := Forall (obj_ok h) (images h).
(** The object a method runs on, and everything else. *)
Definition all_ok (st : image * heap) : Prop := obj_ok (snd st) (fst st) /\ heap_ok (snd st).

Lemma keeps_len {A} (l l' : list A) : keeps l l' -> (length l <= length l')%nat.
Proof.
  intros H. destruct (Nat.le_gt_cases (length l) (length l')) as [Hl|Hl]; [exact Hl|].
  destruct (nth_error_lt l (length l') Hl) as (a & E). apply H in E.
  apply lt_nth_error in E. lia.
Qed.

(** Other objects stay well formed. *)
Lemma obj_ok_evolves ow im h im' h' x : evolves ow im h im' h' -> obj_ok h x -> obj_ok h' x.
Proof.
  intros V [O1 O2 O3 O4 O5 O6]. split; auto.
  - destruct O1 as (d & E & Hm & Hd). exists d. split; [apply (ev_arrays _ _ _ _ _ V), E|auto].
  - rewrite (ev_hlen _ _ _ _ _ V). exact O2.
  - pose proof (ev_vlen _ _ _ _ _ V). lia.
  - intros p E. pose proof (keeps_len _ _ (ev_quads _ _ _ _ _ V)). specialize (O4 p E). lia.
Qed.
Lemma heap_ok_evolves ow im h im' h' : evolves ow im h im' h' -> heap_ok h -> heap_ok h'.
Proof.
  intros V H. unfold heap_ok in *. rewrite (ev_images _ _ _ _ _ V).
  apply Forall_forall. intros x Hx. rewrite Forall_forall in H. eapply obj_ok_evolves; [exact V|auto].
Qed.

(** A method that keeps objects well formed, whatever happens, and what its value satisfies. *)
Definition inv {A} (m : method A) (P : A -> Prop) : Prop :=
  forall st, all_ok st -> let (st', r) := m st in all_ok st' /\ forall a, r = Ok a -> P a.

Lemma inv_bind {A B} (m : method A) P (k : A -> method B) Q :
  inv m P -> (forall a, P a -> inv (k a) Q) -> inv (mbind m k) Q.
Proof.
  intros Hm Hk st Hst. unfold mbind. specialize (Hm st Hst). destruct (m st) as [st' r].
  destruct Hm as (Hst' & Hr). destruct r as [a|e|]; [|split; [exact Hst'|discriminate]..].
  exact (Hk a (Hr a eq_refl) st' Hst').
Qed.
Lemma inv_weak {A} (m : method A) (P Q : A -> Prop) : (forall a, P a -> Q a) -> inv m P -> inv m Q.
Proof.
  intros H Hm st Hst. specialize (Hm st Hst). destruct (m st) as [st' r].
  destruct Hm as (H1 & H2). auto.
Qed.
Lemma inv_ret {A} (a : A) (P : A -> Prop) : P a -> inv (ret a) P.
Proof. intros H st Hst. cbn. split; [exact Hst|]. intros b E. injection E as <-. exact H. Qed.
Lemma inv_lift {A} (r : result A) : inv (lift r) (fun a => r = Ok a).
Proof. intros st Hst. cbn. split; [exact Hst|auto]. Qed.
Lemma inv_self : inv self (fun _ => True).
Proof. intros st Hst. cbn. auto. Qed.
Lemma inv_deref {A} (f : heap -> list A) p : inv (deref f p) (fun _ => True).
Proof. intros st Hst. cbn. auto. Qed.

Lemma my_data_is st : all_ok st -> exists d, my_data st = (st, Ok d) /\
  nth_error (arrays (snd st)) (i_data (fst st)) = Some d /\ mosaic d /\
  i_height (fst st) = rows d /\ i_width (fst st) = cols d.
Proof.
  intros [O _]. destruct (ok_data _ _ O) as (d & E & Hm & H1 & H2). exists d.
  unfold my_data, mbind, self, deref. cbn. rewrite E. auto.
Qed.
Lemma inv_my_data : inv my_data mosaic.
Proof.
  intros st Hst. destruct (my_data_is st Hst) as (d & E & _ & Hm & _). rewrite E.
  split; [exact Hst|]. intros a F. injection F as <-. exact Hm.
Qed.
Lemma inv_data_of j : inv (data_of j) mosaic.
Proof.
  intros st Hst. unfold data_of, mbind, deref. cbn.
  destruct (nth_error (images (snd st)) j) as [im|] eqn:E; [|split; [exact Hst|discriminate]].
  destruct Hst as [O1 O2]. split; [split; assumption|]. intros d F.
  unfold heap_ok in O2. rewrite Forall_forall in O2. specialize (O2 im (nth_error_In _ _ E)).
  destruct (ok_data _ _ O2) as (d' & E' & Hm & _). rewrite E' in F. injection F as <-. exact Hm.
Qed.

(** From [sat] and what happens to the object itself. *)
Lemma inv_of_sat {A} (m : method A) ow :
  sat ow m -> (forall im h im' h' r, all_ok (im, h) -> m (im, h) = ((im', h'), r) -> obj_ok h' im') ->
  inv m (fun _ => True).
Proof.
  intros Hs Ho [im h] Hst. destruct (m (im, h)) as [[im' h'] r] eqn:E. split; [|auto]. split; cbn [fst snd].
  - exact (Ho _ _ _ _ _ Hst E).
  - exact (heap_ok_evolves _ _ _ _ _ (Hs _ _ _ _ _ E) (proj2 Hst)).
Qed.

Lemma inv_set_data d : mosaic d -> inv (set_data d) (fun _ => True).
Proof.
  intros Hm. apply (inv_of_sat _ false); [apply sat_set_data|]. intros im h im' h' r Hst E.
  pose proof (sat_set_data false d _ _ _ _ _ E) as V. destruct Hst as [O _]. cbn [fst snd] in O.
  unfold set_data, mbind, new_array, set_self, self, write_header in E. cbn in E. injection E as <- <- _.
  destruct O as [O1 O2 O3 O4 O5 O6]. split; cbn; auto.
  - exists d. rewrite nth_error_app2, Nat.sub_diag by lia. cbn. auto.
  - rewrite replace_length. exact O2.
Qed.
Lemma inv_new_vector_set s : inv (call p <- new_vector s; set_stokes p) (fun _ => True).
Proof.
  apply (inv_of_sat _ false); [apply sat_new_vector_set|]. intros im h im' h' r Hst E.
  destruct Hst as [O _]. cbn [fst snd] in O.
  unfold set_stokes, mbind, new_vector, set_self in E. cbn in E. injection E as <- <- _.
  destruct O as [O1 O2 O3 O4 O5 O6]. split; cbn; auto. rewrite app_length. cbn. lia.
Qed.
Lemma inv_new_quad_set q b : inv (call p <- new_quad q; set_demosaiced p b) (fun _ => True).
Proof.
  apply (inv_of_sat _ false); [apply sat_new_quad_set|]. intros im h im' h' r Hst E.
  destruct Hst as [O _]. cbn [fst snd] in O.
  unfold set_demosaiced, mbind, new_quad, set_self in E. cbn in E. injection E as <- <- _.
  destruct O as [O1 O2 O3 O4 O5 O6]. split; cbn; auto; [|discriminate].
  intros p F. injection F as <-. rewrite app_length. cbn. lia.
Qed.
Lemma inv_set_demodulated : inv set_demodulated (fun _ => True).
Proof.
  apply (inv_of_sat _ false); [apply sat_set_demodulated|]. intros im h im' h' r [O _] E.
  injection E as <- <- _. destruct O as [O1 O2 O3 O4 O5 O6]. split; cbn; auto.
Qed.
Lemma inv_set_dark : inv set_dark_flag (fun _ => True).
Proof.
  apply (inv_of_sat _ false); [apply sat_set_dark|]. intros im h im' h' r [O _] E.
  injection E as <- <- _. destruct O as [O1 O2 O3 O4 O5 O6]. split; cbn; auto.
Qed.
Lemma inv_set_flat : inv set_flat_flag (fun _ => True).
Proof.
  apply (inv_of_sat _ false); [apply sat_set_flat|]. intros im h im' h' r [O _] E.
  injection E as <- <- _. destruct O as [O1 O2 O3 O4 O5 O6]. split; cbn; auto.
Qed.

Lemma inv_theo : inv theo_components (fun _ => True).
Proof.
  apply (inv_bind _ _ _ _ inv_self). intros im _. apply (inv_bind _ (fun _ => True)).
  - destruct (i_demosaiced im).
    + destruct (i_demos im); [apply inv_deref|].
      apply (inv_weak _ _ _ (fun a _ => I) (inv_lift _)).
    + apply (inv_bind _ _ _ _ inv_my_data). intros d _.
      apply (inv_weak _ _ _ (fun a _ => I) (inv_lift _)).
  - intros q _. apply (inv_weak _ _ _ (fun a _ => I) (inv_lift _)).
Qed.
Lemma inv_update_stokes : inv update_stokes (fun _ => True).
Proof. apply (inv_bind _ _ _ _ inv_theo). intros s _. apply inv_new_vector_set. Qed.
Lemma inv_update d : mosaic d -> inv (update_data_and_stokes d) (fun _ => True).
Proof. intros Hm. apply (inv_bind _ _ _ _ (inv_set_data d Hm)). intros _ _. apply inv_update_stokes. Qed.

Lemma inv_subtract_dark j : inv (subtract_dark j) (fun _ => True).
Proof.
  apply (inv_bind _ _ _ _ inv_my_data). intros d Hd. apply (inv_bind _ _ _ _ (inv_data_of j)). intros e He.
  apply (inv_bind _ _ _ _ (inv_lift _)). intros f Hf.
  assert (Hm : mosaic f) by (apply (mosaic_shape f d); [apply (bmap2_even_l _ _ _ _ Hd Hf)|exact Hd]).
  apply (inv_bind _ _ _ _ (inv_set_data f Hm)). intros _ _.
  apply (inv_bind _ _ _ _ (inv_set_data _ (mosaic_amap _ _ Hm))). intros _ _.
  apply (inv_bind _ _ _ _ inv_update_stokes). intros _ _. apply inv_set_dark.
Qed.
Lemma inv_correct_flat W j : inv (correct_flat W j) (fun _ => True).
Proof.
  apply (inv_bind _ _ _ _ (inv_data_of j)). intros e He. apply (inv_bind _ _ _ _ inv_my_data). intros d Hd.
  apply (inv_bind _ _ _ _ (inv_lift _)). intros f Hf.
  assert (Hm : mosaic f) by (apply (mosaic_shape f d); [apply (divide_where_even _ _ _ _ Hd Hf)|exact Hd]).
  apply (inv_bind _ _ _ _ (inv_set_data f Hm)). intros _ _.
  apply (inv_bind _ _ _ _ inv_update_stokes). intros _ _. apply inv_set_flat.
Qed.
Lemma inv_ifov : inv correct_ifov (fun _ => True).
Proof.
  intros st Hst. destruct (my_data_is st Hst) as (d & E & E1 & Hm & H1 & H2).
  unfold correct_ifov, mbind at 1. rewrite E. revert st Hst E E1 H1 H2.
  intros st Hst _ _ H1 H2. unfold mbind at 1, self at 1.
  assert (Hi : inv (call corrected <- lift (ifov_jitcorrect d (i_height (fst st)) (i_width (fst st)));
                    update_data_and_stokes corrected) (fun _ => True)).
  { apply (inv_bind _ _ _ _ (inv_lift _)). intros f Hf. apply inv_update.
    apply (mosaic_shape f d); [exact (ifov_even _ _ _ _ Hm H1 H2 Hf)|exact Hm]. }
  exact (Hi st Hst).
Qed.
Lemma inv_corrections W dark flat : inv (corrections W dark flat) (fun _ => True).
Proof.
  apply (inv_bind _ (fun _ => True)).
  - destruct dark; [apply inv_subtract_dark|apply inv_ret; exact I].
  - intros _ _. destruct flat; [apply inv_correct_flat|apply inv_ret; exact I].
Qed.
Lemma inv_assoc {A B C} (m : method A) (k : A -> method B) (l : B -> method C) Q :
  inv (mbind (mbind m k) l) Q -> inv (mbind m (fun a => mbind (k a) l)) Q.
Proof. intros H st Hst. specialize (H st Hst). rewrite mbind_assoc in H. exact H. Qed.
Lemma inv_demosaic mode : inv (demosaic_image mode) (fun _ => True).
Proof.
  apply (inv_bind _ _ _ _ inv_my_data). intros d Hd. apply (inv_bind _ _ _ _ (inv_lift _)). intros q _.
  apply inv_assoc. apply (inv_bind _ _ _ _ (inv_new_quad_set q true)). intros _ _. apply inv_update_stokes.
Qed.
Lemma inv_write_vector p s : inv (write_vector p s) (fun _ => True).
Proof.
  intros [im h] [O1 O2]. cbn in *. split; [|auto].
  assert (K : forall x, obj_ok h x -> obj_ok (mkheap (arrays h) (headers h) (replace (vectors h) p s)
              (quads h) (images h) (default_angles h)) x).
  { intros x [P1 P2 P3 P4 P5 P6]. split; cbn; auto. rewrite replace_length. exact P3. }
  split; cbn [fst snd]; [apply K, O1|]. unfold heap_ok in *. cbn. rewrite Forall_forall in *. auto.
Qed.
Lemma inv_overwrite f p : inv (overwrite_vector f p) (fun _ => True).
Proof.
  apply (inv_bind _ _ _ _ (inv_deref _ _)). intros s _.
  apply (inv_bind _ _ _ _ (inv_lift _)). intros i _. apply (inv_bind _ _ _ _ (inv_write_vector _ _)). intros _ _.
  apply (inv_bind _ _ _ _ (inv_lift _)). intros q _. apply (inv_bind _ _ _ _ (inv_write_vector _ _)). intros _ _.
  apply (inv_bind _ _ _ _ (inv_lift _)). intros u _. apply inv_write_vector.
Qed.
Lemma inv_mask y x r over fill : inv (mask_occulter y x r over fill) (fun _ => True).
Proof.
  apply (inv_bind _ _ _ _ inv_self). intros im _. apply (inv_bind _ _ _ _ inv_my_data). intros d Hd.
  apply (inv_bind _ _ _ _ (inv_lift _)). intros f Hf.
  assert (Hm : mosaic f) by (apply (mosaic_shape f d); [apply (roi_even _ _ _ _ _ _ _ Hd Hf)|exact Hd]).
  apply (inv_bind _ _ _ _ (inv_set_data f Hm)). intros _ _.
  apply (inv_bind _ _ _ _ inv_self). intros im1 _. apply (inv_bind _ (fun _ => True)).
  - destruct (i_demosaiced im1); [|apply inv_ret; exact I].
    destruct (i_demos im1); [|apply (inv_weak _ _ _ (fun a _ => I) (inv_lift _))].
    apply (inv_bind _ _ _ _ (inv_deref _ _)). intros q _. apply (inv_bind _ _ _ _ (inv_lift _)). intros q' _.
    apply inv_new_quad_set.
  - intros _ _. apply inv_overwrite.
Qed.
Lemma inv_from_demodulator d b : inv (stokes_from_demodulator d b) (fun _ => True).
Proof.
  unfold stokes_from_demodulator. destruct b.
  - apply (inv_bind _ _ _ _ (inv_demosaic _)). intros _ _. apply (inv_bind _ _ _ _ inv_self). intros im _.
    destruct (i_demos im); [|apply (inv_weak _ _ _ (fun a _ => I) (inv_lift _))].
    apply (inv_bind _ _ _ _ (inv_deref _ _)). intros q _. apply (inv_bind _ _ _ _ (inv_deref _ _)). intros s _.
    apply (inv_weak _ _ _ (fun a _ => I) (inv_lift _)).
  - apply (inv_bind _ _ _ _ inv_my_data). intros q _. apply (inv_bind _ _ _ _ inv_self). intros im _.
    apply (inv_bind _ _ _ _ (inv_deref _ _)). intros s _. apply (inv_weak _ _ _ (fun a _ => I) (inv_lift _)).
Qed.

(** ** Recomputing the Stokes vector *)

(** The quad the theoretical Stokes vector is computed from. *)
Definition source_quad (h : heap) (im : image) (q : quad R) : Prop :=
  if i_demosaiced im then exists p, i_demos im = Some p /\ nth_error (quads h) p = Some q
  else exists d, nth_error (arrays h) (i_data im) = Some d /\ split_polarizations d = Ok q.

Definition with_stokes (p : nat) (im : image) : image :=
  mkimage (i_data im) (i_height im) (i_width im) (i_header im) p (i_demos im)
    (i_dic im) (i_demosaiced im) (i_demodulated im) (i_dark im) (i_flat im).
Definition add_vector (s : stokes R) (h : heap) : heap :=
  mkheap (arrays h) (headers h) (vectors h ++ [s]) (quads h) (images h) (default_angles h).

(** On a well-formed object [update_stokes] never fails. *)
Lemma update_stokes_is im h :
  (exists d, nth_error (arrays h) (i_data im) = Some d /\ mosaic d) ->
  (i_demosaiced im = true -> exists p q, i_demos im = Some p /\ nth_error (quads h) p = Some q) ->
  complete (i_dic im) ->
  exists q s, source_quad h im q /\ theo_stokes (i_dic im) q = Ok s /\
    update_stokes (im, h) = ((with_stokes (length (vectors h)) im, add_vector s h), Ok tt).
Proof.
  intros (d & Ed & Hm) Hq Hc.
  assert (Hs : exists q, source_quad h im q /\
     forall k, mbind (if i_demosaiced im then match i_demos im with Some p => deref quads p | None => lift (Raise TypeError) end
                else mbind my_data (fun data => lift (split_polarizations data))) k (im, h) = k q (im, h) :> (image * heap * result (stokes R))).
  { unfold source_quad. destruct (i_demosaiced im).
    - destruct (Hq eq_refl) as (p & q & E1 & E2). exists q. split; [eauto|].
      intros k. rewrite E1. unfold mbind, deref. cbn [snd]. rewrite E2. reflexivity.
    - destruct (split_ok_mosaic d Hm) as (q & Eq). exists q. split; [eauto|].
      intros k. unfold my_data, mbind, self, deref, lift. cbn [fst snd]. rewrite Ed, Eq. reflexivity. }
  destruct Hs as (q & Hsrc & Hk). destruct (Hc q) as (s & Es). exists q, s.
  split; [exact Hsrc|]. split; [exact Es|].
  unfold update_stokes. unfold mbind at 1. unfold theo_components.
  unfold mbind at 1. unfold self at 1. cbn [fst]. rewrite Hk. unfold lift. rewrite Es. reflexivity.
Qed.
Lemma update_ok im h : obj_ok h im ->
  exists q s, source_quad h im q /\ theo_stokes (i_dic im) q = Ok s /\
    update_stokes (im, h) = ((with_stokes (length (vectors h)) im, add_vector s h), Ok tt).
Proof.
  intros [O1 O2 O3 O4 O5 O6]. apply update_stokes_is; [|intros E|exact O6].
  - destruct O1 as (d & E & Hm & _). eauto.
  - specialize (O5 E). destruct (i_demos im) as [p|] eqn:Ep; [|congruence].
    destruct (nth_error_lt _ _ (O4 p eq_refl)) as (q & Eq). eauto.
Qed.
