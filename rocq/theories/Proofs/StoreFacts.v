(** Which images share the memory of their pixels. *)
From Coq Require Import Reals Lra ZifyBool.
From Verif Require Import Base.Base Base.BaseFacts Base.Num Base.Bcast Model.Demosaic Model.Rebin Model.Shift
  Model.Ifov Model.Stokes Model.Utils Model.Roi Model.Demodulate Model.ImageObj Model.Pixels Spec.MosaicSpec
  Spec.StokesSpec Spec.ImageSpec Spec.StoreSpec Proofs.DemosaicFacts Proofs.MosaicFacts Proofs.StokesFacts
  Proofs.ObjFacts Proofs.ObjInv Proofs.ObjExec Proofs.ObjViews Proofs.ObjMore Proofs.ObjWitness.

(** ** Where a method leaves the pixels *)

Definition fresh (h h' : heap) (im : image) : Prop :=
  (length (arrays h) <= i_data im < length (arrays h'))%nat.
Definition moved (im : image) (h : heap) (im' : image) (h' : heap) : Prop :=
  (length (arrays h) <= length (arrays h'))%nat /\ (i_data im' = i_data im \/ fresh h h' im').
Lemma moved_refl im h : moved im h im h.
Proof. split; [lia|left; reflexivity]. Qed.
Lemma moved_trans im h im1 h1 im2 h2 : moved im h im1 h1 -> moved im1 h1 im2 h2 -> moved im h im2 h2.
Proof.
  unfold moved, fresh. intros (A1 & A2) (B1 & B2). split; [lia|]. destruct B2 as [B2|B2]; [|right; lia].
  destruct A2 as [A2|A2]; [left; congruence|right; lia].
Qed.

Definition moves {A} (m : method A) : Prop :=
  forall im h im' h' r, m (im, h) = ((im', h'), r) -> moved im h im' h'.
Definition renews {A} (m : method A) : Prop :=
  forall im h im' h' a, m (im, h) = ((im', h'), Ok a) -> fresh h h' im'.
Definition stays {A} (m : method A) : Prop :=
  forall im h im' h' r, m (im, h) = ((im', h'), r) -> i_data im' = i_data im /\ arrays h' = arrays h.

Lemma stays_moves {A} (m : method A) : stays m -> moves m.
Proof. intros H im h im' h' r E. destruct (H _ _ _ _ _ E) as (E1 & E2). unfold moved. rewrite E1, E2. auto. Qed.
Lemma stays_bind {A B} (m : method A) (k : A -> method B) : stays m -> (forall a, stays (k a)) -> stays (mbind m k).
Proof.
  intros Hm Hk im h im' h' r E. unfold mbind in E. destruct (m (im, h)) as [[im1 h1] [a|e|]] eqn:Em.
  - destruct (Hm _ _ _ _ _ Em), (Hk a _ _ _ _ _ E). split; congruence.
  - injection E as <- <- _. exact (Hm _ _ _ _ _ Em).
  - injection E as <- <- _. exact (Hm _ _ _ _ _ Em).
Qed.
Lemma moves_bind {A B} (m : method A) (k : A -> method B) : moves m -> (forall a, moves (k a)) -> moves (mbind m k).
Proof.
  intros Hm Hk im h im' h' r E. unfold mbind in E. destruct (m (im, h)) as [[im1 h1] [a|e|]] eqn:Em.
  - exact (moved_trans _ _ _ _ _ _ (Hm _ _ _ _ _ Em) (Hk a _ _ _ _ _ E)).
  - injection E as <- <- _. exact (Hm _ _ _ _ _ Em).
  - injection E as <- <- _. exact (Hm _ _ _ _ _ Em).
Qed.
Lemma renews_first {A B} (m : method A) (k : A -> method B) : renews m -> (forall a, moves (k a)) -> renews (mbind m k).
Proof.
  intros Hm Hk im h im' h' r E. unfold mbind in E. destruct (m (im, h)) as [[im1 h1] [a|e|]] eqn:Em; [|discriminate..].
  pose proof (Hm _ _ _ _ _ Em) as F. destruct (Hk a _ _ _ _ _ E) as (L & D). unfold fresh in *. destruct D; lia.
Qed.
Lemma renews_then {A B} (m : method A) (k : A -> method B) : moves m -> (forall a, renews (k a)) -> renews (mbind m k).
Proof.
  intros Hm Hk im h im' h' r E. unfold mbind in E. destruct (m (im, h)) as [[im1 h1] [a|e|]] eqn:Em; [|discriminate..].
  destruct (Hm _ _ _ _ _ Em) as (L & _). pose proof (Hk a _ _ _ _ _ E) as F. unfold fresh in *. lia.
Qed.

Lemma stays_pure {A} (f : image * heap -> result A) : stays (fun st => (st, f st)).
Proof. intros im h im' h' r E. injection E as <- <- _. auto. Qed.
Lemma stays_my_data : stays my_data.
Proof. exact (stays_pure _). Qed.
Lemma stays_data_of j : stays (data_of j).
Proof. apply stays_bind; [exact (stays_pure _)|intros; exact (stays_pure _)]. Qed.
Lemma stays_theo : stays theo_components.
Proof.
  apply stays_bind; [exact (stays_pure _)|]. intros im. apply stays_bind; [|intros; exact (stays_pure _)].
  destruct (i_demosaiced im); [destruct (i_demos im); exact (stays_pure _)|].
  apply stays_bind; [exact stays_my_data|intros; exact (stays_pure _)].
Qed.
Lemma stays_new_vector_set s : stays (call p <- new_vector s; set_stokes p).
Proof. intros im h im' h' r E. injection E as <- <- _. auto. Qed.
Lemma stays_update_stokes : stays update_stokes.
Proof. apply stays_bind; [exact stays_theo|]. intros s. apply stays_new_vector_set. Qed.
Lemma stays_set_self f : (forall im, i_data (f im) = i_data im) -> stays (set_self f).
Proof. intros Hf im h im' h' r E. injection E as <- <- _. auto. Qed.
Lemma stays_demosaic mode : stays (demosaic_image mode).
Proof.
  apply stays_bind; [exact stays_my_data|intros d]. apply stays_bind; [exact (stays_pure _)|intros q].
  apply stays_bind; [intros im h im' h' r E; injection E as <- <- _; auto|intros p].
  apply stays_bind; [apply stays_set_self; reflexivity|intros _]. exact stays_update_stokes.
Qed.
Lemma stays_overwrite f p : stays (overwrite_vector f p).
Proof.
  unfold overwrite_vector. apply stays_bind; [exact (stays_pure _)|intros s].
  apply stays_bind; [exact (stays_pure _)|intros i].
  apply stays_bind; [intros im h im' h' r E; injection E as <- <- _; auto|intros _].
  apply stays_bind; [exact (stays_pure _)|intros q].
  apply stays_bind; [intros im h im' h' r E; injection E as <- <- _; auto|intros _].
  apply stays_bind; [exact (stays_pure _)|intros u].
  intros im h im' h' r E; injection E as <- <- _; auto.
Qed.
Lemma stays_from_demodulator d b : stays (stokes_from_demodulator d b).
Proof.
  unfold stokes_from_demodulator. destruct b.
  - apply stays_bind; [apply stays_demosaic|intros _]. apply stays_bind; [exact (stays_pure _)|intros im].
    destruct (i_demos im); [|exact (stays_pure _)]. apply stays_bind; [exact (stays_pure _)|intros q].
    apply stays_bind; [exact (stays_pure _)|intros s]. exact (stays_pure _).
  - apply stays_bind; [exact stays_my_data|intros q]. apply stays_bind; [exact (stays_pure _)|intros im].
    apply stays_bind; [exact (stays_pure _)|intros s]. exact (stays_pure _).
Qed.

Lemma set_data_fresh d im h im' h' r : set_data d (im, h) = ((im', h'), r) ->
  fresh h h' im' /\ (length (arrays h) <= length (arrays h'))%nat.
Proof.
  intros E. unfold set_data, mbind, new_array, set_self, self, write_header in E. cbn in E.
  injection E as <- <- _. unfold fresh. cbn. rewrite app_length. cbn. lia.
Qed.
Lemma moves_set_data d : moves (set_data d).
Proof. intros im h im' h' r E. destruct (set_data_fresh _ _ _ _ _ _ E). split; auto. Qed.
Lemma renews_set_data d : renews (set_data d).
Proof. intros im h im' h' r E. exact (proj1 (set_data_fresh _ _ _ _ _ _ E)). Qed.
Lemma renews_update d : renews (update_data_and_stokes d).
Proof. apply renews_first; [apply renews_set_data|intros _; apply stays_moves, stays_update_stokes]. Qed.
Lemma moves_update d : moves (update_data_and_stokes d).
Proof. apply moves_bind; [apply moves_set_data|intros _; apply stays_moves, stays_update_stokes]. Qed.

Ltac pure_moves := apply stays_moves; exact (stays_pure _).
Lemma moves_subtract_dark j : moves (subtract_dark j).
Proof.
  apply moves_bind; [apply stays_moves, stays_my_data|intros d].
  apply moves_bind; [apply stays_moves, stays_data_of|intros e].
  apply moves_bind; [pure_moves|intros f]. apply moves_bind; [apply moves_set_data|intros _].
  apply moves_bind; [apply moves_set_data|intros _]. apply stays_moves.
  apply stays_bind; [exact stays_update_stokes|intros _]. apply stays_set_self; reflexivity.
Qed.
Lemma renews_subtract_dark j : renews (subtract_dark j).
Proof.
  apply renews_then; [apply stays_moves, stays_my_data|intros d].
  apply renews_then; [apply stays_moves, stays_data_of|intros e].
  apply renews_then; [pure_moves|intros f]. apply renews_first; [apply renews_set_data|intros _].
  apply moves_bind; [apply moves_set_data|intros _]. apply stays_moves.
  apply stays_bind; [exact stays_update_stokes|intros _]. apply stays_set_self; reflexivity.
Qed.
Lemma moves_correct_flat W j : moves (correct_flat W j).
Proof.
  apply moves_bind; [apply stays_moves, stays_data_of|intros d].
  apply moves_bind; [apply stays_moves, stays_my_data|intros e].
  apply moves_bind; [pure_moves|intros f]. apply moves_bind; [apply moves_set_data|intros _]. apply stays_moves.
  apply stays_bind; [exact stays_update_stokes|intros _]. apply stays_set_self; reflexivity.
Qed.
Lemma renews_correct_flat W j : renews (correct_flat W j).
Proof.
  apply renews_then; [apply stays_moves, stays_data_of|intros d].
  apply renews_then; [apply stays_moves, stays_my_data|intros e].
  apply renews_then; [pure_moves|intros f]. apply renews_first; [apply renews_set_data|intros _]. apply stays_moves.
  apply stays_bind; [exact stays_update_stokes|intros _]. apply stays_set_self; reflexivity.
Qed.
Lemma moves_ifov : moves correct_ifov.
Proof.
  apply moves_bind; [apply stays_moves, stays_my_data|intros d]. apply moves_bind; [pure_moves|intros im].
  apply moves_bind; [pure_moves|intros f]. apply moves_update.
Qed.
Lemma renews_ifov : renews correct_ifov.
Proof.
  apply renews_then; [apply stays_moves, stays_my_data|intros d]. apply renews_then; [pure_moves|intros im].
  apply renews_then; [pure_moves|intros f]. apply renews_update.
Qed.
Lemma moves_mask y x r over fill : moves (mask_occulter y x r over fill).
Proof.
  unfold mask_occulter. cbv zeta. apply moves_bind; [pure_moves|intros im].
  apply moves_bind; [apply stays_moves, stays_my_data|intros d]. apply moves_bind; [pure_moves|intros f].
  apply moves_bind; [apply moves_set_data|intros _]. apply moves_bind; [pure_moves|intros im1]. apply stays_moves.
  apply stays_bind; [|intros _; apply stays_overwrite].
  destruct (i_demosaiced im1); [|exact (stays_pure _)]. destruct (i_demos im1); [|exact (stays_pure _)].
  apply stays_bind; [exact (stays_pure _)|intros q]. apply stays_bind; [exact (stays_pure _)|intros q'].
  apply stays_bind; [intros a h a' h' r' E; injection E as <- <- _; auto|intros p]. apply stays_set_self; reflexivity.
Qed.
Lemma moves_corrections W dark flat : moves (corrections W dark flat).
Proof.
  apply moves_bind.
  - destruct dark; [apply moves_subtract_dark|pure_moves].
  - intros _. destruct flat; [apply moves_correct_flat|pure_moves].
Qed.
Lemma renews_corrections W dark flat : (dark <> None \/ flat <> None) -> renews (corrections W dark flat).
Proof.
  intros H. unfold corrections. destruct dark as [j|].
  - apply renews_first; [apply renews_subtract_dark|]. intros _. destruct flat; [apply moves_correct_flat|pure_moves].
  - destruct flat as [j|]; [|destruct H; congruence].
    apply renews_then; [pure_moves|intros _; apply renews_correct_flat].
Qed.

Lemma inplace_moves W c i m : inplace W c i m -> moves m /\ (new_pixels c -> renews m).
Proof.
  destruct 1; split; auto using moves_subtract_dark, renews_subtract_dark, moves_correct_flat, renews_correct_flat,
    moves_ifov, renews_ifov, moves_mask, stays_moves, stays_demosaic; cbn; tauto.
Qed.
Lemma derived_moves W h c i dic m : derived W h c i dic m ->
  moves m /\ ((new_pixels c /\ renews m) \/ (same_pixels c i /\ stays m)).
Proof.
  destruct 1 as [i dic dark flat|i b data Hb Hd|i ny nx data d Hd E|i y x mv data d Hd E
                          |i m data flags d Hd Hf E|f i j data second d Hd Hs E|i dm b].
  - split; [apply moves_corrections|]. destruct dark as [j|]; [|destruct flat as [j|]].
    + left. split; [exact I|]. apply renews_corrections. left; discriminate.
    + left. split; [exact I|]. apply renews_corrections. right; discriminate.
    + right. split; [reflexivity|]. intros im h0 im' h' r E. injection E as <- <- _. auto.
  - split; [apply moves_bind; [pure_moves|intros d; apply moves_update]|].
    left. split; [exact I|]. apply renews_then; [pure_moves|intros d; apply renews_update].
  - assert (S : forall (u : unit), stays (call im <- self;
       call s <- deref vectors (i_stokes im);
       call i <- lift (resize W (sI s) (ny - ny mod 2) (nx - nx mod 2));
       call q <- lift (resize W (sQ s) (ny - ny mod 2) (nx - nx mod 2));
       call u <- lift (resize W (sU s) (ny - ny mod 2) (nx - nx mod 2));
       call p <- new_vector (mkstokes i q u);
       set_stokes p)).
    { intros _. apply stays_bind; [exact (stays_pure _)|intros im]. apply stays_bind; [exact (stays_pure _)|intros s].
      apply stays_bind; [exact (stays_pure _)|intros a]. apply stays_bind; [exact (stays_pure _)|intros q].
      apply stays_bind; [exact (stays_pure _)|intros u]. apply stays_new_vector_set. }
    split; [apply moves_bind; [apply moves_set_data|intros u; apply stays_moves, S; exact u]|].
    left. split; [exact I|]. apply renews_first; [apply renews_set_data|intros u; apply stays_moves, S; exact u].
  - split; [apply moves_update|]. left. split; [exact I|apply renews_update].
  - split; [apply moves_update|]. left. split; [exact I|apply renews_update].
  - split; [apply moves_update|]. left. split; [exact I|apply renews_update].
  - assert (S : stays (call s <- stokes_from_demodulator dm b; call p <- new_vector s; call _ <- set_stokes p; set_demodulated)).
    { apply stays_bind; [apply stays_from_demodulator|intros s].
      apply stays_bind; [intros im h0 im' h' r E; injection E as <- <- _; auto|intros p].
      apply stays_bind; [apply stays_set_self; reflexivity|intros _]. apply stays_set_self; reflexivity. }
    split; [apply stays_moves, S|]. right. split; [reflexivity|exact S].
Qed.

(** ** What a call does to the list of images *)

Inductive outcome (h : heap) (c : op) (h' : heap) (r : result (option nat)) : Prop :=
| o_same : images h' = images h -> (forall k, r <> Ok (Some k)) -> outcome h c h' r
| o_changed i im im' : nth_error (images h) i = Some im -> images h' = replace (images h) i im' ->
    i_data im' = i_data im \/ fresh h h' im' ->
    (forall k, r = Ok (Some k) -> k = i /\ (new_pixels c -> fresh h h' im')) ->
    (forall k, ~ same_pixels c k) -> outcome h c h' r
| o_new im' : images h' = images h ++ [im'] -> r = Ok (Some (length (images h))) ->
    (new_pixels c /\ fresh h h' im') \/ (exists i im, same_pixels c i /\ nth_error (images h) i = Some im /\ i_data im' = i_data im) ->
    outcome h c h' r.

Lemma put_arrays l h : arrays (put_images l h) = arrays h.
Proof. reflexivity. Qed.
Lemma handed_arrays r im h : arrays (handed r im h) = arrays h.
Proof. destruct r; reflexivity. Qed.
Lemma choose_arrays dic h : arrays (snd (choose_dic dic h)) = arrays h /\ images (snd (choose_dic dic h)) = images h.
Proof. unfold choose_dic. destruct dic; [|destruct (default_angles h)]; auto. Qed.

Lemma new_same_excl c i : new_pixels c -> same_pixels c i -> False.
Proof. destruct c; cbn; auto. destruct dark, flat; auto. Qed.

Lemma step_outcome W h c h' r : step W h c h' r ->
  (length (arrays h) <= length (arrays h'))%nat /\ outcome h c h' r.
Proof.
  destruct 1 as [c r Hr|d|c i m im im' h' r Hi Ei Em|c i dic m im im' h' r Hd Ei Em
                |data dic dark flat d1 h1 im' h' r Ec Em|f i s im data im' h' r Ei Ed Em
                |i angle im data s q h1 r1 im' h' r Ei Ed Es Eq Eo Hr].
  - split; [lia|]. apply o_same; [reflexivity|]. intros k. apply Hr.
  - split; [cbn; lia|]. apply o_same; [reflexivity|discriminate].
  - destruct (inplace_moves _ _ _ _ Hi) as (Hm & Hn). destruct (Hm _ _ _ _ _ Em) as (L & D).
    assert (Im : images h' = images h).
    { assert (S : exists ow, sat ow m).
      { destruct Hi; [exists true; apply sat_subtract_dark|exists true; apply sat_correct_flat|exists true; apply sat_ifov
                     |exists true; apply sat_demosaic|exists true; apply sat_mask]. }
      destruct S as (ow & S). exact (ev_images _ _ _ _ _ (S _ _ _ _ _ Em)). }
    split; [exact L|]. apply (o_changed _ _ _ _ i im im'); [exact Ei|cbn; rewrite Im; reflexivity|exact D| |].
    2:{ intros k. destruct Hi; cbn; auto. }
    intros k E. destruct r as [u|e|]; [|discriminate..]. cbn [on_ok] in E.
    split; [destruct c; congruence|]. intros Hc. exact (Hn Hc _ _ _ _ _ Em).
  - destruct (derived_moves _ _ _ _ _ _ Hd) as (Hm & Hn). destruct (choose_arrays dic h) as (CA & CI).
    destruct (Hm _ _ _ _ _ Em) as (L & _). rewrite CA in L. rewrite handed_arrays. split; [exact L|].
    pose proof (ev_images _ _ _ _ _ (derived_sat _ _ _ _ _ _ Hd _ _ _ _ _ Em)) as Im. rewrite CI in Im.
    destruct r as [u|e|]; cbn [handed name_of on_ok]; [|apply o_same; [exact Im|discriminate]..].
    rewrite Im. destruct Hn as [(Hc & Hn)|(Hc & Hn)].
    + pose proof (Hn _ _ _ _ _ Em) as F. unfold fresh in F. rewrite CA in F.
      apply (o_new _ _ _ _ im'); [cbn; reflexivity|reflexivity|left; split; [exact Hc|exact F]].
    + destruct (Hn _ _ _ _ _ Em) as (E1 & E2). apply (o_new _ _ _ _ im'); [reflexivity|reflexivity|].
      right. exists i, im. auto.
  - assert (Hm : moves (mbind update_stokes (fun _ => corrections W dark flat))).
    { apply moves_bind; [apply stays_moves, stays_update_stokes|intros _; apply moves_corrections]. }
    destruct (Hm _ _ _ _ _ Em) as (L & D). destruct (choose_arrays dic h) as (CA & CI). rewrite Ec in CA, CI. cbn [snd] in CA, CI.
    assert (Hs : sat true (mbind update_stokes (fun _ => corrections W dark flat))).
    { apply sat_bind; [apply sat_update_stokes|intros _; apply sat_corrections]. }
    pose proof (ev_images _ _ _ _ _ (Hs _ _ _ _ _ Em)) as Im. cbn in Im. rewrite CI in Im.
    assert (La : length (arrays (room h1 data)) = S (length (arrays h))) by (cbn; rewrite app_length, CA; cbn; lia).
    rewrite La in L. rewrite handed_arrays. split; [lia|].
    assert (F : fresh h h' im').
    { unfold fresh in *. rewrite La in D. destruct D as [D|D]; [rewrite D; cbn; rewrite CA|]; lia. }
    destruct r as [u|e|]; cbn [handed name_of on_ok]; [|apply o_same; [exact Im|discriminate]..].
    rewrite Im. apply (o_new _ _ _ _ im'); [reflexivity|reflexivity|left; split; [exact I|exact F]].
  - assert (Hm : stays (mbind update_stokes (fun _ => set_self (with_header (i_header im))))).
    { apply stays_bind; [exact stays_update_stokes|intros _; apply stays_set_self; reflexivity]. }
    destruct (Hm _ _ _ _ _ Em) as (D & E2).
    assert (Im : images h' = images h).
    { unfold mbind in Em. destruct (update_stokes _) as [[im2 h2] [u|e|]] eqn:Eu;
        pose proof (ev_images _ _ _ _ _ (sat_update_stokes true _ _ _ _ _ Eu)) as X; cbn in X;
        injection Em as _ <- _; exact X. }
    assert (La : length (arrays h') = S (length (arrays h))) by (rewrite E2; cbn; rewrite app_length; cbn; lia).
    rewrite handed_arrays. split; [lia|].
    assert (F : fresh h h' im') by (unfold fresh; rewrite La, D; cbn; lia).
    destruct r as [u|e|]; cbn [handed name_of on_ok]; [|apply o_same; [exact Im|discriminate]..].
    rewrite Im. apply (o_new _ _ _ _ im'); [reflexivity|reflexivity|left; split; [exact I|exact F]].
  - destruct (stays_overwrite _ _ _ _ _ _ _ Eo) as (_ & A1).
    pose proof (ev_images _ _ _ _ _ (proj1 (overwrite_evolves _ _ _ _ _ _ Eo))) as I1.
    rewrite handed_arrays. destruct r1 as [u|e|].
    + destruct Hr as (Es2 & ->). destruct (set_data_fresh _ _ _ _ _ _ Es2) as (F & L).
      destruct (choose_arrays None h1) as (CA & CI). unfold fresh in F. rewrite CA, A1 in F, L.
      pose proof (ev_images _ _ _ _ _ (sat_set_data true _ _ _ _ _ _ Es2)) as Im. rewrite CI, I1 in Im.
      split; [lia|]. cbn [handed name_of on_ok]. rewrite Im.
      apply (o_new _ _ _ _ im'); [reflexivity|reflexivity|left; split; [exact I|exact F]].
    + destruct Hr as (-> & Hr). rewrite A1. split; [lia|].
      destruct r; [destruct (Hr a eq_refl)| |]; (apply o_same; [exact I1|discriminate]).
    + destruct Hr as (-> & Hr). rewrite A1. split; [lia|].
      destruct r; [destruct (Hr a eq_refl)| |]; (apply o_same; [exact I1|discriminate]).
Qed.

(** ** Along any acts *)

Definition placed (h : heap) : Prop :=
  forall i im, nth_error (images h) i = Some im -> (i_data im < length (arrays h))%nat.
Definition apart (h : heap) : Prop :=
  forall i j a b, nth_error (images h) i = Some a -> nth_error (images h) j = Some b -> i_data a = i_data b -> i = j.

Lemma nth_replace {A} (l : list A) p a q b : nth_error (replace l p a) q = Some b ->
  (q = p /\ b = a) \/ (q <> p /\ nth_error l q = Some b).
Proof.
  intros E. destruct (Nat.eq_dec q p) as [->|Hne].
  - left. split; [reflexivity|]. pose proof (lt_nth_error _ _ _ E) as L. rewrite replace_length in L.
    rewrite replace_same in E by exact L. congruence.
  - right. rewrite replace_other in E by exact Hne. auto.
Qed.
Lemma nth_app_one {A} (l : list A) a q b : nth_error (l ++ [a]) q = Some b ->
  (q = length l /\ b = a) \/ nth_error l q = Some b.
Proof.
  intros E. destruct (Nat.lt_ge_cases q (length l)) as [L|L].
  - right. rewrite nth_error_app1 in E by exact L. exact E.
  - left. rewrite nth_error_app2 in E by exact L. destruct (q - length l)%nat as [|n] eqn:En.
    + cbn in E. split; [lia|congruence].
    + destruct n; discriminate E.
Qed.

Lemma placed_outcome h c h' r : (length (arrays h) <= length (arrays h'))%nat -> outcome h c h' r -> placed h -> placed h'.
Proof.
  intros L O P k x E. destruct O as [Ei _|i im im' Ei Eim D _ _|im' Eim _ D]; rewrite ?Ei in *.
  - specialize (P k x E). lia.
  - rewrite Eim in E. apply nth_replace in E. destruct E as [(-> & ->)|(_ & E)].
    + specialize (P i im Ei). unfold fresh in D. destruct D; lia.
    + specialize (P k x E). lia.
  - rewrite Eim in E. apply nth_app_one in E. destruct E as [(-> & ->)|E].
    + destruct D as [(_ & D)|(i & im & _ & Ei & ->)]; [unfold fresh in D; lia|]. specialize (P i im Ei). lia.
    + specialize (P k x E). lia.
Qed.
Lemma apart_outcome h c h' r : outcome h c h' r -> (forall i, ~ same_pixels c i) -> placed h -> apart h -> apart h'.
Proof.
  intros O N P A j k a b Ea Eb E. destruct O as [Ei _|i im im' Ei Eim D _ _|im' Eim _ D].
  - rewrite Ei in Ea, Eb. exact (A _ _ _ _ Ea Eb E).
  - rewrite Eim in Ea, Eb. apply nth_replace in Ea, Eb. unfold fresh in D.
    destruct Ea as [(-> & ->)|(Nj & Ea)], Eb as [(-> & ->)|(Nk & Eb)]; [reflexivity| | |exact (A _ _ _ _ Ea Eb E)].
    + destruct D as [D|D]; [apply (A _ _ _ _ Ei Eb); congruence|]. specialize (P _ _ Eb). lia.
    + destruct D as [D|D]; [apply (A _ _ _ _ Ea Ei); congruence|]. specialize (P _ _ Ea). lia.
  - destruct D as [(_ & D)|(i & im & Hs & _)]; [|destruct (N i Hs)]. unfold fresh in D.
    rewrite Eim in Ea, Eb. apply nth_app_one in Ea, Eb.
    destruct Ea as [(-> & ->)|Ea], Eb as [(-> & ->)|Eb]; [reflexivity| | |exact (A _ _ _ _ Ea Eb E)].
    + specialize (P _ _ Eb). lia.
    + specialize (P _ _ Ea). lia.
Qed.

Lemma store_shape i y x v h : images (fst (store i y x v h)) = images h /\
  length (arrays (fst (store i y x v h))) = length (arrays h).
Proof.
  unfold store. destruct (nth_error (images h) i) as [im|]; [|auto].
  destruct (nth_error (arrays h) (i_data im)) as [a|]; [|auto].
  destruct (set a y x v); cbn; auto using replace_length.
Qed.
Lemma perform_placed a h : placed h -> placed (fst (perform a h)).
Proof.
  intros P. destruct a as [W c|i y x v]; cbn [perform].
  - destruct (exec W c h) as [h' r] eqn:E. destruct (step_outcome _ _ _ _ _ (exec_step _ _ _ _ _ E)) as (L & O).
    exact (placed_outcome _ _ _ _ L O P).
  - destruct (store_shape i y x v h) as (E1 & E2). intros k im Ek. rewrite E1 in Ek. rewrite E2. exact (P k im Ek).
Qed.
Lemma perform_apart a h : no_copies a -> placed h -> apart h -> apart (fst (perform a h)).
Proof.
  intros N P A. destruct a as [W c|i y x v]; cbn [perform].
  - destruct (exec W c h) as [h' r] eqn:E. destruct (step_outcome _ _ _ _ _ (exec_step _ _ _ _ _ E)) as (L & O).
    exact (apart_outcome _ _ _ _ O N P A).
  - destruct (store_shape i y x v h) as (E1 & E2). unfold apart. rewrite E1. exact A.
Qed.
Lemma acts_placed acts h : placed h -> placed (run_acts acts h).
Proof. revert h; induction acts as [|a acts IH]; intros h P; [exact P|]. cbn. apply IH, perform_placed, P. Qed.
Lemma acts_apart acts h : Forall no_copies acts -> placed h -> apart h -> apart (run_acts acts h).
Proof.
  revert h; induction acts as [|a acts IH]; intros h N P A; [exact A|]. apply Forall_cons_iff in N. destruct N as (N & Ns).
  cbn. apply IH; [exact Ns|apply perform_placed, P|exact (perform_apart _ _ N P A)].
Qed.
Lemma empty_placed : placed empty_heap.
Proof. intros [|i] im E; discriminate E. Qed.
Lemma empty_apart : apart empty_heap.
Proof. intros [|i] j a b E; discriminate E. Qed.

Lemma store_leaves i j y x v h w :
  (forall a b, nth_error (images h) i = Some a -> nth_error (images h) j = Some b -> i_data a <> i_data b) ->
  view_of h j = Some w -> view_of (fst (store i y x v h)) j = Some w.
Proof.
  intros Hd Ev. unfold store. destruct (nth_error (images h) i) as [im|] eqn:Ei; [|exact Ev].
  destruct (nth_error (arrays h) (i_data im)) as [a|]; [|exact Ev].
  destruct (set a y x v); cbn [fst]; [|exact Ev..].
  unfold view_of in *. cbn [write_array images]. destruct (nth_error (images h) j) as [jm|] eqn:Ej; [|exact Ev].
  unfold look in *. cbn [write_array arrays headers vectors quads].
  rewrite replace_other; [exact Ev|]. intros E. exact (Hd _ _ eq_refl eq_refl (eq_sym E)).
Qed.

Lemma c133_private acts i j y x v w :
  Forall no_copies acts -> i <> j -> view_of (run_acts acts empty_heap) j = Some w ->
  view_of (run_acts (acts ++ [Store i y x v]) empty_heap) j = Some w.
Proof.
  intros N Hne Ev. unfold run_acts in *. rewrite fold_left_app. cbn [fold_left perform].
  fold (run_acts acts empty_heap) in *. apply store_leaves; [|exact Ev].
  intros a b Ea Eb E. apply Hne. exact (acts_apart acts _ N empty_placed empty_apart _ _ _ _ Ea Eb E).
Qed.

Lemma c133_renewed acts W c k j y x v w :
  let h := run_acts acts empty_heap in
  new_pixels c -> snd (exec W c h) = Ok (Some k) -> j <> k ->
  view_of (fst (exec W c h)) j = Some w ->
  view_of (fst (store k y x v (fst (exec W c h)))) j = Some w.
Proof.
  intros h Hc Er Hne Ev. destruct (exec W c h) as [h' r] eqn:E. cbn [fst snd] in *. subst r.
  pose proof (acts_placed acts _ empty_placed) as P. fold h in P.
  destruct (step_outcome _ _ _ _ _ (exec_step _ _ _ _ _ E)) as (L & O).
  apply store_leaves; [|exact Ev]. intros a b Ea Eb Ed.
  destruct O as [Ei Hr|i im im' Ei Eim D Hr _|im' Eim Ek D].
  - exact (Hr k eq_refl).
  - destruct (Hr k eq_refl) as (-> & F). specialize (F Hc). rewrite Eim in Ea, Eb.
    apply nth_replace in Ea, Eb. destruct Ea as [(_ & ->)|(X & _)]; [|congruence].
    destruct Eb as [(X & _)|(_ & Eb)]; [congruence|]. specialize (P _ _ Eb). unfold fresh in F. lia.
  - injection Ek as ->. destruct D as [(_ & Hr)|(i & im & Hs & _)]; [|destruct (new_same_excl _ _ Hc Hs)]. rewrite Eim in Ea, Eb. apply nth_app_one in Ea, Eb.
    destruct Eb as [(X & _)|Eb]; [congruence|]. destruct Ea as [(_ & ->)|Ea].
    + specialize (P _ _ Eb). unfold fresh in Hr. lia.
    + apply lt_nth_error in Ea. lia.
Qed.

(** ** Sharing *)

Lemma set_cell {A} (a : arr A) y x v : inb a y x -> set a y x v = Ok (mkarr (rows a) (cols a) (upd (cell a) y x v)).
Proof.
  intros ((A1 & A2) & (B1 & B2)). unfold set, norm_idx.
  destruct ((0 <=? y) && (y <? rows a)) eqn:E1; [|lia]. destruct ((0 <=? x) && (x <? cols a)) eqn:E2; [|lia]. reflexivity.
Qed.

Definition with_data (v : view) (d : arr R) : view :=
  mkview d (v_height v) (v_width v) (v_header v) (v_vector v) (v_quad v) (v_dic v)
    (v_demosaiced v) (v_demodulated v) (v_dark v) (v_flat v).

Lemma store_shared i j y x v h w a b :
  nth_error (images h) i = Some a -> nth_error (images h) j = Some b -> i_data a = i_data b ->
  view_of h j = Some w -> inb (v_data w) y x ->
  snd (store i y x v h) = Ok None /\
  view_of (fst (store i y x v h)) j =
    Some (with_data w (mkarr (rows (v_data w)) (cols (v_data w)) (upd (cell (v_data w)) y x v))).
Proof.
  intros Ea Eb Ed Ev Hi. unfold view_of in Ev. rewrite Eb in Ev. unfold look in Ev.
  destruct (nth_error (arrays h) (i_data b)) as [d|] eqn:Ex; [|discriminate].
  destruct (nth_error (headers h) (i_header b)) as [hd|] eqn:Eh; [|discriminate].
  destruct (nth_error (vectors h) (i_stokes b)) as [s|] eqn:Es; [|discriminate].
  destruct (match i_demos b with None => Some None | Some p => option_map Some (nth_error (quads h) p) end) as [q|] eqn:Eq; [|discriminate].
  injection Ev as <-. cbn [v_data] in Hi. unfold store. rewrite Ea, Ed, Ex, (set_cell _ _ _ _ Hi). cbn [fst snd].
  split; [reflexivity|]. unfold view_of. cbn [write_array images]. rewrite Eb. unfold look.
  cbn [write_array arrays headers vectors quads]. rewrite replace_same by exact (lt_nth_error _ _ _ Ex).
  rewrite Eh, Es, Eq. reflexivity.
Qed.

Lemma same_view_data h i j a b v w :
  nth_error (images h) i = Some a -> nth_error (images h) j = Some b -> i_data a = i_data b ->
  view_of h i = Some v -> view_of h j = Some w -> v_data v = v_data w.
Proof.
  intros Ea Eb Ed. unfold view_of. rewrite Ea, Eb. unfold look. rewrite Ed.
  destruct (nth_error (arrays h) (i_data b)) as [d|]; [|discriminate].
  destruct (nth_error (headers h) (i_header a)) as [hd|]; [|discriminate].
  destruct (nth_error (headers h) (i_header b)) as [hd'|]; [|discriminate].
  destruct (nth_error (vectors h) (i_stokes a)) as [s|]; [|discriminate].
  destruct (nth_error (vectors h) (i_stokes b)) as [s'|]; [|discriminate].
  destruct (match i_demos a with None => Some None | Some p => option_map Some (nth_error (quads h) p) end) as [q|]; [|discriminate].
  destruct (match i_demos b with None => Some None | Some p => option_map Some (nth_error (quads h) p) end) as [q'|]; [|discriminate].
  intros E1 E2. injection E1 as <-. injection E2 as <-. reflexivity.
Qed.

Lemma c133_shared hist h W c i k v h' y x val :
  reached hist h -> same_pixels c i -> view_of h i = Some v -> exec W c h = (h', Ok (Some k)) ->
  inb (v_data v) y x ->
  exists u w, let h'' := fst (store k y x val h') in
    k <> i /\ snd (store k y x val h') = Ok None /\ view_of h'' i = Some u /\ view_of h'' k = Some w /\
    cell (v_data u) y x = val /\ cell (v_data w) y x = val /\ v_vector u = v_vector v.
Proof.
  intros Hr Hs Ev E Hi.
  assert (Ev' : view_of h' i = Some v).
  { apply (c56_untouched hist h W c i v h' (Ok (Some k)) Hr); [|exact Ev|exact E].
    destruct c; cbn in Hs |- *; auto; destruct dark, flat; auto. }
  assert (Hex : exists hist', reached hist' h').
  { destruct Hr as (Ha & ->). exists (hist ++ [(W, c)]). split.
    - apply Forall_app. split; [exact Ha|]. constructor; [|constructor]. destruct c; cbn in Hs |- *; auto; contradiction.
    - unfold run_history. rewrite fold_left_app. cbn [fold_left fst snd]. fold (run_history hist empty_heap). rewrite E. reflexivity. }
  destruct Hex as (hist' & Hr').
  destruct (step_outcome _ _ _ _ _ (exec_step _ _ _ _ _ E)) as (L & O).
  destruct O as [Ei Hn|j im im' Ei Eim D Hn Hd|im' Eim Ek D].
  - destruct (Hn k eq_refl).
  - destruct (Hd i Hs).
  - injection Ek as ->.
    assert (Ik : nth_error (images h') (length (images h)) = Some im').
    { rewrite Eim, nth_error_app2, Nat.sub_diag by lia. reflexivity. }
    destruct D as [(Hx & _)|(i0 & im & Hs0 & Ei & Ed)]; [destruct (new_same_excl _ _ Hx Hs)|].
    assert (i0 = i) as -> by (destruct c; cbn in Hs, Hs0; try contradiction; try congruence; destruct dark, flat; try contradiction; congruence).
    assert (Ii : nth_error (images h') i = Some im).
    { rewrite Eim, nth_error_app1 by exact (lt_nth_error _ _ _ Ei). exact Ei. }
    destruct (c55_views hist' h' (length (images h)) Hr') as (vk & Evk & _); [exact (lt_nth_error _ _ _ Ik)|].
    pose proof (same_view_data _ _ _ _ _ _ _ Ik Ii Ed Evk Ev') as Hv.
    destruct (store_shared _ _ y x val h' _ _ _ Ik Ii Ed Ev' Hi) as (R1 & V1).
    rewrite <- Hv in Hi. destruct (store_shared _ _ y x val h' _ _ _ Ik Ik eq_refl Evk Hi) as (_ & V2).
    eexists. eexists. split; [apply lt_nth_error in Ei; lia|]. split; [exact R1|]. split; [exact V1|]. split; [exact V2|].
    cbn. unfold upd. rewrite !Z.eqb_refl. auto.
Qed.

(** ** The image's own Stokes vector *)

Lemma sum_moved (d : arr R) y x v : mosaic d -> inb d y x ->
  let d' := mkarr (rows d) (cols d) (upd (cell d) y x v) in
  let sum (d : arr R) := (sample d 0 (y / 2) (x / 2) + sample d 1 (y / 2) (x / 2) +
                          sample d 2 (y / 2) (x / 2) + sample d 3 (y / 2) (x / 2))%R in
  (sum d' - sum d = v - cell d y x)%R.
Proof.
  intros _ ((A1 & A2) & (B1 & B2)). cbv zeta. unfold sample, upd. cbn [cell].
  change (0 / 2) with 0. change (0 mod 2) with 0. change (1 / 2) with 0. change (1 mod 2) with 1.
  change (2 / 2) with 1. change (2 mod 2) with 0. change (3 / 2) with 1. change (3 mod 2) with 1.
  pose proof (Z.div_mod y 2 ltac:(lia)) as Ey. pose proof (Z.mod_pos_bound y 2 ltac:(lia)) as My.
  pose proof (Z.div_mod x 2 ltac:(lia)) as Ex. pose proof (Z.mod_pos_bound x 2 ltac:(lia)) as Mx.
  set (Y := y / 2) in *. set (X := x / 2) in *. clearbody Y X.
  assert (y = 2 * Y + 0 \/ y = 2 * Y + 1) as [Hy|Hy] by lia; assert (x = 2 * X + 0 \/ x = 2 * X + 1) as [Hx|Hx] by lia;
    rewrite Hy, Hx; clear;
    repeat match goal with |- context [?a =? ?b] => destruct (Z.eqb_spec a b); try (exfalso; lia) end; cbn [andb]; lra.
Qed.

Lemma c133_stale hist h i v a y x val :
  reached hist h -> Forall (fun e => plain_call (snd e)) hist -> view_of h i = Some v -> describes (v_dic v) a ->
  inb (v_data v) y x -> val <> cell (v_data v) y x ->
  exists u, snd (store i y x val h) = Ok None /\ view_of (fst (store i y x val h)) i = Some u /\
    cell (v_data u) y x = val /\ v_vector u = v_vector v /\ ~ shows_its_data u.
Proof.
  intros Hr Hp Ev Ha Hi Hne. destruct (c55_reflects _ _ _ _ Hr Hp Ev) as (_ & Hm & Hs).
  assert (exists im, nth_error (images h) i = Some im) as (im & Ei).
  { unfold view_of in Ev. destruct (nth_error (images h) i) as [im|]; [eauto|discriminate]. }
  destruct (store_shared _ _ y x val h _ _ _ Ei Ei eq_refl Ev Hi) as (R1 & V1).
  eexists. split; [exact R1|]. split; [exact V1|]. cbn [v_data v_vector with_data cell].
  split; [unfold upd; rewrite !Z.eqb_refl; reflexivity|]. split; [reflexivity|].
  intros (_ & Hs'). specialize (Hs' a Ha). specialize (Hs a Ha). cbn [v_data v_vector with_data rows cols] in Hs'.
  destruct Hs as (_ & _ & _ & Hs), Hs' as (_ & _ & _ & Hs').
  destruct Hm as (M1 & M2 & M3 & M4). destruct Hi as ((I1 & I2) & (I3 & I4)).
  assert (Y : 0 <= y / 2 < rows (v_data v) / 2) by (Z.to_euclidean_division_equations; lia).
  assert (X : 0 <= x / 2 < cols (v_data v) / 2) by (Z.to_euclidean_division_equations; lia).
  destruct (Hs _ _ Y X) as (E1 & _). destruct (Hs' _ _ Y X) as (E2 & _). rewrite E1 in E2.
  pose proof (sum_moved (v_data v) y x val ltac:(unfold mosaic; auto) ltac:(unfold inb; auto)) as E3. cbv zeta in E3.
  apply Hne. lra.
Qed.
