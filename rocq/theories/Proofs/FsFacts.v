(** Files: conversion of raw files, crash points, merging. *)
From Coq Require Import String Ascii Lia ZifyBool Reals Lra Permutation.
From Verif Require Import Base.Base Base.BaseFacts Model.Paths Model.Codec Model.Fs
  Spec.CodecSpec Spec.FsSpec Spec.Terminates Proofs.PathFacts Proofs.CodecFacts Proofs.BinaryFacts
  Proofs.RawFacts.
Local Open Scope string_scope.
Local Open Scope list_scope.
Local Open Scope Z_scope.
Ltac Zify.zify_post_hook ::= idtac.

(** ** Effects *)
Definition target (e : effect) : string :=
  match e with ECreate p | EAppend p _ | ERemove p | EMkdir p => p end.

Lemma upd_same s p v : upd s p v p = v.
Proof. unfold upd. rewrite String.eqb_refl. reflexivity. Qed.
Lemma upd_other s p v q : q <> p -> upd s p v q = s q.
Proof. unfold upd. intros H. apply String.eqb_neq in H. rewrite H. reflexivity. Qed.

Lemma run_app a b s : run (a ++ b) s = run b (run a s).
Proof. unfold run. apply fold_left_app. Qed.

Lemma apply_other s e p : target e <> p -> apply s e p = s p.
Proof.
  destruct e as [q|q b|q|q]; cbn; intros H.
  - apply upd_other; congruence.
  - destruct (s q) as [[c|]|]; try reflexivity. apply upd_other; congruence.
  - apply upd_other; congruence.
  - apply upd_other; congruence.
Qed.

Lemma run_other es p : Forall (fun e => target e <> p) es -> forall s, run es s p = s p.
Proof.
  induction es as [|e es IH]; intros H s; [reflexivity|]. inversion H; subst.
  cbn [run fold_left]. change (fold_left apply es (apply s e)) with (run es (apply s e)).
  rewrite IH by assumption. apply apply_other. assumption.
Qed.

Lemma run_appends k c : forall s c0, s k = Some (File c0) ->
  run (map (EAppend k) c) s k = Some (File (c0 ++ c)).
Proof.
  induction c as [|b c IH]; intros s c0 H.
  - cbn. rewrite app_nil_r. exact H.
  - cbn [map run fold_left]. change (fold_left apply (map (EAppend k) c) (apply s (EAppend k b)))
      with (run (map (EAppend k) c) (apply s (EAppend k b))).
    rewrite (IH _ (c0 ++ [b])).
    + rewrite <- app_assoc. reflexivity.
    + cbn [apply]. rewrite H. apply upd_same.
Qed.

Lemma run_write k c s : run (write_effects k c) s k = Some (File c).
Proof.
  unfold write_effects. cbn [run fold_left].
  change (fold_left apply (map (EAppend k) c) (apply s (ECreate k)))
    with (run (map (EAppend k) c) (apply s (ECreate k))).
  rewrite (run_appends k c _ []); [reflexivity|]. cbn [apply]. apply upd_same.
Qed.

Lemma write_targets k c : Forall (fun e => target e = k) (write_effects k c).
Proof. unfold write_effects. constructor; [reflexivity|]. apply Forall_map, Forall_forall. reflexivity. Qed.

Lemma targets_other es k p : p <> k -> Forall (fun e => target e = k) es ->
  Forall (fun e => target e <> p) es.
Proof. intros H F. eapply Forall_impl; [|exact F]. cbn. congruence. Qed.

Lemma Forall_prefix {A} (P : A -> Prop) l pre post : Forall P l -> l = pre ++ post -> Forall P pre.
Proof. intros F ->. apply Forall_app in F. exact (proj1 F). Qed.

(** Prefixes of [l ++ [x]]. *)
Lemma prefix_snoc {A} (l : list A) x pre post :
  l ++ [x] = pre ++ post -> (exists post', l = pre ++ post') \/ pre = l ++ [x].
Proof.
  intros E. destruct post as [|z post] using rev_ind.
  - right. rewrite app_nil_r in E. symmetry. exact E.
  - clear IHpost. left. rewrite app_assoc in E. apply app_inj_tail in E. destruct E as [E _].
    exists post. exact E.
Qed.

Lemma io_bind_ok {A B} (m : io A) (k : A -> io B) s a :
  m s = ([], Ok a) -> io_bind m k s = k a s.
Proof. intros E. unfold io_bind. rewrite E. cbn [run fold_left app]. destruct (k a s). reflexivity. Qed.
Lemma io_bind_raise {A B} (m : io A) (k : A -> io B) s es e :
  m s = (es, Raise e) -> io_bind m k s = (es, Raise e).
Proof. intros E. unfold io_bind. rewrite E. reflexivity. Qed.
Lemma io_bind_effects {A B} (m : io A) (k : A -> io B) s es a :
  m s = (es, Ok a) ->
  io_bind m k s = (es ++ fst (k a (run es s)), snd (k a (run es s))).
Proof. intros E. unfold io_bind. rewrite E. destruct (k a (run es s)). reflexivity. Qed.

(** ** fits_writeto *)
Section W.
  Variable cwd : string.

  Lemma fits_writeto_cases p c s :
    (exists e, fits_writeto cwd p c s = ([], Raise e)) \/
    (exists pre, fits_writeto cwd p c s = (pre ++ write_effects (key cwd p) c, Ok tt) /\
       Forall (fun e => target e = key cwd p) pre).
  Proof.
    unfold fits_writeto. destruct (ends_in_slash p); [left; eauto|].
    destruct (is_dir s (key cwd p)); [left; eauto|].
    destruct (is_dir s (parent_key cwd p)); cbn [negb]; [|left; eauto].
    right. eexists. split; [reflexivity|]. destruct (s (key cwd p)) as [[[|b l]|]|]; repeat constructor.
  Qed.

  Lemma fits_writeto_ok p c s : ends_in_slash p = false -> is_dir s (key cwd p) = false ->
    is_dir s (parent_key cwd p) = true ->
    exists pre, fits_writeto cwd p c s = (pre ++ write_effects (key cwd p) c, Ok tt) /\
       Forall (fun e => target e = key cwd p) pre.
  Proof.
    intros H1 H2 H3. destruct (fits_writeto_cases p c s) as [[e E]|H]; [|exact H].
    exfalso. unfold fits_writeto in E. rewrite H1, H2, H3 in E. discriminate.
  Qed.
End W.

Lemma u2_ok h w c : 0 <= h -> 0 <= w -> h * w * 2 <= zlen c ->
  exists img, u2_array h w c = Ok img /\ le16_image h w c img.
Proof.
  intros Hh Hw Hl. unfold u2_array.
  replace ((h <? 0) || (w <? 0)) with false by lia.
  replace (zlen c <? h * w * 2) with false by lia.
  eexists. split; [reflexivity|]. unfold le16_image. unfold zlen in Hl. cbn [rows cols cell].
  split; [lia|split; [reflexivity|split; [reflexivity|]]].
  intros y x Hy Hx. f_equal. f_equal. f_equal.
  assert (0 <= w * y) by (apply Z.mul_nonneg_nonneg; lia). lia.
Qed.

Lemma u2_inv h w c img : u2_array h w c = Ok img -> 0 <= h /\ 0 <= w /\ le16_image h w c img.
Proof.
  intros E.
  assert (Hh : 0 <= h /\ 0 <= w /\ h * w * 2 <= zlen c).
  { unfold u2_array in E. destruct ((h <? 0) || (w <? 0)) eqn:E1; [discriminate|].
    destruct (zlen c <? h * w * 2) eqn:E2; [discriminate|]. lia. }
  destruct Hh as (H1 & H2 & H3). destruct (u2_ok h w c H1 H2 H3) as (img' & E' & Hi).
  rewrite E in E'. injection E' as ->. auto.
Qed.

Lemma u2_cases h w c : (exists img, u2_array h w c = Ok img) \/ (exists e, u2_array h w c = Raise e).
Proof.
  unfold u2_array. destruct ((h <? 0) || (w <? 0)); [right; eauto|].
  destruct (zlen c <? h * w * 2); [right; eauto|left; eauto].
Qed.

Lemma le16_unique h w c i j : le16_image h w c i -> le16_image h w c j ->
  to_list i = to_list j.
Proof.
  intros (_ & Ri & Ci & Vi) (_ & Rj & Cj & Vj). unfold to_list. rewrite Ri, Ci, Rj, Cj.
  apply map_ext_in. intros y Hy. apply map_ext_in. intros x Hx.
  apply in_zrange in Hy, Hx. rewrite Vi, Vj by assumption. reflexivity.
Qed.

(** ** Conversion of one raw file *)
Section Convert.
  Variable cwd : string.
  Hypothesis Hcwd : is_abs cwd = true.
  Variable fits_u2 : list (list Z) -> bytes.

  Notation convert := (convert_rawfile_to_fits cwd fits_u2).
  Definition newkey (f : string) : string := key cwd (converted_name cwd f).

  Lemma convert_cases filename h w ro s :
    (fails_cleanly (convert filename h w ro) s) \/
    (exists content img pre tail r, s (key cwd filename) = Some (File content) /\
       u2_array h w content = Ok img /\
       Forall (fun e => target e = newkey filename) pre /\
       convert filename h w ro s =
         (pre ++ write_effects (newkey filename) (fits_u2 (to_list img)) ++ tail, r) /\
       ((ro = false /\ tail = [] /\ r = Ok tt) \/
        (ro = true /\ (tail = [ERemove (key cwd filename)] /\ r = Ok tt \/
                       tail = [] /\ exists e, r = Raise e)))).
  Proof.
    assert (Clean : forall e, convert filename h w ro s = ([], Raise e) ->
              fails_cleanly (convert filename h w ro) s).
    { intros e E. unfold fails_cleanly. rewrite E. split; [reflexivity|eexists; reflexivity]. }
    remember (convert filename h w ro s) as v eqn:Ev.
    unfold convert_rawfile_to_fits in Ev.
    destruct (contains ".raw" filename); cbn [negb] in Ev; [|left; eapply Clean; exact Ev].
    unfold io_bind at 1 in Ev. unfold read_file in Ev.
    destruct (s (key cwd filename)) as [[content|]|] eqn:Es; [|left; eapply Clean; exact Ev..].
    destruct (ends_in_slash filename); [left; eapply Clean; exact Ev|].
    cbn [run fold_left app] in Ev. unfold io_bind at 1, io_lift in Ev.
    destruct (u2_cases h w content) as [[img Eu]|[e Eu]]; rewrite Eu in Ev;
      [|left; eapply Clean; exact Ev].
    cbn [run fold_left app] in Ev. unfold io_bind at 1 in Ev.
    destruct (fits_writeto_cases cwd (converted_name cwd filename) (fits_u2 (to_list img)) s)
      as [[e Ew]|(pre & Ew & Hpre)]; rewrite Ew in Ev; [left; eapply Clean; exact Ev|].
    right. exists content, img, pre. destruct ro.
    - unfold remove_file in Ev.
      assert (Ek : key cwd (abspath cwd filename) = key cwd filename) by (apply (key_idem cwd Hcwd)).
      rewrite Ek in Ev.
      destruct (run _ s (key cwd filename)) as [[c'|]|].
      + exists [ERemove (key cwd filename)], (Ok tt). repeat split; auto.
        rewrite Ev, <- app_assoc. reflexivity.
      + exists [], (Raise OSError). repeat split; auto.
        * rewrite Ev, !app_nil_r. reflexivity.
        * right. split; [reflexivity|]. right. split; [reflexivity|eauto].
      + exists [], (Raise FileNotFoundError). repeat split; auto.
        * rewrite Ev, !app_nil_r. reflexivity.
        * right. split; [reflexivity|]. right. split; [reflexivity|eauto].
    - exists [], (Ok tt). cbn in Ev. rewrite !app_nil_r in *. repeat split; auto.
  Qed.

  (** The new name never coincides with the raw file. *)
  Lemma ends_raw_key filename : ends_with ".raw" filename ->
    exists t, key cwd filename = (t ++ ".raw")%string.
  Proof.
    intros [t ->]. apply (key_suffix cwd Hcwd t ".raw").
    - intros Hi. cbn in Hi. repeat (destruct Hi as [Hi|Hi]; [discriminate|]). exact Hi.
    - cbn. lia.
  Qed.

  Lemma newkey_fits filename : exists t, newkey filename = (t ++ ".fits")%string.
  Proof.
    unfold converted_name. apply (key_suffix cwd Hcwd).
    - intros Hi. cbn in Hi. repeat (destruct Hi as [Hi|Hi]; [discriminate|]). exact Hi.
    - cbn. lia.
  Qed.

  Lemma raw_fits_differ a b : (a ++ ".raw")%string <> (b ++ ".fits")%string.
  Proof.
    intros E. apply (f_equal list_ascii_of_string) in E. rewrite !lascii_app in E.
    apply (f_equal (@rev ascii)) in E. rewrite !rev_app_distr in E. cbn in E. discriminate.
  Qed.

  Lemma new_ne_raw filename : ends_with ".raw" filename -> newkey filename <> key cwd filename.
  Proof.
    intros H. destruct (ends_raw_key filename H) as [a ->]. destruct (newkey_fits filename) as [b ->].
    intros E. symmetry in E. exact (raw_fits_differ _ _ E).
  Qed.

  Lemma c48_crash filename h w ro s s' :
    ends_with ".raw" filename -> crash (convert filename h w ro) s s' ->
    exists new, new <> key cwd filename /\
      (forall p, p <> key cwd filename -> p <> new -> s' p = s p) /\
      (s' (key cwd filename) = s (key cwd filename) \/
       exists content img, s (key cwd filename) = Some (File content) /\
         le16_image h w content img /\
         s' new = Some (File (fits_u2 (to_list img)))).
  Proof.
    intros Hraw (pre & post & E & ->). exists (newkey filename).
    pose proof (new_ne_raw filename Hraw) as Hne. split; [exact Hne|].
    destruct (convert_cases filename h w ro s) as [[Ec _]|(content & img & pr & tail & r & Es & Eu & Hpr & Ec & Ht)].
    - rewrite Ec in E. symmetry in E. apply app_eq_nil in E. destruct E as [-> ->].
      split; [reflexivity|left; reflexivity].
    - rewrite Ec in E. cbn [fst] in E.
      set (W := pr ++ write_effects (newkey filename) (fits_u2 (to_list img))) in *.
      assert (HW : Forall (fun e => target e = newkey filename) W)
        by (apply Forall_app; split; [exact Hpr|apply write_targets]).
      rewrite app_assoc in E. fold W in E.
      assert (Htail : tail = [] \/ tail = [ERemove (key cwd filename)])
        by (destruct Ht as [(_ & -> & _)|(_ & [(-> & _)|(-> & _)])]; auto).
      destruct Htail as [-> | ->].
      + rewrite app_nil_r in E. pose proof (Forall_prefix _ _ _ _ HW E) as Hp.
        split.
        * intros p _ Hpn. apply run_other. eapply targets_other; [|exact Hp]. exact Hpn.
        * left. apply run_other. eapply targets_other; [|exact Hp]. congruence.
      + apply prefix_snoc in E. destruct E as [[post' E]| ->].
        * pose proof (Forall_prefix _ _ _ _ HW E) as Hp. split.
          -- intros p _ Hpn. apply run_other. eapply targets_other; [|exact Hp]. exact Hpn.
          -- left. apply run_other. eapply targets_other; [|exact Hp]. congruence.
        * split.
          -- intros p Hp1 Hp2. apply run_other. apply Forall_app. split.
             ++ eapply targets_other; [|exact HW]. exact Hp2.
             ++ repeat constructor. cbn. congruence.
          -- right. exists content, img. split; [exact Es|].
             split; [apply (u2_inv _ _ _ _ Eu)|].
             rewrite run_app. cbn [run fold_left apply].
             rewrite upd_other by exact Hne. unfold W. rewrite run_app. apply run_write.
  Qed.

  Lemma c48_bad_input filename h w ro s :
    (forall content, s (key cwd filename) = Some (File content) ->
       0 <= h -> 0 <= w -> Z.of_nat (length content) < 2 * (h * w)) ->
    fails_cleanly (convert filename h w ro) s.
  Proof.
    intros Hbad.
    destruct (convert_cases filename h w ro s) as [Hc|(content & img & pr & tail & r & Es & Eu & _)];
      [exact Hc|].
    exfalso. destruct (u2_inv _ _ _ _ Eu) as (Hh & Hw & (Hlen & _)).
    specialize (Hbad content Es Hh Hw). lia.
  Qed.

  (** What a successful call leaves behind. *)
  Lemma c48_done filename h w ro s :
    ends_with ".raw" filename -> outcome (convert filename h w ro) s = Ok tt ->
    exists new content img, new <> key cwd filename /\
      new = newkey filename /\
      s (key cwd filename) = Some (File content) /\ le16_image h w content img /\
      after (convert filename h w ro) s new = Some (File (fits_u2 (to_list img))) /\
      after (convert filename h w ro) s (key cwd filename) =
        (if ro then None else Some (File content)).
  Proof.
    intros Hraw Hok. pose proof (new_ne_raw filename Hraw) as Hne.
    destruct (convert_cases filename h w ro s) as [[_ [e Ec]]|(content & img & pr & tail & r & Es & Eu & Hpr & Ec & Ht)].
    - unfold outcome in Hok. rewrite Hok in Ec. discriminate.
    - exists (newkey filename), content, img. split; [exact Hne|split; [reflexivity|]].
      split; [exact Es|]. split; [apply (u2_inv _ _ _ _ Eu)|].
      unfold after, outcome in *. rewrite Ec in *. cbn [fst snd] in *. subst r.
      set (W := pr ++ write_effects (newkey filename) (fits_u2 (to_list img))) in *.
      assert (HW : Forall (fun e => target e = newkey filename) W)
        by (apply Forall_app; split; [exact Hpr|apply write_targets]).
      rewrite app_assoc. fold W.
      assert (E1 : run W s (newkey filename) = Some (File (fits_u2 (to_list img))))
        by (unfold W; rewrite run_app; apply run_write).
      assert (E2 : run W s (key cwd filename) = Some (File content)).
      { rewrite run_other; [exact Es|]. eapply targets_other; [|exact HW]. congruence. }
      destruct Ht as [(-> & -> & _)|(-> & [(-> & _)|(_ & [e He])])]; [| |discriminate].
      + rewrite app_nil_r. split; assumption.
      + rewrite run_app. cbn [run fold_left apply]. split.
        * rewrite upd_other by exact Hne. exact E1.
        * apply upd_same.
  Qed.

  (** ** The name of the converted file *)
  Lemma plain_subst (p : string) : plain p -> plain (dots_to_colons p) \/ dots_to_colons p = "".
  Proof.
    intros (H1 & H2 & H3 & H4). left. split; [|repeat split].
    - clear H2 H3 H4. induction p as [|a p IH]; cbn; [apply no_char_nil|]. apply no_char_cons in H1.
      destruct H1 as [Ha Hp]. apply no_char_cons. split; [|apply IH, Hp].
      destruct (Ascii.eqb a "."); [discriminate|exact Ha].
    - destruct p; [congruence|discriminate].
    - destruct p as [|a p]; [discriminate|]. cbn. intros E. injection E as E1 E2.
      destruct (Ascii.eqb a ".") eqn:Ea; [discriminate|]. apply Ascii.eqb_neq in Ea. congruence.
    - destruct p as [|a p]; [discriminate|]. cbn. intros E. injection E as E1 E2.
      destruct (Ascii.eqb a ".") eqn:Ea; [discriminate|]. apply Ascii.eqb_neq in Ea. congruence.
  Qed.
End Convert.
