(** Header keywords and file names of images. *)
From Coq Require Import Reals String Lia ZifyBool.
From Verif Require Import Base.Base Base.BaseFacts Model.Keywords Model.FileInit Model.Meta
  Spec.KeywordSpec Spec.MetaSpec Proofs.KeywordFacts.

(** ** Lists and keywords *)
Lemma put_length {A} (l : list A) p f : length (put l p f) = length l.
Proof. revert p; induction l as [|b l IH]; intros [|p]; cbn; try rewrite IH; reflexivity. Qed.
Lemma put_same {A} (l : list A) p f a : nth_error l p = Some a -> nth_error (put l p f) p = Some (f a).
Proof. revert p; induction l as [|b l IH]; intros [|p] E; cbn in *; try discriminate; [congruence|auto]. Qed.
Lemma put_other {A} (l : list A) p q f : q <> p -> nth_error (put l p f) q = nth_error l q.
Proof.
  revert p q; induction l as [|b l IH]; intros [|p] [|q] Hne; cbn; try reflexivity; try congruence.
  apply IH. congruence.
Qed.

Lemma hset_back {A} (h : header A) k v k1 v1 : k1 <> k -> keyword (hset h k v) k1 v1 -> keyword h k1 v1.
Proof.
  intros Hne. induction h as [|[k' v'] h IH]; cbn.
  - intros K. inversion K; subst; [congruence|assumption].
  - destruct (String.eqb k' k) eqn:E.
    + apply String.eqb_eq in E; subst k'. intros K. inversion K; subst; [congruence|].
      apply kw_later; assumption.
    + intros K. inversion K; subst; [apply kw_here|apply kw_later; auto].
Qed.

Lemma same_refl a : same_keywords a a.
Proof. intros k v _ _; tauto. Qed.
Lemma same_sym a b : same_keywords a b -> same_keywords b a.
Proof. intros H k v H1 H2. symmetry. apply H; assumption. Qed.
Lemma same_trans a b c : same_keywords a b -> same_keywords b c -> same_keywords a c.
Proof. intros H H' k v H1 H2. rewrite (H k v H1 H2). apply H'; assumption. Qed.
Lemma set_sizes_same hd size : same_keywords hd (set_sizes hd size).
Proof.
  intros k v H1 H2. unfold set_sizes. split; intros K.
  - apply hset_other; [assumption|]. apply hset_other; assumption.
  - apply hset_back in K; [|assumption]. apply hset_back in K; assumption.
Qed.
Lemma primary_empty size : no_keywords (primary_header size).
Proof.
  intros k v K. unfold primary_header, set_sizes in K. cbn in K.
  inversion K; subst; [left; reflexivity|].
  match goal with K' : keyword _ k v |- _ => inversion K'; subst; [right; left; reflexivity|] end.
  match goal with K' : keyword [_] k v |- _ => inversion K'; subst; [right; right; left; reflexivity|] end.
  match goal with K' : keyword [] k v |- _ => inversion K' end.
Qed.

(** ** What a command does *)
Definition place (w : world) (i : nat) : option nat :=
  match nth_error (w_objects w) i with Some o => o_header o | None => None end.

Lemma header_of_place w i : header_of w i = match place w i with Some p => nth_error (w_headers w) p | None => None end.
Proof.
  unfold header_of, place. destruct (nth_error (w_objects w) i) as [[c [p|] n]|]; reflexivity.
Qed.

Inductive effect (w : world) (cmd : command) : world -> Prop :=
| own c hd name : effect w cmd (add_own w c hd (Some name))
| empty_image : effect w cmd (add w (mkobject Image None None))
| shared i p name : class_of w i = Some MicropolImage -> place w i = Some p ->
    effect w cmd (add w (mkobject MicropolImage (Some p) name))
| shared_sized i p size : class_of w i = Some MicropolImage -> place w i = Some p ->
    effect w cmd (change_header (add w (mkobject MicropolImage (Some p) None)) p (fun hd => set_sizes hd size))
| sized i p size : place w i = Some p -> effect w cmd (change_header w p (fun hd => set_sizes hd size))
| written i p k v : cmd = Write i k v -> place w i = Some p -> effect w cmd (change_header w p (fun hd => hset hd k v)).

Lemma the_object_ok w i o : the_object w i = Ok o -> nth_error (w_objects w) i = Some o.
Proof. unfold the_object. destruct (nth_error (w_objects w) i); congruence. Qed.
Lemma header_place_ok o p : header_place o = Ok p -> o_header o = Some p.
Proof. unfold header_place. destruct (o_header o); congruence. Qed.

Lemma plain_from_effect w cmd o size w' : plain_from w o size = Ok w' -> effect w cmd w'.
Proof.
  unfold plain_from. destruct (o_class o); intros E.
  - apply bind_ok in E as (p & _ & E). destruct (o_filename o); [|discriminate].
    injection E as <-. apply own.
  - injection E as <-. apply empty_image.
Qed.

Lemma micropol_from_effect w cmd i o size w' : nth_error (w_objects w) i = Some o ->
  micropol_from w o size = Ok w' -> effect w cmd w'.
Proof.
  intros Ho. unfold micropol_from. intros E. apply bind_ok in E as (p & Hp & E).
  apply header_place_ok in Hp. destruct (o_class o) eqn:C.
  - destruct (o_filename o); [|discriminate]. injection E as <-. apply own.
  - injection E as <-. apply (shared w cmd i); unfold class_of, place; rewrite Ho; cbn; congruence.
Qed.

Lemma micropol_makes_effect w cmd i o m size w' : nth_error (w_objects w) i = Some o -> o_class o = MicropolImage ->
  micropol_makes w m o size = Ok w' -> effect w cmd w'.
Proof.
  intros Ho C. unfold micropol_makes. intros E. apply bind_ok in E as (p & Hp & E).
  assert (HC : class_of w i = Some MicropolImage) by (unfold class_of; rewrite Ho; cbn; congruence).
  assert (HP : place w i = Some p) by (unfold place; rewrite Ho; apply header_place_ok; assumption).
  unfold micropol_from in E. rewrite C, Hp in E. cbn in E.
  destruct m; injection E as <-; first [eapply shared_sized; eassumption | eapply shared; eassumption].
Qed.

Lemma image_makes_effect w cmd o m size w' : image_makes w m o size = Ok w' -> effect w cmd w'.
Proof.
  unfold image_makes. intros E.
  destruct m; try discriminate; try (eapply plain_from_effect; eassumption);
    apply bind_ok in E as (p & _ & E); injection E as <-; apply own.
Qed.

Lemma command_effect w c w' : run_command w c = Ok w' -> effect w c w'.
Proof.
  unfold run_command. intros E. destruct c as [c f|c size|[|] i size|m i size|i size|i k v].
  - injection E as <-. apply own.
  - injection E as <-. apply own.
  - apply bind_ok in E as (o & Ho & E). eapply plain_from_effect; eassumption.
  - apply bind_ok in E as (o & Ho & E). eapply micropol_from_effect; [apply the_object_ok|]; eassumption.
  - apply bind_ok in E as (o & Ho & E). apply the_object_ok in Ho. destruct (o_class o) eqn:C.
    + eapply image_makes_effect; eassumption.
    + eapply micropol_makes_effect; eassumption.
  - apply bind_ok in E as (o & Ho & E). apply bind_ok in E as (p & Hp & E). injection E as <-.
    apply (sized w _ i). unfold place. rewrite (the_object_ok _ _ _ Ho). apply header_place_ok; assumption.
  - apply bind_ok in E as (o & Ho & E). apply bind_ok in E as (p & Hp & E). injection E as <-.
    apply (written w _ i); [reflexivity|]. unfold place. rewrite (the_object_ok _ _ _ Ho). apply header_place_ok; assumption.
Qed.

(** ** Invariant *)
Record sound (w : world) : Prop := mksound {
  in_range : forall i p, place w i = Some p -> (p < length (w_headers w))%nat;
  has_header : forall i, class_of w i = Some MicropolImage -> exists p, place w i = Some p;
  owned : forall i j p, class_of w i = Some Image -> place w i = Some p -> place w j = Some p -> j = i;
  has_name : forall i p, class_of w i = Some Image -> place w i = Some p -> exists n, name_of w i = Some n
}.

Lemma nth_snoc {A} (l : list A) a i : nth_error (l ++ [a]) i =
  if (i <? length l)%nat then nth_error l i else if (i =? length l)%nat then Some a else None.
Proof.
  destruct (Nat.ltb_spec i (length l)) as [Hi|Hi].
  - apply nth_error_app1; assumption.
  - rewrite nth_error_app2 by lia. destruct (Nat.eqb_spec i (length l)) as [->|Hne].
    + rewrite Nat.sub_diag. reflexivity.
    + destruct (i - length l)%nat as [|k] eqn:E; [lia|]. cbn. destruct k; reflexivity.
Qed.

Lemma nth_some_lt {A} (l : list A) i a : nth_error l i = Some a -> (i < length l)%nat.
Proof. intros E. apply nth_error_Some. congruence. Qed.

(** Objects of [add w o]: those of [w], and [o]. *)
Lemma add_objects w hs o i o' : nth_error (w_objects (add (mkworld hs (w_objects w)) o)) i = Some o' ->
  nth_error (w_objects w) i = Some o' \/ i = length (w_objects w) /\ o' = o.
Proof.
  cbn. rewrite nth_snoc. destruct (Nat.ltb_spec i (length (w_objects w))); [tauto|].
  destruct (Nat.eqb_spec i (length (w_objects w))); [|discriminate]. intros E. right. split; congruence.
Qed.

Definition at_ (w : world) (i : nat) (o : object) : Prop := nth_error (w_objects w) i = Some o.

Lemma sound_alt w : sound w <->
  (forall i c p n, at_ w i (mkobject c (Some p) n) -> (p < length (w_headers w))%nat) /\
  (forall i n, ~ at_ w i (mkobject MicropolImage None n)) /\
  (forall i j p c n n', at_ w i (mkobject Image (Some p) n) -> at_ w j (mkobject c (Some p) n') -> j = i) /\
  (forall i p, ~ at_ w i (mkobject Image (Some p) None)).
Proof.
  unfold at_. split.
  - intros [Hr Hh Ho Hn]. repeat apply conj.
    + intros i c p n E. apply (Hr i). unfold place. rewrite E. reflexivity.
    + intros i n E. destruct (Hh i) as (p & Hp); [unfold class_of; rewrite E; reflexivity|].
      unfold place in Hp. rewrite E in Hp. discriminate.
    + intros i j p c n n' E E'. apply (Ho i j p); unfold class_of, place; first [rewrite E|rewrite E']; reflexivity.
    + intros i p E. destruct (Hn i p) as (n & Hn'); unfold class_of, place; try (rewrite E; reflexivity).
      unfold name_of in Hn'. rewrite E in Hn'. discriminate.
  - intros (Hr & Hh & Ho & Hn). constructor.
    + intros i p. unfold place. destruct (nth_error (w_objects w) i) as [[c q n]|] eqn:E; [|discriminate].
      cbn. intros ->. eapply Hr; eassumption.
    + intros i. unfold class_of, place. destruct (nth_error (w_objects w) i) as [[c [q|] n]|] eqn:E; cbn; try discriminate.
      * intros _. exists q; reflexivity.
      * intros K. injection K as ->. destruct (Hh i n E).
    + intros i j p. unfold class_of, place.
      destruct (nth_error (w_objects w) i) as [[c [q|] n]|] eqn:E; cbn; try discriminate.
      intros K K'. injection K as ->. injection K' as ->.
      destruct (nth_error (w_objects w) j) as [[c [q|] n']|] eqn:E'; cbn; try discriminate.
      intros K. injection K as ->. eapply Ho; eassumption.
    + intros i p. unfold class_of, place, name_of.
      destruct (nth_error (w_objects w) i) as [[c [q|] [n|]]|] eqn:E; cbn; try discriminate; eauto.
      intros K _. injection K as ->. destruct (Hn i q E).
Qed.

Lemma sound_add w hs o : sound w -> (length (w_headers w) <= length hs)%nat ->
  (forall p, o_header o = Some p -> (p < length hs)%nat) ->
  (o_class o = MicropolImage -> o_header o <> None) ->
  (forall p, o_header o = Some p -> o_filename o = None -> o_class o = MicropolImage) ->
  (forall p i, o_header o = Some p -> place w i = Some p -> o_class o = MicropolImage /\ class_of w i = Some MicropolImage) ->
  sound (add (mkworld hs (w_objects w)) o).
Proof.
  intros Hs Hl Hp Hm Hn Hsh. apply sound_alt in Hs as (Sr & Sh & So & Sn).
  apply sound_alt. unfold at_ in *. repeat apply conj.
  - intros i c p n E. apply add_objects in E as [E|[_ <-]].
    + cbn [w_headers add]. apply Sr in E. lia.
    + apply Hp. reflexivity.
  - intros i n E. apply add_objects in E as [E|[_ <-]].
    + eapply Sh; eassumption.
    + apply Hm; reflexivity.
  - intros i j p c n n' E E'. apply add_objects in E as [E|[-> <-]], E' as [E'|[-> E'']].
    + eapply So; eassumption.
    + subst o. destruct (Hsh p i) as (_ & K); [reflexivity| |].
      * unfold place. rewrite E. reflexivity.
      * unfold class_of in K. rewrite E in K. discriminate.
    + destruct (Hsh p j) as (K & _); [reflexivity| |discriminate].
      unfold place. rewrite E'. reflexivity.
    + reflexivity.
  - intros i p E. apply add_objects in E as [E|[_ <-]].
    + eapply Sn; eassumption.
    + specialize (Hn p eq_refl eq_refl). discriminate.
Qed.

Lemma sound_change w p f : sound w -> sound (change_header w p f).
Proof.
  intros [Hr Hh Ho Hn]. constructor; intros i; try solve [intros; eapply Ho; eassumption].
  - intros q Hq. cbn. rewrite put_length. apply (Hr i). exact Hq.
  - apply Hh.
  - apply Hn.
Qed.

Lemma effect_sound w cmd w' : sound w -> effect w cmd w' -> sound w'.
Proof.
  intros Hs E. destruct E as [c hd name| |i p name Hc Hp|i p size Hc Hp|i p size Hp|i p k v Hw Hp].
  - unfold add_own. apply sound_add; cbn; try assumption.
    + rewrite app_length. lia.
    + intros p K. injection K as <-. rewrite app_length. cbn. lia.
    + discriminate.
    + discriminate.
    + intros p i K K'. injection K as <-. apply (in_range w Hs) in K'. lia.
  - destruct w as [hs os]. apply (sound_add (mkworld hs os)); cbn; try assumption; try lia; discriminate.
  - destruct w as [hs os]. apply (sound_add (mkworld hs os)); cbn; try assumption; try lia; try discriminate.
    + intros q K. injection K as <-. apply (in_range _ Hs _ _ Hp).
    + reflexivity.
    + intros q j K K'. injection K as <-. split; [reflexivity|].
      destruct (class_of (mkworld hs os) j) as [[|]|] eqn:C; try reflexivity.
      * assert (i = j) by (eapply (owned _ Hs); eassumption). congruence.
      * unfold class_of in C. unfold place in K'.
        destruct (nth_error (w_objects (mkworld hs os)) j); discriminate.
  - apply sound_change. destruct w as [hs os].
    apply (sound_add (mkworld hs os)); cbn; try assumption; try lia; try discriminate.
    + intros q K. injection K as <-. apply (in_range _ Hs _ _ Hp).
    + reflexivity.
    + intros q j K K'. injection K as <-. split; [reflexivity|].
      destruct (class_of (mkworld hs os) j) as [[|]|] eqn:C; try reflexivity.
      * assert (i = j) by (eapply (owned _ Hs); eassumption). congruence.
      * unfold class_of in C. unfold place in K'.
        destruct (nth_error (w_objects (mkworld hs os)) j); discriminate.
  - apply sound_change; assumption.
  - apply sound_change; assumption.
Qed.

Lemma sound_start : sound start.
Proof.
  apply sound_alt. unfold at_, start; cbn.
  repeat apply conj; intros; try (intros K); destruct i; discriminate.
Qed.

Lemma run_sound cs w : sound w -> sound (run_commands w cs).
Proof.
  revert w. induction cs as [|c cs IH]; intros w Hs; cbn; [assumption|]. apply IH.
  destruct (run_command w c) as [w'|e|] eqn:E; try assumption.
  apply command_effect in E. eapply effect_sound; eassumption.
Qed.
Lemma can_be_sound w : can_be w -> sound w.
Proof. intros (cs & ->). apply run_sound, sound_start. Qed.

(** Objects keep their number, class, header and name. *)
Lemma effect_objects w cmd w' i o : effect w cmd w' -> at_ w i o -> at_ w' i o.
Proof.
  unfold at_. intros E Ho. destruct E; cbn; rewrite ?nth_error_app1; try assumption; eapply nth_some_lt; eassumption.
Qed.
Lemma run_objects cs w i o : at_ w i o -> at_ (run_commands w cs) i o.
Proof.
  revert w. induction cs as [|c cs IH]; intros w Ho; cbn; [assumption|]. apply IH.
  destruct (run_command w c) as [w'|e|] eqn:E; try assumption.
  apply command_effect in E. eapply effect_objects; eassumption.
Qed.

Lemma place_at w i p : place w i = Some p -> exists c n, at_ w i (mkobject c (Some p) n).
Proof.
  unfold place, at_. destruct (nth_error (w_objects w) i) as [[c q n]|]; [|discriminate].
  cbn. intros ->. exists c, n. reflexivity.
Qed.
Lemma at_place w i c p n : at_ w i (mkobject c (Some p) n) -> place w i = Some p.
Proof. unfold at_, place. intros ->. reflexivity. Qed.

(** Keywords are changed by [Write] only. *)
Lemma step_same w c w' p hd : run_command w c = Ok w' -> ~ writes_keyword c ->
  nth_error (w_headers w) p = Some hd ->
  exists hd', nth_error (w_headers w') p = Some hd' /\ same_keywords hd hd'.
Proof.
  intros E Hc Hp. pose proof (command_effect _ _ _ E) as F.
  destruct F as [c' hd1 name| |i q name Hq Hq'|i q size Hq Hq'|i q size Hq|i q k v Hw Hq].
  - exists hd. split; [|apply same_refl]. cbn. rewrite nth_error_app1; [assumption|eapply nth_some_lt; eassumption].
  - exists hd. split; [assumption|apply same_refl].
  - exists hd. split; [assumption|apply same_refl].
  - cbn. destruct (Nat.eq_dec p q) as [->|Hne].
    + exists (set_sizes hd size). split; [exact (put_same _ _ _ _ Hp)|apply set_sizes_same].
    + exists hd. split; [rewrite put_other; assumption|apply same_refl].
  - cbn. destruct (Nat.eq_dec p q) as [->|Hne].
    + exists (set_sizes hd size). split; [exact (put_same _ _ _ _ Hp)|apply set_sizes_same].
    + exists hd. split; [rewrite put_other; assumption|apply same_refl].
  - subst c. destruct Hc. exact I.
Qed.

Lemma run_same cs w p hd : Forall (fun c => ~ writes_keyword c) cs -> nth_error (w_headers w) p = Some hd ->
  exists hd', nth_error (w_headers (run_commands w cs)) p = Some hd' /\ same_keywords hd hd'.
Proof.
  revert w hd. induction cs as [|c cs IH]; intros w hd Hcs Hp; cbn.
  - exists hd. split; [assumption|apply same_refl].
  - inversion Hcs as [|c' cs' Hc Hcs']; subst. destruct (run_command w c) as [w'|e|] eqn:E; try (apply IH; assumption).
    destruct (step_same _ _ _ _ _ E Hc Hp) as (hd1 & Hp1 & S1).
    destruct (IH w' hd1 Hcs' Hp1) as (hd2 & Hp2 & S2).
    exists hd2. split; [assumption|]. eapply same_trans; eassumption.
Qed.

(** ** The properties *)

Lemma derived_shape w c i w' p : derives c i -> class_of w i = Some MicropolImage -> place w i = Some p ->
  run_command w c = Ok w' ->
  exists n, w_objects w' = w_objects w ++ [mkobject MicropolImage (Some p) n] /\ (n = None \/ n = Some "image.fits"%string).
Proof.
  intros D Hc Hp. unfold class_of, place in *.
  destruct (nth_error (w_objects w) i) as [o|] eqn:Ho; [|discriminate]. cbn in Hc. injection Hc as Hc.
  destruct c as [c f|c size|[|] j size|m j size|j size|j k v]; cbn in D; try tauto; subst j; cbn; unfold the_object;
    rewrite Ho; cbn.
  - unfold micropol_from, header_place. rewrite Hp, Hc. cbn. intros E. injection E as <-.
    exists None. split; [reflexivity|left; reflexivity].
  - rewrite Hc. unfold micropol_makes, micropol_from, header_place. rewrite Hp, Hc. cbn.
    destruct m; intros E; injection E as <-; eexists; (split; [reflexivity|]); first [left; reflexivity|right; reflexivity].
Qed.

Lemma derived_place w c i w' p : derives c i -> class_of w i = Some MicropolImage -> place w i = Some p ->
  run_command w c = Ok w' ->
  (exists n, at_ w' (newest w') (mkobject MicropolImage (Some p) n) /\ (n = None \/ n = Some "image.fits"%string)) /\
  newest w' = length (w_objects w).
Proof.
  intros D Hc Hp E. destruct (derived_shape _ _ _ _ _ D Hc Hp E) as (n & Hw & Hn).
  assert (N : newest w' = length (w_objects w)) by (unfold newest; rewrite Hw, app_length; cbn; lia).
  split; [|assumption]. exists n. split; [|assumption].
  unfold at_. rewrite N, Hw, nth_snoc, Nat.ltb_irrefl, Nat.eqb_refl. reflexivity.
Qed.

Lemma class_place w i : can_be w -> class_of w i = Some MicropolImage ->
  exists p hd, place w i = Some p /\ nth_error (w_headers w) p = Some hd.
Proof.
  intros Hw Hc. apply can_be_sound in Hw. destruct (has_header _ Hw _ Hc) as (p & Hp).
  pose proof (in_range _ Hw _ _ Hp) as Hl.
  destruct (nth_error (w_headers w) p) as [hd|] eqn:E; [eauto|]. apply nth_error_None in E. lia.
Qed.

(** A derived image has, and keeps, the keywords of the image it was made from. *)
Lemma c109_kept w c i w' cs : can_be w -> class_of w i = Some MicropolImage -> derives c i ->
  run_command w c = Ok w' -> Forall (fun c => ~ writes_keyword c) cs ->
  exists hd hd', header_of w i = Some hd /\ header_of (run_commands w' cs) (newest w') = Some hd' /\
    same_keywords hd hd'.
Proof.
  intros Hw Hc D E Hcs. destruct (class_place _ _ Hw Hc) as (p & hd & Hp & Hhd).
  destruct (derived_place _ _ _ _ _ D Hc Hp E) as ((n & Hat & _) & _).
  assert (Hnw : ~ writes_keyword c) by (destruct c; cbn in *; tauto).
  destruct (step_same _ _ _ _ _ E Hnw Hhd) as (hd1 & Hp1 & S1).
  destruct (run_same cs _ _ _ Hcs Hp1) as (hd2 & Hp2 & S2).
  exists hd, hd2. repeat apply conj.
  - rewrite header_of_place, Hp. assumption.
  - rewrite header_of_place. erewrite at_place; [eassumption|]. apply run_objects. eassumption.
  - eapply same_trans; eassumption.
Qed.

(** They have one header in common for ever. *)
Lemma c110_shared w c i w' cs : can_be w -> class_of w i = Some MicropolImage -> derives c i ->
  run_command w c = Ok w' ->
  newest w' <> i /\ header_of (run_commands w' cs) (newest w') = header_of (run_commands w' cs) i /\
  header_of (run_commands w' cs) i <> None.
Proof.
  intros Hw Hc D E. destruct (class_place _ _ Hw Hc) as (p & hd & Hp & Hhd).
  destruct (derived_place _ _ _ _ _ D Hc Hp E) as ((n & Hat & _) & N).
  destruct (place_at _ _ _ Hp) as (c0 & n0 & H0).
  pose proof (command_effect _ _ _ E) as F.
  pose proof (effect_objects _ _ _ _ _ F H0) as H1.
  pose proof (run_objects cs _ _ _ H1) as H2. pose proof (run_objects cs _ _ _ Hat) as H3.
  repeat apply conj.
  - rewrite N. unfold at_ in H0. apply nth_some_lt in H0. lia.
  - rewrite !header_of_place, (at_place _ _ _ _ _ H2), (at_place _ _ _ _ _ H3). reflexivity.
  - assert (S : sound (run_commands w' cs)).
    { apply run_sound. eapply effect_sound; [apply can_be_sound; eassumption|eassumption]. }
    rewrite header_of_place, (at_place _ _ _ _ _ H2).
    apply nth_error_Some. apply (in_range _ S i). eapply at_place. eassumption.
Qed.

Lemma run_cons w c w' cs : run_command w c = Ok w' -> run_commands w (c :: cs) = run_commands w' cs.
Proof. intros E. cbn. rewrite E. reflexivity. Qed.

(** Writing a keyword of one of the two writes it for both. *)
Lemma c110_written w c i w' k v : can_be w -> class_of w i = Some MicropolImage -> derives c i ->
  run_command w c = Ok w' ->
  exists w'' hd, run_command w' (Write (newest w') k v) = Ok w'' /\ header_of w'' i = Some hd /\ keyword hd k v.
Proof.
  intros Hw Hc D E. destruct (class_place _ _ Hw Hc) as (p & hd & Hp & Hhd).
  destruct (derived_place _ _ _ _ _ D Hc Hp E) as ((n & Hat & _) & N).
  destruct (place_at _ _ _ Hp) as (c0 & n0 & H0).
  pose proof (command_effect _ _ _ E) as F.
  pose proof (effect_objects _ _ _ _ _ F H0) as H1.
  assert (S : sound w') by (eapply effect_sound; [apply can_be_sound; eassumption|eassumption]).
  assert (Hl : (p < length (w_headers w'))%nat) by (eapply (in_range _ S); eapply at_place; eassumption).
  destruct (nth_error (w_headers w') p) as [hd1|] eqn:Hhd1; [|apply nth_error_None in Hhd1; lia].
  exists (change_header w' p (fun hd => hset hd k v)), (hset hd1 k v). repeat apply conj.
  - cbn. unfold the_object. unfold at_ in Hat. rewrite Hat. cbn. reflexivity.
  - rewrite header_of_place. change (place (change_header w' p (fun hd => hset hd k v)) i) with (place w' i).
    rewrite (at_place _ _ _ _ _ H1). cbn. exact (put_same _ _ _ _ Hhd1).
  - apply hset_same.
Qed.

(** An Image has a header of its own. *)
Lemma c110_own w i j k v w' : can_be w -> i <> j ->
  class_of w i = Some Image \/ class_of w j = Some Image ->
  run_command w (Write i k v) = Ok w' -> header_of w' j = header_of w j.
Proof.
  intros Hw Hne Hc E. apply can_be_sound in Hw. cbn in E.
  apply bind_ok in E as (o & Ho & E). apply bind_ok in E as (p & Hp & E). injection E as <-.
  apply the_object_ok in Ho. apply header_place_ok in Hp.
  assert (Hpi : place w i = Some p) by (unfold place; rewrite Ho; assumption).
  rewrite !header_of_place. change (place (change_header w p (fun hd => hset hd k v)) j) with (place w j).
  destruct (place w j) as [q|] eqn:Hq; [|reflexivity]. cbn. apply put_other. intros ->.
  destruct Hc as [Hc|Hc].
  - destruct Hne. symmetry. eapply (owned _ Hw); eassumption.
  - destruct Hne. eapply (owned _ Hw); eassumption.
Qed.

(** Names of derived images *)
Lemma c109_unnamed w c i w' : can_be w -> class_of w i = Some MicropolImage -> derives c i ->
  run_command w c = Ok w' -> name_of w' (newest w') = None \/ name_of w' (newest w') = Some "image.fits"%string.
Proof.
  intros Hw Hc D E. destruct (class_place _ _ Hw Hc) as (p & hd & Hp & Hhd).
  destruct (derived_place _ _ _ _ _ D Hc Hp E) as ((n & Hat & Hn) & _).
  unfold name_of. unfold at_ in Hat. rewrite Hat. assumption.
Qed.

Lemma newest_own w c hd n : newest (add_own w c hd n) = length (w_objects w) /\
  nth_error (w_objects (add_own w c hd n)) (length (w_objects w)) = Some (mkobject c (Some (length (w_headers w))) n) /\
  nth_error (w_headers (add_own w c hd n)) (length (w_headers w)) = Some hd.
Proof.
  unfold newest, add_own, add; cbn. rewrite app_length. cbn. split; [lia|].
  rewrite !nth_snoc, !Nat.ltb_irrefl, !Nat.eqb_refl. split; reflexivity.
Qed.

Lemma image_made w c i w' : can_be w -> class_of w i = Some Image -> from_image c i -> run_command w c = Ok w' ->
  exists cl size n, w' = add_own w cl (primary_header size) (Some n) /\
    match c with
    | Make Rebinning _ _ | FromObject _ _ _ => name_of w i = Some n
    | _ => n = "image.fits"%string
    end.
Proof.
  intros Hw Hc D. apply can_be_sound in Hw. pose proof (has_name _ Hw i) as Hn.
  unfold class_of, place, name_of in *.
  destruct (nth_error (w_objects w) i) as [o|] eqn:Ho; [|discriminate]. cbn in Hc. injection Hc as Hc.
  destruct c as [c f|c size|[|] j size|m j size|j size|j k v]; cbn in D; try tauto; subst j; cbn; unfold the_object;
    rewrite Ho; cbn.
  - unfold plain_from, header_place. rewrite Hc. destruct (o_header o); cbn; [|discriminate].
    destruct (o_filename o); [|discriminate]. intros E. injection E as <-. do 3 eexists. split; reflexivity.
  - unfold micropol_from, header_place. rewrite Hc. destruct (o_header o); cbn; [|discriminate].
    destruct (o_filename o); [|discriminate]. intros E. injection E as <-. do 3 eexists. split; reflexivity.
  - rewrite Hc. unfold image_makes, plain_from, header_place. rewrite Hc.
    destruct m; cbn; try discriminate; destruct (o_header o); cbn; try discriminate;
      try (destruct (o_filename o); [|discriminate]);
      intros E; injection E as <-; do 3 eexists; split; reflexivity.
Qed.

Lemma c109_image_loses w c i w' : can_be w -> class_of w i = Some Image -> from_image c i -> run_command w c = Ok w' ->
  exists hd, header_of w' (newest w') = Some hd /\ no_keywords hd.
Proof.
  intros Hw Hc D E. destruct (image_made _ _ _ _ Hw Hc D E) as (cl & size & n & -> & _).
  destruct (newest_own w cl (primary_header size) (Some n)) as (N & Ho & Hh).
  exists (primary_header size). split; [|apply primary_empty].
  rewrite header_of_place. unfold place. rewrite N, Ho. assumption.
Qed.

Lemma c109_image_names w c i w' : can_be w -> class_of w i = Some Image -> run_command w c = Ok w' ->
  ((exists cl size, c = FromObject cl i size) \/ (exists size, c = Make Rebinning i size)) ->
  name_of w' (newest w') = name_of w i /\ name_of w i <> None.
Proof.
  intros Hw Hc E D.
  assert (D' : from_image c i) by (destruct D as [(cl & size & ->)|(size & ->)]; reflexivity).
  destruct (image_made _ _ _ _ Hw Hc D' E) as (cl & size & n & -> & Hn).
  destruct (newest_own w cl (primary_header size) (Some n)) as (N & Ho & _).
  assert (Hn' : name_of w i = Some n) by (destruct D as [(? & ? & ->)|(? & ->)]; exact Hn).
  rewrite Hn'. split; [|discriminate]. unfold name_of. rewrite N, Ho. reflexivity.
Qed.

(** ** Sizes, and names given to new images *)
Lemma set_sizes_keywords hd (size : Z * Z) :
  keyword (set_sizes hd size) "NAXIS1" (HInt (snd size)) /\ keyword (set_sizes hd size) "NAXIS2" (HInt (fst size)).
Proof.
  unfold set_sizes. split; [|apply hset_same]. apply hset_other; [discriminate|]. apply hset_same.
Qed.
Lemma own_header w c hd name : header_of (add_own w c hd name) (newest (add_own w c hd name)) = Some hd.
Proof.
  unfold header_of, newest, add_own, add. cbn [w_objects w_headers]. rewrite app_length. cbn [length].
  replace (length (w_objects w) + 1 - 1)%nat with (length (w_objects w)) by lia.
  rewrite nth_error_app2, Nat.sub_diag by lia. cbn [nth_error]. rewrite nth_error_app2, Nat.sub_diag by lia. reflexivity.
Qed.
Lemma own_name w c hd name : name_of (add_own w c hd name) (newest (add_own w c hd name)) = name.
Proof.
  unfold name_of, newest, add_own, add. cbn [w_objects w_headers]. rewrite app_length. cbn [length].
  replace (length (w_objects w) + 1 - 1)%nat with (length (w_objects w)) by lia.
  rewrite nth_error_app2, Nat.sub_diag by lia. reflexivity.
Qed.
Lemma class_is w i c : class_of w i = Some c -> exists o, nth_error (w_objects w) i = Some o /\ o_class o = c.
Proof. unfold class_of. destruct (nth_error (w_objects w) i) as [o|]; [|discriminate]. cbn. intros E. injection E as <-. eauto. Qed.

Lemma c109_sizes w c w' size : can_be w -> sets_size w c size -> run_command w c = Ok w' ->
  exists hd, header_of w' (newest w') = Some hd /\ keyword hd "NAXIS1" (HInt (snd size)) /\ keyword hd "NAXIS2" (HInt (fst size)).
Proof.
  intros Hw Hs E. pose proof (can_be_sound w Hw) as Sw.
  assert (P : forall o (wx : world), o_class o = Image -> plain_from w o size = Ok wx \/ micropol_from w o size = Ok wx ->
    exists hd, header_of wx (newest wx) = Some hd /\ keyword hd "NAXIS1" (HInt (snd size)) /\ keyword hd "NAXIS2" (HInt (fst size))).
  { intros o wx Ho [Ex|Ex]; [unfold plain_from in Ex|unfold micropol_from in Ex]; rewrite Ho in Ex; apply bind_ok in Ex as (p & _ & Ex);
      (destruct (o_filename o); [|discriminate]); injection Ex as <-; exists (primary_header size);
      (split; [apply own_header|apply set_sizes_keywords]). }
  destruct Hs as [(cl & ->)|[(m & i & -> & Hd & Hv)|(cl & i & -> & Hc)]].
  - cbn in E. injection E as <-. exists (primary_header size). split; [apply own_header|apply set_sizes_keywords].
  - cbn in E. apply bind_ok in E as (o & Ho & E). apply the_object_ok in Ho. destruct (o_class o) eqn:C.
    + destruct m; try discriminate; try contradiction; cbn in E; try (apply (P o w' C); left; exact E);
        apply bind_ok in E as (p & _ & E); injection E as <-; exists (primary_header size);
        (split; [apply own_header|apply set_sizes_keywords]).
    + assert (Hm : m <> WithValue).
      { intros Hm. specialize (Hv Hm). apply class_is in Hv. destruct Hv as (o' & Ho' & C'). congruence. }
      unfold micropol_makes in E. apply bind_ok in E as (p & Hp & E). apply header_place_ok in Hp.
      assert (L : (p < length (w_headers w))%nat) by (apply (in_range w Sw i); unfold place; rewrite Ho; exact Hp).
      assert (E' : Ok (change_header (add w (mkobject MicropolImage (Some p) None)) p (fun hd => set_sizes hd size)) = Ok w').
      { unfold micropol_from, header_place in E. rewrite C, Hp in E. cbn [bind] in E. destruct m; try contradiction; exact E. }
      injection E' as <-. destruct (nth_error (w_headers w) p) as [hd|] eqn:Eh; [|apply nth_error_None in Eh; lia].
      exists (set_sizes hd size). split; [|apply set_sizes_keywords].
      unfold header_of, newest, change_header, add. cbn [w_objects w_headers]. rewrite app_length. cbn [length].
      replace (length (w_objects w) + 1 - 1)%nat with (length (w_objects w)) by lia.
      rewrite nth_error_app2, Nat.sub_diag by lia. cbn [nth_error]. exact (put_same _ _ _ _ Eh).
  - apply class_is in Hc. destruct Hc as (o & Ho & C). unfold run_command, the_object in E. rewrite Ho in E. cbn [bind] in E.
    destruct cl; apply (P o w' C); auto.
Qed.

Lemma c109_in_place w i size w' : can_be w -> run_command w (InPlace i size) = Ok w' ->
  exists hd, header_of w' i = Some hd /\ keyword hd "NAXIS1" (HInt (snd size)) /\ keyword hd "NAXIS2" (HInt (fst size)).
Proof.
  intros Hw E. pose proof (can_be_sound w Hw) as Sw. cbn in E. apply bind_ok in E as (o & Ho & E). apply bind_ok in E as (p & Hp & E).
  injection E as <-. apply the_object_ok in Ho. apply header_place_ok in Hp.
  assert (L : (p < length (w_headers w))%nat) by (apply (in_range w Sw i); unfold place; rewrite Ho; exact Hp).
  destruct (nth_error (w_headers w) p) as [hd|] eqn:Eh; [|apply nth_error_None in Eh; lia].
  exists (set_sizes hd size). split; [|apply set_sizes_keywords].
  rewrite header_of_place. unfold place. cbn [w_objects w_headers change_header]. rewrite Ho, Hp. exact (put_same _ _ _ _ Eh).
Qed.

Lemma c109_renamed w m i size w' : class_of w i = Some Image -> In m [Shifting; WithSameClass; WithValue] ->
  run_command w (Make m i size) = Ok w' -> name_of w' (newest w') = Some "image.fits"%string.
Proof.
  intros Hc Hm E. apply class_is in Hc. destruct Hc as (o & Ho & C). cbn in E. unfold the_object in E. rewrite Ho in E. cbn [bind] in E.
  rewrite C in E. destruct Hm as [<-|[<-|[<-|[]]]]; cbn in E; apply bind_ok in E as (p & _ & E); injection E as <-; apply own_name.
Qed.
