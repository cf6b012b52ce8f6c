(** Facts about path strings. *)
From Coq Require Import String Ascii Lia.
From Verif Require Import Base.Base Model.Paths Model.Codec Model.Fs Spec.FsSpec.
Local Open Scope string_scope.
Local Arguments ascii_dec : simpl never.

Lemma sapp_assoc (a b c : string) : a ++ (b ++ c) = (a ++ b) ++ c.
Proof. induction a as [|x a IH]; cbn; [reflexivity|]. rewrite IH. reflexivity. Qed.
Lemma sapp_nil_r (a : string) : a ++ "" = a.
Proof. induction a as [|x a IH]; cbn; [reflexivity|]. rewrite IH. reflexivity. Qed.
Lemma slength_app a b : String.length (a ++ b) = (String.length a + String.length b)%nat.
Proof. induction a as [|x a IH]; cbn; [reflexivity|]. rewrite IH. reflexivity. Qed.
Lemma sapp_inv_head a b c : a ++ b = a ++ c -> b = c.
Proof. induction a as [|x a IH]; cbn; intros H; [exact H|]. injection H as H. exact (IH H). Qed.
Lemma sapp_cons (a : ascii) s t : String a s ++ t = String a (s ++ t).
Proof. reflexivity. Qed.
Lemma lascii_app a b :
  list_ascii_of_string (a ++ b) = (list_ascii_of_string a ++ list_ascii_of_string b)%list.
Proof. induction a as [|x a IH]; cbn; [reflexivity|]. rewrite IH. reflexivity. Qed.
Lemma lascii_inj a b : list_ascii_of_string a = list_ascii_of_string b -> a = b.
Proof.
  intros H. rewrite <- (string_of_list_ascii_of_string a), H. apply string_of_list_ascii_of_string.
Qed.
Lemma sapp_inv_tail a b c : a ++ c = b ++ c -> a = b.
Proof.
  intros H. apply lascii_inj. apply (f_equal list_ascii_of_string) in H. rewrite !lascii_app in H.
  apply app_inv_tail in H. exact H.
Qed.

Lemma no_char_app c a b : no_char c (a ++ b) <-> no_char c a /\ no_char c b.
Proof.
  unfold no_char. rewrite lascii_app. split.
  - intros H. split; intros Hi; apply H, in_or_app; tauto.
  - intros [H1 H2] Hi. apply in_app_or in Hi. tauto.
Qed.
Lemma no_char_cons c a s : no_char c (String a s) <-> a <> c /\ no_char c s.
Proof. unfold no_char. cbn. split; [|intros [H1 H2] [H|H]; [exact (H1 H)|exact (H2 H)]]. tauto. Qed.
Lemma no_char_nil c : no_char c "".
Proof. intros []. Qed.

(** ** Splitting *)
Lemma split_nonempty c s : split_on c s <> [].
Proof.
  destruct s as [|a s]; cbn; [discriminate|]. destruct (Ascii.eqb a c); [discriminate|].
  destruct (split_on c s); discriminate.
Qed.

Lemma split_none c s : no_char c s -> split_on c s = [s].
Proof.
  induction s as [|a s IH]; intros H; [reflexivity|]. apply no_char_cons in H. destruct H as [H1 H2].
  cbn. apply Ascii.eqb_neq in H1. rewrite H1, IH by exact H2. reflexivity.
Qed.

Lemma split_sep c s t : split_on c (s ++ String c t) = (split_on c s ++ split_on c t)%list.
Proof.
  induction s as [|a s IH].
  - cbn. rewrite Ascii.eqb_refl. reflexivity.
  - cbn [append]. cbn [split_on]. rewrite IH. destruct (Ascii.eqb a c); [reflexivity|].
    pose proof (split_nonempty c s). destruct (split_on c s); [congruence|reflexivity].
Qed.

(** Text without separators only extends the last piece. *)
Lemma split_last c s t : no_char c t ->
  exists l u, split_on c s = (l ++ [u])%list /\ split_on c (s ++ t) = (l ++ [(u ++ t)%string])%list.
Proof.
  intros Ht. induction s as [|a s (l & u & E1 & E2)].
  - exists [], "". split; [reflexivity|]. cbn [append app]. apply split_none, Ht.
  - cbn [append]. cbn [split_on]. rewrite E1, E2. destruct (Ascii.eqb a c).
    + exists ("" :: l), u. split; reflexivity.
    + destruct l as [|h l]; cbn [app].
      * exists [], (String a u). split; reflexivity.
      * exists (String a h :: l), u. split; reflexivity.
Qed.

Lemma split_pieces_no_char c s : Forall (no_char c) (split_on c s).
Proof.
  induction s as [|a s IH]; cbn.
  - repeat constructor. apply no_char_nil.
  - destruct (Ascii.eqb a c) eqn:E.
    + constructor; [apply no_char_nil|exact IH].
    + destruct (split_on c s) as [|h t]; inversion IH; subst.
      * constructor; [|constructor]. apply no_char_cons. split; [apply Ascii.eqb_neq, E|apply no_char_nil].
      * constructor; [|assumption]. apply no_char_cons. split; [apply Ascii.eqb_neq, E|assumption].
Qed.

Lemma join_cons sep a l : l <> [] -> join sep (a :: l) = a ++ sep ++ join sep l.
Proof. destruct l; [congruence|reflexivity]. Qed.

Lemma join_snoc sep l u : l <> [] -> join sep (l ++ [u])%list = join sep l ++ sep ++ u.
Proof.
  induction l as [|a l IH]; intros H; [congruence|]. destruct l as [|b l].
  - reflexivity.
  - cbn [app]. rewrite join_cons by (intros E; discriminate).
    rewrite (join_cons sep a (b :: l)) by discriminate.
    cbn [app] in IH. rewrite IH by discriminate. rewrite <- !sapp_assoc. reflexivity.
Qed.

Lemma split_join c l : l <> [] -> Forall (no_char c) l ->
  split_on c (join (String c "") l) = l.
Proof.
  induction l as [|a l IH]; intros H F; [congruence|]. inversion F; subst.
  destruct l as [|b l].
  - cbn. apply split_none. assumption.
  - rewrite join_cons by discriminate.
    change (String c "" ++ join (String c "") (b :: l)) with (String c (join (String c "") (b :: l))).
    rewrite split_sep, split_none by assumption. rewrite IH by (try discriminate; assumption). reflexivity.
Qed.

Lemma join_split c s : join (String c "") (split_on c s) = s.
Proof.
  induction s as [|a s IH]; [reflexivity|]. cbn [split_on].
  destruct (Ascii.eqb a c) eqn:E.
  - apply Ascii.eqb_eq in E. subst a. rewrite join_cons by apply split_nonempty. rewrite IH. reflexivity.
  - pose proof (split_nonempty c s). destruct (split_on c s) as [|h t]; [congruence|].
    destruct t as [|h2 t].
    + cbn in IH |- *. rewrite IH. reflexivity.
    + rewrite join_cons in IH by discriminate. rewrite join_cons by discriminate.
      rewrite sapp_cons, IH. reflexivity.
Qed.

Lemma join_colons s : join ":" (split_on dot s) = dots_to_colons s.
Proof.
  induction s as [|a s IH]; [reflexivity|]. cbn [split_on dots_to_colons]. unfold dot in *.
  destruct (Ascii.eqb a ".") eqn:E.
  - rewrite join_cons by apply split_nonempty. rewrite IH. reflexivity.
  - pose proof (split_nonempty "."%char s). destruct (split_on "." s) as [|h t]; [congruence|].
    destruct t as [|h2 t].
    + cbn in IH |- *. rewrite IH. reflexivity.
    + rewrite join_cons in IH by discriminate. rewrite join_cons by discriminate.
      rewrite sapp_cons, IH. reflexivity.
Qed.

Lemma dots_to_colons_id s : no_char "." s -> dots_to_colons s = s.
Proof.
  induction s as [|a s IH]; intros H; [reflexivity|]. apply no_char_cons in H. destruct H as [H1 H2].
  cbn. apply Ascii.eqb_neq in H1. rewrite H1, IH by exact H2. reflexivity.
Qed.

(** ** Normalisation *)
(** A component that normalisation keeps. *)
Definition plain (c : string) : Prop := no_char slash c /\ c <> "" /\ c <> "." /\ c <> "..".

Definition norm_comps (l : list string) : list string := rev (fold_left (norm_step true) l []).

Lemma norm_step_plain b st c : plain c -> norm_step b st c = c :: st.
Proof.
  intros (_ & H1 & H2 & H3). unfold norm_step.
  apply String.eqb_neq in H1, H2, H3. rewrite H1, H2, H3. reflexivity.
Qed.

Lemma norm_comps_snoc l c : plain c -> norm_comps (l ++ [c])%list = (norm_comps l ++ [c])%list.
Proof.
  intros H. unfold norm_comps. rewrite fold_left_app. cbn [fold_left].
  rewrite norm_step_plain by exact H. reflexivity.
Qed.

Lemma fold_plain l : forall st, Forall plain st -> Forall (no_char slash) l ->
  Forall plain (fold_left (norm_step true) l st).
Proof.
  induction l as [|c l IH]; intros st Hst Hl; [exact Hst|]. inversion Hl; subst. cbn [fold_left].
  apply IH; [|assumption]. unfold norm_step.
  destruct (String.eqb c "") eqn:E1; cbn [orb]; [exact Hst|].
  destruct (String.eqb c ".") eqn:E2; [exact Hst|].
  destruct (String.eqb c "..") eqn:E3; cbn [negb].
  - destruct st as [|top st]; [constructor|]. inversion Hst as [|? ? Hp Hr]; subst.
    destruct Hp as (_ & _ & _ & Hp). apply String.eqb_neq in Hp. rewrite Hp. exact Hr.
  - constructor; [|exact Hst]. apply String.eqb_neq in E1, E2, E3. unfold plain. auto.
Qed.

Lemma norm_comps_plain l : Forall (no_char slash) l -> Forall plain (norm_comps l).
Proof. intros H. unfold norm_comps. apply Forall_rev, fold_plain; [constructor|exact H]. Qed.

Lemma norm_comps_fix l : Forall plain l -> norm_comps l = l.
Proof.
  induction l as [|c l IH] using rev_ind; intros H; [reflexivity|].
  apply Forall_app in H. destruct H as [H1 H2]. inversion H2; subst.
  rewrite norm_comps_snoc by assumption. rewrite IH by assumption. reflexivity.
Qed.

Lemma norm_step_skip b st c : c = "" \/ c = "." -> norm_step b st c = st.
Proof. intros [-> | ->]; reflexivity. Qed.

Lemma norm_comps_filter l :
  norm_comps (filter (fun c => negb (String.eqb c "" || String.eqb c ".")) l) = norm_comps l.
Proof.
  unfold norm_comps. f_equal. generalize (@nil string). induction l as [|c l IH]; intros st; [reflexivity|].
  cbn [filter fold_left]. destruct (String.eqb c "" || String.eqb c ".") eqn:E; cbn [negb].
  - rewrite norm_step_skip; [apply IH|]. apply Bool.orb_true_iff in E. rewrite !String.eqb_eq in E. exact E.
  - cbn [fold_left]. apply IH.
Qed.

(** A root ("/" or "//") followed by plain components. *)
Lemma is_abs_inv p : is_abs p = true -> exists p', p = "/" ++ p'.
Proof.
  unfold is_abs, starts_with. intros H. destruct p as [|a p]; [discriminate|]. cbn in H.
  destruct (ascii_dec "/" a) as [<-|n]; [|discriminate H]. exists p. reflexivity.
Qed.

Lemma initial_cases p : is_abs p = true -> initial_slashes p = "/" \/ initial_slashes p = "//".
Proof.
  unfold is_abs, initial_slashes. intros ->. destruct (starts_with "//" p && negb (starts_with "///" p)); auto.
Qed.

Lemma initial_abs p : is_abs (initial_slashes p) = is_abs p.
Proof.
  unfold is_abs, initial_slashes. destruct (starts_with "/" p) eqn:E; [|reflexivity].
  destruct (starts_with "//" p && negb (starts_with "///" p)); reflexivity.
Qed.

Lemma normpath_abs p : is_abs p = true ->
  normpath p = initial_slashes p ++ join "/" (norm_comps (split_on slash p)).
Proof.
  intros H. unfold normpath.
  assert (E : String.eqb p "" = false) by (destruct (is_abs_inv p H) as [p' ->]; reflexivity).
  rewrite E, H. fold (norm_comps (split_on slash p)).
  destruct (initial_cases _ H) as [-> | ->]; reflexivity.
Qed.

Lemma prefix_nil s : prefix "" s = true.
Proof. destruct s; reflexivity. Qed.

Definition no_lead (s : string) : Prop := starts_with "/" s = false.

Lemma no_lead_join l : Forall (no_char slash) l -> Forall (fun c => c <> "") l -> no_lead (join "/" l).
Proof.
  intros H N. destruct l as [|a l]; [reflexivity|]. inversion H; inversion N; subst.
  destruct a as [|x a]; [congruence|]. apply no_char_cons in H2. destruct H2 as [Hx _].
  unfold no_lead, starts_with, join. destruct l; cbn; destruct (ascii_dec "/" x); try reflexivity; exfalso; apply Hx; symmetry; assumption.
Qed.

Lemma initial_root root s : root = "/" \/ root = "//" -> no_lead s -> initial_slashes (root ++ s) = root.
Proof.
  unfold no_lead, initial_slashes, starts_with. intros [-> | ->] Hs; cbn.
  - destruct s as [|x s]; [reflexivity|]. cbn in Hs |- *.
    destruct (ascii_dec "/" x); [|reflexivity]. destruct s; discriminate Hs.
  - destruct s as [|x s]; [reflexivity|]. cbn in Hs |- *.
    destruct (ascii_dec "/" x); [|reflexivity]. destruct s; discriminate Hs.
Qed.

Lemma norm_comps_empties root l : root = "/" \/ root = "//" -> l <> [] ->
  Forall (no_char slash) l ->
  norm_comps (split_on slash (root ++ join "/" l)) = norm_comps l.
Proof.
  intros Hr Hl Hn. assert (E : split_on slash (join "/" l) = l) by (apply split_join; assumption).
  destruct Hr as [-> | ->]; cbn [append split_on]; rewrite !Ascii.eqb_refl, E; reflexivity.
Qed.

Lemma normpath_root root l : root = "/" \/ root = "//" ->
  Forall (no_char slash) l -> Forall (fun c => c <> "") l ->
  normpath (root ++ join "/" l) = root ++ join "/" (norm_comps l).
Proof.
  intros Hr Hn Hne.
  assert (Ha : is_abs (root ++ join "/" l) = true) by (destruct Hr as [-> | ->]; destruct (join "/" l); reflexivity).
  rewrite normpath_abs by exact Ha. rewrite initial_root; [|exact Hr|apply no_lead_join; assumption].
  f_equal. f_equal. destruct l as [|a l].
  - destruct Hr as [-> | ->]; reflexivity.
  - apply norm_comps_empties; [exact Hr|discriminate|exact Hn].
Qed.

(** ** Absolute paths *)
Section Abs.
  Variable cwd : string.
  Hypothesis Hcwd : is_abs cwd = true.

  Lemma is_abs_app a b : is_abs a = true -> is_abs (a ++ b) = true.
  Proof.
    intros H. destruct (is_abs_inv a H) as [a' ->].
    unfold is_abs, starts_with. cbn. destruct (a' ++ b); reflexivity.
  Qed.

  Lemma path_join_abs p : is_abs (path_join cwd p) = true.
  Proof.
    unfold path_join. destruct (is_abs p) eqn:E; [exact E|].
    destruct (String.eqb cwd "" || ends_in_slash cwd); apply is_abs_app, Hcwd.
  Qed.

  (** The root and the raw components of a path. *)
  Definition root_of (p : string) : string := initial_slashes (path_join cwd p).
  Definition comps_of (p : string) : list string := split_on slash (path_join cwd p).

  Lemma root_of_cases p : root_of p = "/" \/ root_of p = "//".
  Proof. apply initial_cases, path_join_abs. Qed.

  Lemma comps_no_slash p : Forall (no_char slash) (comps_of p).
  Proof. apply split_pieces_no_char. Qed.

  Lemma key_form p : key cwd p = root_of p ++ join "/" (norm_comps (comps_of p)).
  Proof. unfold key, abspath. apply normpath_abs, path_join_abs. Qed.

  Lemma plain_ne l : Forall plain l -> Forall (no_char slash) l /\ Forall (fun c => c <> "") l.
  Proof. intros H. split; eapply Forall_impl; try exact H; intros c (H1 & H2 & _); assumption. Qed.

  Lemma key_abs p : is_abs (key cwd p) = true.
  Proof. rewrite key_form. apply is_abs_app. destruct (root_of_cases p) as [-> | ->]; reflexivity. Qed.

  Lemma path_join_is_abs p : is_abs p = true -> path_join cwd p = p.
  Proof. unfold path_join. intros ->. reflexivity. Qed.

  (** Addressing a file by its absolute path reaches the same file. *)
  Lemma key_idem p : key cwd (key cwd p) = key cwd p.
  Proof.
    unfold key at 1, abspath. rewrite path_join_is_abs by apply key_abs.
    rewrite key_form. pose proof (norm_comps_plain _ (comps_no_slash p)) as Hp.
    destruct (plain_ne _ Hp). rewrite normpath_root; [|apply root_of_cases|assumption|assumption].
    rewrite (norm_comps_fix _ Hp). reflexivity.
  Qed.

  Lemma path_join_app d n : is_abs (d ++ n) = is_abs d ->
    exists a, path_join cwd (d ++ n) = a ++ n /\ path_join cwd d = a.
  Proof.
    intros E. unfold path_join. rewrite E. destruct (is_abs d).
    - exists d. auto.
    - destruct (String.eqb cwd "" || ends_in_slash cwd); eexists; split; try reflexivity.
      + apply sapp_assoc.
      + rewrite !sapp_assoc. reflexivity.
  Qed.

  (** A suffix that is long enough and has no slash survives normalisation. *)
  Lemma key_suffix t suf : no_char slash suf -> (3 <= String.length suf)%nat ->
    exists t', key cwd (t ++ suf) = t' ++ suf.
  Proof.
    intros Hn Hlen. rewrite key_form.
    assert (E : exists a, path_join cwd (t ++ suf) = a ++ suf).
    { unfold path_join. destruct (is_abs (t ++ suf)); [exists t; reflexivity|].
      destruct (String.eqb cwd "" || ends_in_slash cwd).
      - exists (cwd ++ t). apply sapp_assoc.
      - exists (cwd ++ "/" ++ t). rewrite !sapp_assoc. reflexivity. }
    destruct E as [a E]. unfold comps_of. rewrite E.
    destruct (split_last slash a suf Hn) as (l & u & E1 & E2). rewrite E2.
    assert (Hu : no_char slash u).
    { pose proof (split_pieces_no_char slash a) as F. rewrite E1 in F. apply Forall_app in F.
      destruct F as [_ F]. inversion F; assumption. }
    assert (Hp : plain (u ++ suf)).
    { split; [apply no_char_app; auto|]. 
      assert (L : (3 <= String.length (u ++ suf))%nat) by (rewrite slength_app; lia).
      repeat split; intros Ec; rewrite Ec in L; cbn in L; lia. }
    rewrite norm_comps_snoc by exact Hp.
    destruct (norm_comps l) as [|h r] eqn:En.
    - cbn [app join String.concat]. exists (root_of (t ++ suf) ++ u). apply sapp_assoc.
    - rewrite join_snoc by discriminate. exists (root_of (t ++ suf) ++ join "/" (h :: r) ++ "/" ++ u).
      rewrite !sapp_assoc. reflexivity.
  Qed.

  (** [d] names a directory part: empty, or ending in a slash. *)
  (** File names in one directory: the key is a fixed prefix followed by the name. *)
  Lemma dir_join d n : dir_part d -> no_char slash n -> n <> "" ->
    exists l, comps_of (d ++ n) = (l ++ [n])%list /\
      root_of (d ++ n) = initial_slashes (path_join cwd d) /\
      forall n', no_char slash n' -> n' <> "" -> comps_of (d ++ n') = (l ++ [n'])%list.
  Proof.
    intros Hd Hn Hne.
    assert (Hj : exists a, forall m, no_char slash m -> m <> "" ->
      path_join cwd (d ++ m) = a ++ "/" ++ m /\
      initial_slashes (a ++ "/" ++ m) = initial_slashes (path_join cwd d)).
    { assert (Hlead : forall m, no_char slash m -> starts_with "/" m = false).
      { intros m Hm. destruct m as [|x m]; [reflexivity|]. apply no_char_cons in Hm. destruct Hm as [Hx _].
        unfold starts_with. cbn. destruct (ascii_dec "/" x); [exfalso; apply Hx; symmetry; assumption|reflexivity]. }
      assert (Hini : forall a m, no_char slash m ->
        initial_slashes (a ++ "/" ++ m) = initial_slashes (a ++ "/")).
      { intros a m Hm. specialize (Hlead m Hm). unfold initial_slashes, starts_with in *.
        destruct a as [|x1 [|x2 [|x3 a]]]; cbn.
        - destruct m as [|y m]; [reflexivity|]. cbn in Hlead |- *.
          destruct (ascii_dec "/" y); [destruct m; discriminate Hlead|reflexivity].
        - destruct (ascii_dec "/" x1); [|reflexivity]. cbn.
          destruct m as [|y m]; [reflexivity|]. cbn in Hlead |- *.
          destruct (ascii_dec "/" y); [destruct m; discriminate Hlead|reflexivity].
        - destruct (ascii_dec "/" x1); [|reflexivity]. destruct (ascii_dec "/" x2); [|reflexivity]. cbn.
          destruct m; reflexivity.
        - destruct (ascii_dec "/" x1); [|reflexivity]. destruct (ascii_dec "/" x2); [|reflexivity].
          destruct (ascii_dec "/" x3); [|reflexivity]. destruct a; reflexivity. }
      assert (Hslash : forall a, ends_in_slash a = true -> exists b, a = b ++ "/").
      { intros a. clear. unfold ends_in_slash. destruct a as [|x a]; [discriminate|].
        intros E. apply String.eqb_eq in E. revert x E.
        induction a as [|y a IH]; intros x E.
        - cbn in E. injection E as ->. exists "". reflexivity.
        - destruct (IH y) as [b Eb].
          + cbn [String.length] in *. replace (S (S (String.length a)) - 1)%nat with (S (String.length a)) in E by lia.
            replace (S (String.length a) - 1)%nat with (String.length a) by lia. exact E.
          + exists (String x b). rewrite Eb. reflexivity. }
      destruct Hd as [-> | [d' ->]].
      - (* name relative to the current directory *)
        unfold path_join. cbn [append].
        destruct (String.eqb cwd "") eqn:E0; [apply String.eqb_eq in E0; rewrite E0 in Hcwd; discriminate|].
        destruct (ends_in_slash cwd) eqn:E1; cbn [orb].
        + destruct (Hslash _ E1) as [b Eb]. exists b. intros m Hm _.
          unfold is_abs. rewrite (Hlead m Hm). split.
          * rewrite Eb, <- sapp_assoc. reflexivity.
          * rewrite (Hini _ _ Hm), <- Eb. cbn [starts_with prefix]. rewrite sapp_nil_r. reflexivity.
        + exists cwd. intros m Hm _. unfold is_abs. rewrite (Hlead m Hm). split; [reflexivity|].
          rewrite (Hini _ _ Hm). cbn [starts_with prefix]. rewrite ?sapp_nil_r. reflexivity.
      - (* a directory is named *)
        assert (Ea : forall m, no_char slash m -> m <> "" -> is_abs ((d' ++ "/") ++ m) = is_abs (d' ++ "/")).
        { intros m Hm _. rewrite <- sapp_assoc. unfold is_abs, starts_with.
          destruct d' as [|x d']; cbn; [destruct m; reflexivity|].
          destruct (ascii_dec "/" x); [|reflexivity].
          destruct (d' ++ String "/" m), (d' ++ "/"); reflexivity. }
        destruct (is_abs (d' ++ "/")) eqn:Eabs.
        + exists d'. intros m Hm Hmne. unfold path_join. rewrite (Ea m Hm Hmne), Eabs.
          split; [symmetry; apply sapp_assoc|]. apply Hini, Hm.
        + unfold path_join. destruct (String.eqb cwd "" || ends_in_slash cwd).
          * exists (cwd ++ d'). intros m Hm Hmne. rewrite (Ea m Hm Hmne), Eabs.
            split; [rewrite !sapp_assoc; reflexivity|]. rewrite (Hini _ _ Hm), !sapp_assoc. reflexivity.
          * exists (cwd ++ "/" ++ d'). intros m Hm Hmne. rewrite (Ea m Hm Hmne), Eabs.
            split; [rewrite !sapp_assoc; reflexivity|]. rewrite (Hini _ _ Hm), !sapp_assoc. reflexivity. }
    destruct Hj as [a Hj]. exists (split_on slash a).
    assert (Hc : forall m, no_char slash m -> m <> "" -> comps_of (d ++ m) = (split_on slash a ++ [m])%list).
    { intros m Hm Hmne. unfold comps_of. rewrite (proj1 (Hj m Hm Hmne)).
      change ("/" ++ m) with (String slash m). rewrite split_sep, (split_none _ m) by exact Hm. reflexivity. }
    split; [apply Hc; assumption|]. split; [|exact Hc].
    unfold root_of. destruct (Hj n Hn Hne) as [E1 E2]. rewrite E1. exact E2.
  Qed.

  (** Names in one directory are addressed injectively. *)
  Lemma key_dir d : dir_part d ->
    exists P, forall n, plain n -> key cwd (d ++ n) = P ++ n.
  Proof.
    intros Hd.
    assert (Hx : plain "x").
    { unfold plain. repeat split; try discriminate. intros [H|[]]. discriminate. }
    destruct (dir_join d "x" Hd (proj1 Hx) (proj1 (proj2 Hx))) as (l & _ & _ & Hl).
    set (P := initial_slashes (path_join cwd d) ++
              match norm_comps l with [] => "" | q => join "/" q ++ "/" end).
    exists P. intros n Hp. destruct Hp as (Hn & Hne & Hp).
    rewrite key_form. destruct (dir_join d n Hd Hn Hne) as (l' & _ & Hr & _).
    rewrite Hr, (Hl n Hn Hne). rewrite norm_comps_snoc by (unfold plain; auto).
    unfold P. rewrite <- sapp_assoc. f_equal.
    destruct (norm_comps l) as [|h r] eqn:En; [reflexivity|].
    rewrite join_snoc by discriminate. rewrite sapp_assoc. reflexivity.
  Qed.
End Abs.

(** ** Exchanging the suffix of a path *)
Lemma ends_in_slash_inv a : ends_in_slash a = true -> exists b, a = b ++ "/".
Proof.
  unfold ends_in_slash. destruct a as [|x a]; [discriminate|].
  intros E. apply String.eqb_eq in E. revert x E.
  induction a as [|y a IH]; intros x E.
  - cbn in E. injection E as ->. exists "". reflexivity.
  - destruct (IH y) as [b Eb].
    + cbn [String.length] in *. replace (S (S (String.length a)) - 1)%nat with (S (String.length a)) in E by lia.
      replace (S (String.length a) - 1)%nat with (String.length a) by lia. exact E.
    + exists (String x b). rewrite Eb. reflexivity.
Qed.

Lemma ends_in_slash_app s a : no_char slash a -> a <> "" -> ends_in_slash (s ++ a) = false.
Proof.
  intros Hn Hne. destruct (ends_in_slash (s ++ a)) eqn:E; [|reflexivity]. exfalso.
  apply ends_in_slash_inv in E. destruct E as [b E].
  apply (f_equal list_ascii_of_string) in E. rewrite !lascii_app in E. cbn in E.
  destruct (list_ascii_of_string a) as [|z l] eqn:La using rev_ind.
  - apply Hne. apply lascii_inj. exact La.
  - clear IHl. rewrite app_assoc in E. apply app_inj_tail in E. destruct E as [_ ->].
    apply Hn. rewrite La. apply in_or_app. right. left. reflexivity.
Qed.

Lemma starts_app_no_slash s a : no_char slash a -> is_abs s = true ->
  initial_slashes (s ++ a) = initial_slashes s.
Proof.
  intros Hn Ha. destruct (is_abs_inv s Ha) as [s1 ->].
  assert (Hlead : starts_with "/" a = false).
  { destruct a as [|x a]; [reflexivity|]. apply no_char_cons in Hn. destruct Hn as [Hx _].
    unfold starts_with. cbn. destruct (ascii_dec "/" x); [exfalso; apply Hx; symmetry; assumption|reflexivity]. }
  unfold initial_slashes, starts_with in *. destruct s1 as [|x1 [|x2 s1]]; cbn.
  - destruct a as [|y a]; [reflexivity|]. cbn in Hlead |- *.
    destruct (ascii_dec "/" y); [destruct a; discriminate Hlead|reflexivity].
  - destruct (ascii_dec "/" x1); [|reflexivity]. destruct a as [|y a]; [reflexivity|]. cbn in Hlead |- *.
    destruct (ascii_dec "/" y); [destruct a; discriminate Hlead|reflexivity].
  - destruct (ascii_dec "/" x1); [|reflexivity]. destruct (ascii_dec "/" x2); [|reflexivity].
    destruct s1, a; reflexivity.
Qed.

(** Suffixes that can be exchanged. *)
Definition good_suffix (a : string) : Prop := no_char slash a /\ (3 <= String.length a)%nat.

Lemma good_plain u a : no_char slash u -> good_suffix a -> plain (u ++ a).
Proof.
  intros Hu [Hn Hlen]. split; [apply no_char_app; auto|].
  assert (L : (3 <= String.length (u ++ a))%nat) by (rewrite slength_app; lia).
  repeat split; intros Ec; rewrite Ec in L; cbn in L; lia.
Qed.

Lemma norm_swap s : is_abs s = true ->
  exists X P, forall a, good_suffix a ->
    normpath (s ++ a) = X ++ a /\ normpath ((s ++ a) ++ "/..") = P.
Proof.
  intros Hs.
  destruct (split_last slash s "" (no_char_nil _)) as (l & u & E1 & _).
  assert (Hu : no_char slash u).
  { pose proof (split_pieces_no_char slash s) as F. rewrite E1 in F. apply Forall_app in F.
    destruct F as [_ F]. inversion F; assumption. }
  set (ini := initial_slashes s).
  exists (ini ++ match norm_comps l with [] => u | q => join "/" q ++ "/" ++ u end),
         (ini ++ join "/" (norm_comps l)).
  intros a Ha.
  assert (Esplit : split_on slash (s ++ a) = (l ++ [(u ++ a)%string])%list).
  { destruct (split_last slash s a (proj1 Ha)) as (l' & u' & E1' & E2'). rewrite E1 in E1'.
    apply app_inj_tail in E1'. destruct E1' as [-> ->]. exact E2'. }
  pose proof (good_plain u a Hu Ha) as Hp.
  assert (Ei : initial_slashes (s ++ a) = ini) by (apply starts_app_no_slash; [apply Ha|exact Hs]).
  split.
  - rewrite normpath_abs by (apply is_abs_app; exact Hs). rewrite Ei, Esplit, norm_comps_snoc by exact Hp.
    rewrite <- sapp_assoc. f_equal. destruct (norm_comps l) as [|h r] eqn:En; [reflexivity|].
    rewrite join_snoc by discriminate. rewrite <- !sapp_assoc. reflexivity.
  - rewrite normpath_abs by (apply is_abs_app, is_abs_app; exact Hs).
    change "/.." with (String slash ".."). rewrite split_sep, Esplit.
    assert (Ei2 : initial_slashes ((s ++ a) ++ String slash "..") = ini).
    { destruct (is_abs_inv s Hs) as [s1 Es1].
      destruct Ha as [Hna Hlen]. destruct a as [|y1 [|y2 a]]; cbn in Hlen; [lia|lia|].
      apply no_char_cons in Hna. destruct Hna as [Hy Hna]. apply no_char_cons in Hna. destruct Hna as [Hy2 _].
      unfold ini. rewrite Es1. unfold initial_slashes, starts_with.
      assert (Ny : forall z, z <> slash -> exists n, ascii_dec "/" z = right n).
      { intros z Hz. destruct (ascii_dec "/" z) as [e|n]; [exfalso; apply Hz; symmetry; exact e|eauto]. }
      destruct (Ny y1 Hy) as [n1 En1]. destruct (Ny y2 Hy2) as [n2 En2].
      destruct s1 as [|x1 [|x2 s1]]; cbn; rewrite ?En1; cbn; try reflexivity.
      all: destruct (ascii_dec "/" x1); [|rewrite ?prefix_nil; reflexivity].
        destruct (ascii_dec "/" x2); rewrite ?prefix_nil; reflexivity. }
    rewrite Ei2. f_equal. f_equal. cbn [split_on].
    unfold norm_comps. rewrite !fold_left_app. cbn [fold_left].
    rewrite (norm_step_plain _ _ (u ++ a)) by exact Hp.
    unfold norm_step at 1. cbn [split_on String.eqb Ascii.eqb orb negb fold_left].
    destruct Hp as (_ & _ & _ & Hp). 
    cbn. apply String.eqb_neq in Hp. rewrite Hp. reflexivity.
Qed.

Lemma dtc_app a b : dots_to_colons (a ++ b) = dots_to_colons a ++ dots_to_colons b.
Proof. induction a as [|x a IH]; cbn; [reflexivity|]. rewrite IH. reflexivity. Qed.

Lemma dtc_no_slash s : no_char slash s -> no_char slash (dots_to_colons s).
Proof.
  induction s as [|a s IH]; intros H; [exact H|]. apply no_char_cons in H. destruct H as [Ha H].
  cbn. apply no_char_cons. split; [|apply IH, H]. destruct (Ascii.eqb a "."); [discriminate|exact Ha].
Qed.

Lemma dtc_plain s : plain s -> plain (dots_to_colons s).
Proof.
  intros (H1 & H2 & H3 & H4). split; [apply dtc_no_slash, H1|].
  destruct s as [|a s]; [congruence|].
  assert (Hd : forall t, dots_to_colons (String a s) <> String "." t).
  { intros t E. cbn [dots_to_colons] in E. destruct (Ascii.eqb a ".") eqn:Ea.
    - discriminate E.
    - apply Ascii.eqb_neq in Ea. injection E as E1 E2. exact (Ea E1). }
  split; [discriminate|]. split; apply Hd.
Qed.

Lemma dtc_join l : dots_to_colons (join "/" l) = join "/" (map dots_to_colons l).
Proof.
  induction l as [|a l IH]; [reflexivity|]. destruct l as [|b l]; [reflexivity|].
  rewrite (join_cons "/" a (b :: l)) by discriminate. rewrite !dtc_app, IH. reflexivity.
Qed.

(** Replacing dots by colons keeps a normalised absolute path normalised. *)
Lemma dtc_normal p : is_abs p = true -> normpath p = p -> normpath (dots_to_colons p) = dots_to_colons p.
Proof.
  intros Ha Hp. rewrite normpath_abs in Hp by exact Ha.
  pose proof (norm_comps_plain _ (split_pieces_no_char slash p)) as Hpl.
  set (l := norm_comps (split_on slash p)) in *. set (root := initial_slashes p) in *.
  assert (Hroot : root = "/" \/ root = "//") by (apply initial_cases, Ha).
  assert (E : dots_to_colons p = root ++ join "/" (map dots_to_colons l)).
  { rewrite <- Hp, dtc_app, dtc_join. f_equal. destruct Hroot as [-> | ->]; reflexivity. }
  assert (Hm : Forall plain (map dots_to_colons l)).
  { apply Forall_map. eapply Forall_impl; [|exact Hpl]. apply dtc_plain. }
  rewrite E. destruct (plain_ne _ Hm). rewrite normpath_root by assumption.
  rewrite norm_comps_fix by exact Hm. reflexivity.
Qed.

(** ** pathlib and os.path address the same file *)
Definition keep (c : string) : bool := negb (String.eqb c "" || String.eqb c ".").

Lemma keep_ne l : Forall (no_char slash) l ->
  Forall (no_char slash) (filter keep l) /\ Forall (fun c => c <> "") (filter keep l).
Proof.
  intros H. rewrite Forall_forall in H. split; apply Forall_forall; intros c Hc;
  apply filter_In in Hc; destruct Hc as [Hc Hk].
  - apply H, Hc.
  - intros ->. discriminate.
Qed.

Lemma initial_app s a : is_abs s = true -> ends_in_slash s = false ->
  initial_slashes (s ++ a) = initial_slashes s.
Proof.
  intros Ha He. destruct (is_abs_inv s Ha) as [s1 ->].
  unfold initial_slashes, starts_with. destruct s1 as [|x1 [|x2 s1]]; [discriminate He| |]; cbn.
  - destruct (ascii_dec "/" x1) as [<-|n]; [discriminate He|]. reflexivity.
  - destruct (ascii_dec "/" x1); [|reflexivity]. destruct (ascii_dec "/" x2); rewrite ?prefix_nil; reflexivity.
Qed.

Lemma initial_app_lead s a : is_abs s = true -> starts_with "/" a = false ->
  initial_slashes (s ++ a) = initial_slashes s.
Proof.
  intros Ha Hlead. destruct (is_abs_inv s Ha) as [s1 ->].
  unfold initial_slashes, starts_with in *. destruct s1 as [|x1 [|x2 s1]]; cbn.
  - destruct a as [|y a]; [reflexivity|]. cbn in Hlead |- *.
    destruct (ascii_dec "/" y); [rewrite prefix_nil in Hlead; discriminate Hlead|reflexivity].
  - destruct (ascii_dec "/" x1); [|reflexivity]. destruct a as [|y a]; [reflexivity|]. cbn in Hlead |- *.
    destruct (ascii_dec "/" y); [rewrite prefix_nil in Hlead; discriminate Hlead|reflexivity].
  - destruct (ascii_dec "/" x1); [|reflexivity]. destruct (ascii_dec "/" x2); rewrite ?prefix_nil; reflexivity.
Qed.

Lemma filter_app' {A} (f : A -> bool) l1 l2 : filter f (l1 ++ l2)%list = (filter f l1 ++ filter f l2)%list.
Proof. induction l1 as [|a l1 IH]; cbn; [reflexivity|]. rewrite IH. destruct (f a); reflexivity. Qed.

Section Pabs.
  Variable cwd : string.
  Hypothesis Hcwd : is_abs cwd = true.

  Lemma pis_abs_of p : pis_abs (ppath_of p) = is_abs p.
  Proof.
    unfold pis_abs, ppath_of, initial_slashes, is_abs. cbn [proot].
    destruct (starts_with "/" p); [|reflexivity].
    destruct (starts_with "//" p && negb (starts_with "///" p)); reflexivity.
  Qed.

  Lemma pabs_form p :
    pabsolute cwd (ppath_of p) =
    {| proot := root_of cwd p; pparts := filter keep (comps_of cwd p) |}.
  Proof.
    unfold pabsolute. rewrite pis_abs_of. unfold root_of, comps_of. destruct (is_abs p) eqn:E.
    - rewrite path_join_is_abs by exact E. reflexivity.
    - unfold pjoin. rewrite pis_abs_of, E. unfold ppath_of. cbn [proot pparts].
      unfold path_join. rewrite E. 
      assert (E0 : String.eqb cwd "" = false) by (destruct (is_abs_inv cwd Hcwd) as [c ->]; reflexivity).
      rewrite E0. cbn [orb]. fold keep. destruct (ends_in_slash cwd) eqn:Es.
      + f_equal.
        * symmetry. apply initial_app_lead; [exact Hcwd|exact E].
        * destruct (ends_in_slash_inv _ Es) as [b ->]. rewrite <- sapp_assoc.
          change ("/" ++ p) with (String slash p). change "/" with (String slash "").
          rewrite !split_sep, !filter_app'. f_equal. cbn. rewrite app_nil_r. reflexivity.
      + f_equal.
        * symmetry. apply initial_app; assumption.
        * change ("/" ++ p) with (String slash p). rewrite split_sep, filter_app'. reflexivity.
  Qed.

  Lemma ppath_str_abs root l : root = "/" \/ root = "//" ->
    ppath_str {| proot := root; pparts := l |} = root ++ join "/" l.
  Proof. intros [-> | ->]; reflexivity. Qed.

  Lemma key_root root l : root = "/" \/ root = "//" ->
    Forall (no_char slash) l -> Forall (fun c => c <> "") l ->
    key cwd (root ++ join "/" l) = root ++ join "/" (norm_comps l).
  Proof.
    intros Hr H1 H2. unfold key, abspath. rewrite path_join_is_abs.
    - apply normpath_root; assumption.
    - apply is_abs_app. destruct Hr as [-> | ->]; reflexivity.
  Qed.

  Lemma key_pabs p : key cwd (ppath_str (pabsolute cwd (ppath_of p))) = key cwd p.
  Proof.
    rewrite pabs_form, ppath_str_abs by (apply root_of_cases, Hcwd).
    destruct (keep_ne _ (comps_no_slash cwd p)).
    rewrite key_root by (try apply root_of_cases; assumption).
    unfold keep. rewrite norm_comps_filter. symmetry. apply key_form, Hcwd.
  Qed.
End Pabs.
