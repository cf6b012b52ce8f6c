(** Proofs for C99. *)
From Coq Require Import String Ascii Lia Reals Lra.
From Verif Require Import Base.Base Base.BaseFacts Base.Num Model.Paths Model.Codec Model.Fs Model.Utils Model.Save
  Spec.FsSpec Spec.DirSpec Spec.PixelSpec Proofs.PathFacts Proofs.FsFacts Proofs.FsProps Proofs.FsSave Proofs.DirFacts
  Proofs.UtilFacts.
Local Open Scope string_scope.
Local Open Scope list_scope.
Local Open Scope Z_scope.
Ltac Zify.zify_post_hook ::= idtac.
Local Arguments ascii_dec : simpl never.

Section SaveFits.
  Variable cwd : string.
  Hypothesis Hcwd : is_abs cwd = true.
  Variable fits_f8 : list (list R) -> bytes.

  Lemma fits_plain stem : no_char slash stem -> plain (stem ++ ".fits").
  Proof. intro Hs. apply good_plain; [exact Hs|exact good_fits]. Qed.

  Lemma fits_no_dot : no_char "." "fits".
  Proof. intros Hin. cbn in Hin. repeat (destruct Hin as [Hin|Hin]; [discriminate|]). exact Hin. Qed.

  Lemma fits_suffix d stem : dir_part d -> no_char slash stem -> stem <> "" ->
    psuffix (ppath_of (d ++ stem ++ ".fits")) = ".fits" /\
    psuffix (pabsolute cwd (ppath_of (d ++ stem ++ ".fits"))) = ".fits".
  Proof.
    intros Hd Hs Hne. pose proof (fits_plain stem Hs) as Hp. split.
    - unfold psuffix, pname, ppath_of. cbn [pparts].
      assert (E : exists l, split_on slash (d ++ stem ++ ".fits") = l ++ [(stem ++ ".fits")%string]).
      { destruct Hd as [-> | [d' ->]].
        - exists []. cbn [append app]. apply split_none. apply Hp.
        - exists (split_on slash d'). rewrite <- PathFacts.sapp_assoc. change ("/" ++ stem ++ ".fits")%string with (String slash (stem ++ ".fits")).
          rewrite split_sep, (split_none slash (stem ++ ".fits")) by apply Hp. reflexivity. }
      destruct E as (l & ->). rewrite filter_app'. cbn [filter].
      pose proof (keep_plain (stem ++ ".fits") Hp) as K. unfold keep in K. rewrite K, last_last.
      change (stem ++ ".fits")%string with (stem ++ "." ++ "fits")%string. rewrite split_name_ext; [reflexivity|exact Hne|discriminate|apply fits_no_dot].
    - destruct (pabs_dir cwd Hcwd d _ Hd Hp) as (l & E1 & _ & _). unfold psuffix, pname. rewrite E1. cbn [pparts]. rewrite last_last.
      change (stem ++ ".fits")%string with (stem ++ "." ++ "fits")%string. rewrite split_name_ext; [reflexivity|exact Hne|discriminate|apply fits_no_dot].
  Qed.

  Lemma plain_not_slash n s : plain n -> ends_in_slash (s ++ n) = false.
  Proof. intros (A & B & _). apply ends_in_slash_app; assumption. Qed.

  (** The folder pathlib creates is the one the operating system looks into. *)
  Lemma parent_agrees d n : dir_part d -> plain n ->
    let path := pabsolute cwd (ppath_of (d ++ n)) in
    parent_key cwd (ppath_str path) = key cwd (ppath_str (pparent path)) /\
    key cwd (ppath_str path) = key cwd (d ++ n) /\ ends_in_slash (ppath_str path) = false.
  Proof.
    intros Hd Hp path. split; [|split; [apply key_pabs; exact Hcwd|]].
    2:{ destruct (pabs_dir cwd Hcwd d n Hd Hp) as (l & E1 & _ & _). unfold path. rewrite E1.
        rewrite ppath_str_abs by (apply initial_cases, path_join_abs, Hcwd).
        destruct (filter keep l) as [|h r]; [apply plain_not_slash; exact Hp|].
        rewrite join_snoc by discriminate. rewrite !PathFacts.sapp_assoc. apply plain_not_slash. exact Hp. }
    unfold parent_key, path. rewrite (key_pabs cwd Hcwd).
    destruct (pabs_dir cwd Hcwd d n Hd Hp) as (l & E1 & Hl & E2). rewrite (E2 n Hp).
    set (root := initial_slashes (path_join cwd d)) in *.
    assert (Hroot : root = "/" \/ root = "//") by (apply initial_cases, path_join_abs, Hcwd).
    unfold pparent. rewrite E1. cbn [proot pparts]. rewrite removelast_last, (ppath_str_abs root) by exact Hroot.
    destruct (keep_ne l Hl) as [K1 K2]. rewrite key_root by assumption. unfold keep. rewrite norm_comps_filter.
    rewrite norm_comps_snoc by exact Hp. set (L := norm_comps l).
    assert (HL : Forall plain L) by (apply norm_comps_plain; exact Hl).
    assert (E3 : path_join (root ++ join "/" (L ++ [n])) ".." = (root ++ join "/" ((L ++ [n]) ++ [".."]))%string).
    { unfold path_join. change (is_abs "..") with false. cbv iota.
      assert (Z0 : String.eqb (root ++ join "/" (L ++ [n])) "" = false) by (destruct Hroot as [-> | ->]; reflexivity).
      assert (Z1 : ends_in_slash (root ++ join "/" (L ++ [n])) = false).
      { destruct L as [|h r]; [apply plain_not_slash; exact Hp|]. rewrite join_snoc by discriminate. rewrite !PathFacts.sapp_assoc. apply plain_not_slash. exact Hp. }
      rewrite Z0, Z1. cbn [orb]. rewrite (join_snoc "/" (L ++ [n])) by (destruct L; discriminate). rewrite <- !PathFacts.sapp_assoc. reflexivity. }
    rewrite E3. destruct (plain_ne L HL) as [N1 N2].
    assert (Dn : no_char slash "..") by (intros [X|[X|[]]]; discriminate).
    rewrite normpath_root; [|exact Hroot| |].
    - f_equal. f_equal. unfold norm_comps at 1. rewrite !fold_left_app. cbn [fold_left]. rewrite (norm_step_plain true _ n) by exact Hp.
      unfold norm_step. change (String.eqb ".." "" || String.eqb ".." ".") with false. change (negb (String.eqb ".." "..")) with false.
      cbv iota. destruct Hp as (_ & _ & _ & Hdd). apply String.eqb_neq in Hdd. rewrite Hdd.
      fold (norm_comps L). apply norm_comps_fix. exact HL.
    - apply Forall_app. split; [apply Forall_app; split; [exact N1|repeat constructor; apply Hp]|repeat constructor; exact Dn].
    - apply Forall_app. split; [apply Forall_app; split; [exact N2|repeat constructor; apply Hp]|repeat constructor; discriminate].
  Qed.

  Lemma mkdir_from_targets root : forall rest done s,
    Forall (fun e => exists n, target e = key cwd (ppath_str {| proot := root; pparts := done ++ firstn n rest |}))
      (fst (mkdir_from cwd root done rest s)).
  Proof.
    induction rest as [|c rest IH]; intros done s; [constructor|]. cbn [mkdir_from]. set (k := key cwd _).
    assert (G : forall s, Forall (fun e => exists n, target e = key cwd (ppath_str {| proot := root; pparts := done ++ firstn n (c :: rest) |}))
      (fst (mkdir_from cwd root (done ++ [c]) rest s))).
    { intro s'. eapply Forall_impl; [|apply IH]. intros e (n & E). exists (S n). rewrite E. cbn [firstn]. rewrite <- app_assoc. reflexivity. }
    destruct (exists_ s k) eqn:Ex.
    - destruct (is_dir s k) eqn:Ed.
      + rewrite (io_bind_ok _ _ s tt) by (rewrite Ex, Ed; reflexivity). apply G.
      + rewrite (io_bind_raise _ _ s [] OSError) by (rewrite Ex, Ed; reflexivity). constructor.
    - rewrite (io_bind_effects _ _ s [EMkdir k] tt) by (rewrite Ex; reflexivity). cbn [fst]. constructor; [|apply G].
      exists 1%nat. reflexivity.
  Qed.

  Definition fixed (fixto : option (R * R)) (data : arr R) : arr R :=
    match fixto with Some (lo, hi) => fix_data data (Some lo) (Some hi) | None => data end.

  Lemma save_unfold d stem fixto data s : dir_part d -> no_char slash stem -> stem <> "" ->
    save_as_fits cwd fits_f8 (d ++ stem ++ ".fits") fixto data s =
    io_bind (mkdir_parents cwd (pparent (pabsolute cwd (ppath_of (d ++ stem ++ ".fits")))))
      (fun _ => fits_writeto cwd (ppath_str (pabsolute cwd (ppath_of (d ++ stem ++ ".fits")))) (fits_f8 (to_list (fixed fixto data)))) s.
  Proof.
    intros Hd Hs Hne. unfold save_as_fits. rewrite (proj1 (fits_suffix d stem Hd Hs Hne)). reflexivity.
  Qed.

  Lemma last_name d n : dir_part d -> no_char slash n -> n <> "" -> n <> "." -> pname (ppath_of (d ++ n)) = n.
  Proof.
    intros Hd Hp H1 H2. unfold pname, ppath_of. cbn [pparts].
    assert (E : exists l, split_on slash (d ++ n) = l ++ [n]).
    { destruct Hd as [-> | [d' ->]].
      - exists []. cbn [append app]. apply split_none. exact Hp.
      - exists (split_on slash d'). rewrite <- PathFacts.sapp_assoc. change ("/" ++ n)%string with (String slash n).
        rewrite split_sep, (split_none slash n) by exact Hp. reflexivity. }
    destruct E as (l & ->). rewrite filter_app'. cbn [filter].
    apply String.eqb_neq in H1, H2. rewrite H1, H2. cbn [orb negb]. rewrite last_last. reflexivity.
  Qed.

  Lemma suffix_inv n x : x <> "" -> snd (split_name n) = x -> exists stem, stem <> "" /\ n = (stem ++ x)%string.
  Proof.
    intros Hx E. unfold split_name in E. pose proof (join_split dot n) as J.
    pose proof (split_nonempty dot n) as NE. destruct (exists_last NE) as (l & a & El). rewrite El in *.
    rewrite removelast_last, last_last in E. destruct (String.eqb (join "." l) "") eqn:E1; [cbn in E; congruence|].
    destruct (String.eqb a "") eqn:E2; [cbn in E; congruence|]. cbn [orb snd] in E. subst x.
    exists (join "." l). split; [apply String.eqb_neq; exact E1|].
    rewrite <- J, join_snoc; [reflexivity|]. intros ->. discriminate.
  Qed.

  Lemma c99_invalid_psuffix name fixto data s : psuffix (ppath_of name) <> ".fits" ->
    fails_cleanly (save_as_fits cwd fits_f8 name fixto data) s.
  Proof.
    intro Hn. unfold save_as_fits, fails_cleanly. apply String.eqb_neq in Hn. rewrite Hn. split; [reflexivity|exists ValueError; reflexivity].
  Qed.

  Lemma c99_invalid d n fixto data s : dir_part d -> no_char slash n -> n <> "" -> n <> "." ->
    (forall stem, n = (stem ++ ".fits")%string -> stem = "") ->
    fails_cleanly (save_as_fits cwd fits_f8 (d ++ n) fixto data) s.
  Proof.
    intros Hd Hs H1 H2 Hn. apply c99_invalid_psuffix. unfold psuffix. rewrite last_name by assumption. intro E.
    destruct (suffix_inv n ".fits" ltac:(discriminate) E) as (stem & A & B). exact (A (Hn stem B)).
  Qed.

  (** The call succeeds if no file stands in the way. *)
  Lemma c99_saved d stem fixto data s : dir_part d -> no_char slash stem -> stem <> "" ->
    let name := (d ++ stem ++ ".fits")%string in
    (forall q, on_the_way (pparent (meant cwd name)) q -> no_file (found cwd s q)) ->
    found cwd s {| proot := proot (meant cwd name); pparts := [] |} = Some Dir ->
    (forall q, on_the_way (pparent (meant cwd name)) q -> key cwd (ppath_str q) <> key cwd name) ->
    s (key cwd name) <> Some Dir ->
    let m := save_as_fits cwd fits_f8 name fixto data in
    outcome m s = Ok tt /\ after m s (key cwd name) = Some (File (fits_f8 (to_list (fixed fixto data)))) /\
    (forall p n, p <> key cwd name -> s p = Some n -> after m s p = Some n) /\
    found cwd (after m s) (pparent (meant cwd name)) = Some Dir.
  Proof.
    intros Hd Hs Hne name Hway Hroot Hoff Htarget m. pose proof (fits_plain stem Hs) as Hp.
    destruct (parent_agrees d _ Hd Hp) as (P1 & P2 & P3). fold name in P1, P2, P3.
    change (pabsolute cwd (ppath_of name)) with (meant cwd name) in *.
    set (path := meant cwd name) in *. set (q := pparent path) in *.
    assert (Em : m s = io_bind (mkdir_parents cwd q) (fun _ => fits_writeto cwd (ppath_str path) (fits_f8 (to_list (fixed fixto data)))) s).
    { exact (save_unfold d stem fixto data s Hd Hs Hne). }
    unfold outcome, after. rewrite Em. clear Em.
    unfold mkdir_parents in *. destruct (mkdir_from_ok cwd (proot q) (pparts q) [] s) as (es & E & _ & F).
    { intros n _. cbn [app]. apply Hway. exists n. reflexivity. }
    fold q. destruct (mkdir_from_dirs cwd (proot q) (pparts q) [] s) as (_ & Keep). rewrite E in Keep. cbn [fst] in Keep.
    assert (Hdir : found cwd (run es s) q = Some Dir).
    { cbn [app] in F. assert (Eq : {| proot := proot q; pparts := pparts q |} = q) by (destruct q; reflexivity). rewrite Eq in F.
      destruct (pparts q) as [|h r] eqn:Ep; [|apply F; discriminate].
      unfold found. apply Keep. unfold found in Hroot.
      assert (Er : {| proot := proot path; pparts := [] |} = q) by (rewrite <- Eq; unfold q, pparent; reflexivity).
      rewrite Er in Hroot. exact Hroot. }
    assert (Ht : is_dir (run es s) (key cwd name) = false).
    { unfold is_dir. rewrite run_other.
      - destruct (s (key cwd name)) as [[c|]|]; try reflexivity. exfalso. apply Htarget. reflexivity.
      - pose proof (mkdir_from_targets (proot q) (pparts q) [] s) as T. rewrite E in T. cbn [fst] in T.
        eapply Forall_impl; [|exact T]. intros e (n & ->). apply Hoff. exists n. reflexivity. }
    rewrite (io_bind_effects _ _ s es tt E).
    destruct (fits_writeto_ok cwd (ppath_str path) (fits_f8 (to_list (fixed fixto data))) (run es s) P3) as (pre & E2 & Hpre).
    { rewrite P2. exact Ht. }
    { rewrite P1. unfold is_dir. unfold found in Hdir. fold q. rewrite Hdir. reflexivity. }
    rewrite E2. cbn [fst snd]. rewrite P2 in *. split; [reflexivity|]. split; [rewrite !run_app; apply run_write|].
    assert (Oth : forall p, p <> key cwd name -> run (es ++ pre ++ write_effects (key cwd name) (fits_f8 (to_list (fixed fixto data)))) s p = run es s p).
    { intros p Hpn. rewrite run_app. apply run_other. apply Forall_app.
      split; (eapply targets_other; [exact Hpn|]); [exact Hpre|apply write_targets]. }
    split; [intros p n Hpn Hn; rewrite (Oth p Hpn); apply Keep; exact Hn|].
    unfold found. rewrite Oth; [exact Hdir|]. intro Ek. unfold found in Hdir. fold q in Ek. rewrite Ek in Hdir.
    unfold is_dir in Ht. rewrite Hdir in Ht. discriminate.
  Qed.
End SaveFits.

Lemma c99_crash_others cwd fits_f8 d stem fixto data s s' p n : is_abs cwd = true ->
  dir_part d -> no_char slash stem -> stem <> "" ->
  crash (save_as_fits cwd fits_f8 (d ++ stem ++ ".fits") fixto data) s s' ->
  p <> key cwd (d ++ stem ++ ".fits") -> s p = Some n -> s' p = Some n.
Proof.
  intros Hcwd Hd Hs Hne (pre & post & E & ->) Hp Hn. rewrite (save_unfold cwd Hcwd) in E by assumption.
  destruct (parent_agrees cwd Hcwd d _ Hd (fits_plain stem Hs)) as (_ & P2 & _).
  set (path := pabsolute cwd (ppath_of (d ++ stem ++ ".fits"))) in *. unfold mkdir_parents in E.
  set (q := pparent path) in *. 
  assert (Keep : forall pre post, fst (mkdir_from cwd (proot q) [] (pparts q) s) = pre ++ post -> run pre s p = Some n).
  { intros a b Eab. assert (G : only_dirs a).
    { destruct (mkdir_from_dirs cwd (proot q) (pparts q) [] s) as (O & _). rewrite Eab in O. apply Forall_app in O. apply O. }
    (* the keys created did not exist *)
    clear -Eab Hn. revert a b Eab. generalize (pparts q), (@nil string). intros rest. revert s Hn.
    induction rest as [|c rest IH]; intros s Hn done a b Eab; cbn [mkdir_from] in Eab.
    - cbn in Eab. symmetry in Eab. apply app_eq_nil in Eab. destruct Eab as [-> _]. exact Hn.
    - set (k := key cwd _) in Eab. destruct (exists_ s k) eqn:Ex.
      + destruct (is_dir s k) eqn:Ed.
        * rewrite (io_bind_ok _ _ s tt) in Eab by (rewrite Ex, Ed; reflexivity). exact (IH s Hn _ a b Eab).
        * rewrite (io_bind_raise _ _ s [] OSError) in Eab by (rewrite Ex, Ed; reflexivity). cbn in Eab. symmetry in Eab. apply app_eq_nil in Eab.
          destruct Eab as [-> _]. exact Hn.
      + rewrite (io_bind_effects _ _ s [EMkdir k] tt) in Eab by (rewrite Ex; reflexivity). cbn [fst app] in Eab.
        destruct a as [|e a]; [exact Hn|]. cbn [app] in Eab. injection Eab as E1 E2. subst e.
        change (run (EMkdir k :: a) s) with (run a (run [EMkdir k] s)). apply (IH (run [EMkdir k] s)) with (l := done ++ [c]) (b := b); [|exact E2].
        cbn [run fold_left apply]. rewrite FsFacts.upd_other; [exact Hn|]. intros ->. unfold exists_ in Ex. rewrite Hn in Ex. discriminate. }
  destruct (mkdir_from cwd (proot q) [] (pparts q) s) as (es & [u|e|]) eqn:Em.
  - rewrite (io_bind_effects _ _ s es u Em) in E. cbn [fst] in E.
    destruct (fits_writeto_cases cwd (ppath_str path) (fits_f8 (to_list (fixed fixto data))) (run es s)) as [(e & E2)|(pr & E2 & Hpr)];
      rewrite E2 in E; cbn [fst] in E.
    + rewrite app_nil_r in E. apply (Keep pre post). exact E.
    + rewrite P2 in *. assert (HW : Forall (fun e => target e <> p) (pr ++ write_effects (key cwd (d ++ stem ++ ".fits")) (fits_f8 (to_list (fixed fixto data))))).
      { apply Forall_app. split; (eapply targets_other; [exact Hp|]); [exact Hpr|apply write_targets]. }
      destruct (Nat.le_gt_cases (length pre) (length es)) as [L|L].
      * assert (Ep : pre = firstn (length pre) es).
        { apply (f_equal (firstn (length pre))) in E. rewrite firstn_app in E. replace (length pre - length es)%nat with 0%nat in E by lia.
          rewrite firstn_O, app_nil_r, firstn_app, Nat.sub_diag, firstn_O, app_nil_r, firstn_all in E. symmetry. exact E. }
        apply (Keep pre (skipn (length pre) es)). cbn [fst]. rewrite Ep at 1. symmetry. apply firstn_skipn.
      * assert (Ep : exists w1 w2, pre = es ++ w1 /\ pr ++ write_effects (key cwd (d ++ stem ++ ".fits")) (fits_f8 (to_list (fixed fixto data))) = w1 ++ w2).
        { exists (skipn (length es) pre), post.
          assert (Ee : firstn (length es) pre = es).
          { pose proof (f_equal (firstn (length es)) E) as X. rewrite firstn_app, Nat.sub_diag, firstn_O, app_nil_r, firstn_all in X.
            rewrite firstn_app in X. replace (length es - length pre)%nat with 0%nat in X by lia. rewrite firstn_O, app_nil_r in X. symmetry. exact X. }
          split; [rewrite <- Ee at 1; symmetry; apply firstn_skipn|].
          rewrite <- (firstn_skipn (length es) pre), Ee, <- app_assoc in E. apply app_inv_head in E. exact E. }
        destruct Ep as (w1 & w2 & -> & Ew). rewrite run_app. rewrite Ew in HW. apply Forall_app in HW. rewrite run_other by apply HW.
        apply (Keep es []). cbn [fst]. rewrite app_nil_r. reflexivity.
  - rewrite (io_bind_raise _ _ s es e Em) in E. apply (Keep pre post). exact E.
  - unfold io_bind in E. rewrite Em in E. apply (Keep pre post). exact E.
Qed.

(** Astropy removes the old file before it writes the new one. *)
Lemma c99_lost cwd fits_f8 d stem fixto data s b old : is_abs cwd = true ->
  dir_part d -> no_char slash stem -> stem <> "" ->
  s (key cwd (d ++ stem ++ ".fits")) = Some (File (b :: old)) ->
  outcome (save_as_fits cwd fits_f8 (d ++ stem ++ ".fits") fixto data) s = Ok tt ->
  exists s', crash (save_as_fits cwd fits_f8 (d ++ stem ++ ".fits") fixto data) s s' /\
    s' (key cwd (d ++ stem ++ ".fits")) = None.
Proof.
  intros Hcwd Hd Hs Hne Hold Hok. unfold outcome, crash in *. rewrite (save_unfold cwd Hcwd) in * by assumption.
  destruct (parent_agrees cwd Hcwd d _ Hd (fits_plain stem Hs)) as (_ & P2 & _).
  set (path := pabsolute cwd (ppath_of (d ++ stem ++ ".fits"))) in *. unfold mkdir_parents in *. set (q := pparent path) in *.
  destruct (mkdir_from_dirs cwd (proot q) (pparts q) [] s) as (_ & Keep).
  destruct (mkdir_from cwd (proot q) [] (pparts q) s) as (es & [u|e|]) eqn:Em; cbn [fst] in Keep.
  - rewrite (io_bind_effects _ _ s es u Em) in *. cbn [fst snd] in *.
    specialize (Keep _ _ Hold). unfold fits_writeto in *. rewrite P2 in *.
    destruct (ends_in_slash (ppath_str path)); [discriminate|]. unfold is_dir at 1 in Hok. unfold is_dir at 1. rewrite Keep in *.
    destruct (negb (is_dir (run es s) (parent_key cwd (ppath_str path)))); [discriminate|]. cbn [fst app].
    exists (run (es ++ [ERemove (key cwd (d ++ stem ++ ".fits"))]) s). split.
    + exists (es ++ [ERemove (key cwd (d ++ stem ++ ".fits"))]). eexists. split; [rewrite <- app_assoc; reflexivity|reflexivity].
    + rewrite run_app. cbn [run fold_left apply]. apply FsFacts.upd_same.
  - rewrite (io_bind_raise _ _ s es e Em) in Hok. discriminate.
  - unfold io_bind in Hok. rewrite Em in Hok. discriminate.
Qed.

Lemma c99_saved_range cwd (Hcwd : is_abs cwd = true) fits_f8 d stem fixto data s : dir_part d -> no_char slash stem -> stem <> "" ->
  let name := (d ++ stem ++ ".fits")%string in
  (forall q, on_the_way (pparent (meant cwd name)) q -> no_file (found cwd s q)) ->
  found cwd s {| proot := proot (meant cwd name); pparts := [] |} = Some Dir ->
  (forall q, on_the_way (pparent (meant cwd name)) q -> key cwd (ppath_str q) <> key cwd name) ->
  s (key cwd name) <> Some Dir ->
  (forall lo hi, fixto = Some (lo, hi) -> (lo <= hi)%R /\ lo <> 0%R /\ hi <> 0%R) ->
  let m := save_as_fits cwd fits_f8 name fixto data in
  outcome m s = Ok tt /\
  (exists img, holds img data (fun y x => match fixto with Some (lo, hi) => clamp lo hi (cell data y x) | None => cell data y x end) /\
     after m s (key cwd name) = Some (File (fits_f8 (to_list img)))) /\
  (forall p n, p <> key cwd name -> s p = Some n -> after m s p = Some n) /\
  found cwd (after m s) (pparent (meant cwd name)) = Some Dir.
Proof.
  intros Hd Hs Hne name Hway Hroot Hoff Ht Hfix m.
  destruct (c99_saved cwd Hcwd fits_f8 d stem fixto data s Hd Hs Hne Hway Hroot Hoff Ht) as (A & B & C & D).
  split; [exact A|]. split; [|split; [exact C|exact D]].
  exists (fixed fixto data). split; [|exact B]. destruct fixto as [(lo, hi)|]; [|repeat split].
  destruct (Hfix lo hi eq_refl) as (L & N1 & N2). apply fix_data_clamps; assumption.
Qed.

(** If a bound is zero, neither is applied. *)
Lemma c99_zero cwd fits_f8 name lo hi data s : lo = 0%R \/ hi = 0%R ->
  save_as_fits cwd fits_f8 name (Some (lo, hi)) data s = save_as_fits cwd fits_f8 name None data s.
Proof.
  intros Hz. assert (E : fix_data data (Some lo) (Some hi) = data).
  { unfold fix_data, truthy. cbn [neqb Num_R]. change (@n0 R Num_R) with 0%R.
    assert (E0 : Reqb 0 0 = true) by (apply Reqb_true; reflexivity).
    destruct Hz as [-> | ->]; rewrite E0; cbn [negb andb]; [reflexivity|]. rewrite andb_false_r. reflexivity. }
  unfold save_as_fits. rewrite E. reflexivity.
Qed.

Lemma c99_zero_refuted cwd (Hcwd : is_abs cwd = true) fits_f8 d stem lo hi data s : dir_part d -> no_char slash stem -> stem <> "" ->
  let name := (d ++ stem ++ ".fits")%string in
  (forall q, on_the_way (pparent (meant cwd name)) q -> no_file (found cwd s q)) ->
  found cwd s {| proot := proot (meant cwd name); pparts := [] |} = Some Dir ->
  (forall q, on_the_way (pparent (meant cwd name)) q -> key cwd (ppath_str q) <> key cwd name) ->
  s (key cwd name) <> Some Dir ->
  lo = 0%R \/ hi = 0%R ->
  let m := save_as_fits cwd fits_f8 name (Some (lo, hi)) data in
  outcome m s = Ok tt /\ after m s (key cwd name) = Some (File (fits_f8 (to_list data))).
Proof.
  intros Hd Hs Hne name Hway Hroot Hoff Ht Hz m.
  destruct (c99_saved cwd Hcwd fits_f8 d stem None data s Hd Hs Hne Hway Hroot Hoff Ht) as (A & B & _).
  unfold outcome, after, m in *. rewrite c99_zero by exact Hz. split; assumption.
Qed.
