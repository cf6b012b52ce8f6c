(** Saving parameter files; averaging 12-bit files. *)
From Coq Require Import String Ascii Lia ZifyBool Reals Lra Permutation Decimal DecimalString DecimalZ.
From Verif Require Import Base.Base Base.BaseFacts Model.Paths Model.Codec Model.Fs
  Spec.CodecSpec Spec.FsSpec Spec.Terminates Proofs.PathFacts Proofs.CodecFacts Proofs.BinaryFacts
  Proofs.RawFacts Proofs.FsFacts Proofs.FsProps Proofs.FsMerge.
Local Open Scope string_scope.
Local Open Scope list_scope.
Local Open Scope Z_scope.
Ltac Zify.zify_post_hook ::= idtac.
Local Arguments ascii_dec : simpl never.

Lemma combine_app' {A B} (l1 l2 : list A) (m1 m2 : list B) : length l1 = length m1 ->
  combine (l1 ++ l2) (m1 ++ m2) = combine l1 m1 ++ combine l2 m2.
Proof.
  revert m1. induction l1 as [|a l1 IH]; intros [|b m1] H; try discriminate; [reflexivity|].
  cbn. rewrite IH by (cbn in H; lia). reflexivity.
Qed.
Lemma sapp_inv_tail (x y z : string) : (x ++ z = y ++ z)%string -> x = y.
Proof.
  intros H. assert (L : String.length x = String.length y).
  { apply (f_equal String.length) in H. rewrite !slength_app in H. lia. }
  revert y H L. induction x as [|a x IH]; intros [|b y] H L; try discriminate; [reflexivity|].
  cbn in H. injection H as -> H. f_equal. apply IH; [exact H|cbn in L; lia].
Qed.

Section SaveParams.
  Variable cwd : string.
  Hypothesis Hcwd : is_abs cwd = true.

  (** Directory creation does not disturb files. *)
  Lemma mkdir_from_dirs root : forall rest done s,
    only_dirs (fst (mkdir_from cwd root done rest s)) /\
    (forall p n, s p = Some n -> run (fst (mkdir_from cwd root done rest s)) s p = Some n).
  Proof.
    induction rest as [|c rest IH]; intros done s; [split; [constructor|auto]|].
    cbn [mkdir_from]. set (k := key cwd _).
    destruct (exists_ s k) eqn:Ex.
    - destruct (is_dir s k) eqn:Ed.
      + rewrite (io_bind_ok _ _ s tt) by (rewrite Ex, Ed; reflexivity). apply IH.
      + rewrite (io_bind_raise _ _ s [] OSError) by (rewrite Ex, Ed; reflexivity).
        split; [constructor|auto].
    - rewrite (io_bind_effects _ _ s [EMkdir k] tt) by (rewrite Ex; reflexivity). cbn [fst].
      destruct (IH (done ++ [c]) (run [EMkdir k] s)) as [I1 I2]. split.
      + constructor; [exact I|exact I1].
      + intros p n Hp. rewrite run_app. apply I2. cbn [run fold_left apply].
        rewrite upd_other; [exact Hp|]. intros ->. unfold exists_ in Ex. rewrite Hp in Ex. discriminate.
  Qed.

  Lemma mkdir_from_cases root : forall rest done s,
    snd (mkdir_from cwd root done rest s) = Ok tt \/ exists e, snd (mkdir_from cwd root done rest s) = Raise e.
  Proof.
    induction rest as [|c rest IH]; intros done s; [left; reflexivity|].
    cbn [mkdir_from]. set (k := key cwd _).
    destruct (exists_ s k) eqn:Ex.
    - destruct (is_dir s k) eqn:Ed.
      + rewrite (io_bind_ok _ _ s tt) by (rewrite Ex, Ed; reflexivity). apply IH.
      + rewrite (io_bind_raise _ _ s [] OSError) by (rewrite Ex, Ed; reflexivity). right; eexists; reflexivity.
    - rewrite (io_bind_effects _ _ s [EMkdir k] tt) by (rewrite Ex; reflexivity). cbn [snd]. apply IH.
  Qed.

  Lemma make_abs_cases filename s :
    let path := pabsolute cwd (ppath_of filename) in
    exists es, only_dirs es /\ (forall p n, s p = Some n -> run es s p = Some n) /\
      (make_abs_and_create_dir cwd filename s = (es, Ok path) \/
       exists e, make_abs_and_create_dir cwd filename s = (es, Raise e)).
  Proof.
    intros path. unfold make_abs_and_create_dir.
    change (if pis_abs (ppath_of filename) then ppath_of filename
            else pjoin (ppath_of cwd) (ppath_of filename)) with path.
    destruct (negb (String.eqb (psuffix path) "")).
    - destruct (exists_ s (key cwd (ppath_str (pparent path)))) eqn:Ex.
      + exists []. split; [constructor|split; [auto|left]].
        rewrite (io_bind_ok _ _ s tt) by (rewrite Ex; reflexivity). reflexivity.
      + unfold mkdir_parents.
        destruct (mkdir_from_dirs (proot (pparent path)) (pparts (pparent path)) [] s) as [D1 D2].
        exists (fst (mkdir_from cwd (proot (pparent path)) [] (pparts (pparent path)) s)).
        split; [exact D1|split; [exact D2|]].
        destruct (mkdir_from_cases (proot (pparent path)) (pparts (pparent path)) [] s) as [E|[e E]].
        * left. erewrite io_bind_effects by (rewrite Ex; rewrite <- E; apply surjective_pairing).
          cbn [io_ret fst snd]. rewrite app_nil_r. reflexivity.
        * right. exists e. apply io_bind_raise. rewrite Ex, <- E. apply surjective_pairing.
    - destruct (exists_ s (key cwd (ppath_str path))) eqn:Ex.
      + exists []. split; [constructor|split; [auto|left]].
        rewrite (io_bind_ok _ _ s tt) by (rewrite Ex; reflexivity). reflexivity.
      + unfold mkdir.
        destruct (is_dir s (key cwd (ppath_str (pparent path)))) eqn:Ed.
        * exists [EMkdir (key cwd (ppath_str path))]. split; [repeat constructor|]. split.
          -- intros p n Hp. cbn [run fold_left apply]. rewrite upd_other; [exact Hp|].
             intros ->. unfold exists_ in Ex. rewrite Hp in Ex. discriminate.
          -- left. erewrite io_bind_effects by (cbn zeta; rewrite !Ex, Ed; reflexivity). reflexivity.
        * exists []. split; [constructor|split; [auto|right]]. exists FileNotFoundError.
          apply io_bind_raise. cbn zeta. rewrite !Ex, Ed. reflexivity.
  Qed.

  (** Writing a list of files with pairwise different addresses. *)
  Lemma iter_write {A} (name : A -> string) (content : A -> bytes) : forall l s,
    NoDup (map (fun a => key cwd (name a)) l) ->
    snd (io_iter (fun a => fits_writeto cwd (name a) (content a)) l s) = Ok tt ->
    let s' := run (fst (io_iter (fun a => fits_writeto cwd (name a) (content a)) l s)) s in
    (forall a, In a l -> s' (key cwd (name a)) = Some (File (content a))) /\
    (forall p, ~ In p (map (fun a => key cwd (name a)) l) -> s' p = s p).
  Proof.
    induction l as [|a l IH]; intros s Hnd Hok s'; [split; [intros a []|reflexivity]|].
    unfold s'. clear s'. cbn [io_iter] in *. inversion Hnd as [|? ? Hni Hnd']; subst.
    destruct (fits_writeto_cases cwd (name a) (content a) s) as [[e E]|(pre & E & Hpre)].
    - rewrite (io_bind_raise _ _ _ _ _ E) in Hok. discriminate.
    - set (es := pre ++ write_effects (key cwd (name a)) (content a)) in *.
      rewrite (io_bind_effects _ _ s es tt E) in *. cbn [fst snd] in *.
      destruct (IH (run es s) Hnd' Hok) as [I1 I2]. rewrite run_app.
      assert (Hes : Forall (fun e => target e = key cwd (name a)) es)
        by (apply Forall_app; split; [exact Hpre|apply write_targets]).
      split.
      + intros b [<-|Hb].
        * rewrite I2 by exact Hni. unfold es. rewrite run_app. apply run_write.
        * apply I1, Hb.
      + intros p Hp. cbn [map In] in Hp. rewrite I2 by tauto.
        apply run_other. eapply targets_other; [|exact Hes]. intros ->. apply Hp. left; reflexivity.
  Qed.

  Lemma iter_ext {A} (f g : A -> io unit) l s :
    (forall a s, In a l -> f a s = g a s) -> io_iter f l s = io_iter g l s.
  Proof.
    revert s. induction l as [|a l IH]; intros s H; [reflexivity|]. cbn [io_iter]. unfold io_bind.
    rewrite (H a s) by (left; reflexivity). destruct (g a s) as [es [[]|e|]]; try reflexivity.
    rewrite IH; [reflexivity|]. intros b s0 Hb. apply H. right; exact Hb.
  Qed.

  (** ** File names *)
  Lemma split_name_ext stem ext : stem <> "" -> ext <> "" -> no_char "." ext ->
    split_name (stem ++ "." ++ ext) = (stem, ("." ++ ext)%string).
  Proof.
    intros Hs He Hn. unfold split_name. change ("." ++ ext)%string with (String dot ext).
    rewrite split_sep, (split_none dot ext) by exact Hn.
    rewrite removelast_last, last_last.
    assert (E : join "." (split_on dot stem) = stem) by apply join_split. rewrite E.
    apply String.eqb_neq in Hs, He. rewrite Hs, He. reflexivity.
  Qed.

  Lemma keep_plain n : plain n -> keep n = true.
  Proof.
    intros (_ & H1 & H2 & _). unfold keep. apply String.eqb_neq in H1, H2. rewrite H1, H2. reflexivity.
  Qed.

  Lemma pabs_dir d n : dir_part d -> plain n ->
    exists l, pabsolute cwd (ppath_of (d ++ n)) =
      {| proot := initial_slashes (path_join cwd d); pparts := filter keep l ++ [n] |} /\
      Forall (no_char slash) l /\
      forall m, plain m -> key cwd (d ++ m) =
        (initial_slashes (path_join cwd d) ++ join "/" (norm_comps (l ++ [m])))%string.
  Proof.
    intros Hd Hp. destruct (dir_join cwd Hcwd d n Hd (proj1 Hp) (proj1 (proj2 Hp))) as (l & E1 & E2 & E3).
    exists l. split; [|split].
    - rewrite (pabs_form cwd Hcwd), E1, E2, filter_app'. cbn [filter]. rewrite (keep_plain n Hp). reflexivity.
    - pose proof (comps_no_slash cwd (d ++ n)) as F. rewrite E1 in F. apply Forall_app in F. apply F.
    - intros m Hm. rewrite (key_form cwd Hcwd). destruct (dir_join cwd Hcwd d m Hd (proj1 Hm) (proj1 (proj2 Hm))) as (l' & _ & R & _).
      rewrite R, E3 by apply Hm. reflexivity.
  Qed.

  Lemma sjoin_snoc_app l a x : (join "/" (l ++ [a]) ++ x)%string = join "/" (l ++ [(a ++ x)%string]).
  Proof.
    destruct l as [|h l]; [reflexivity|].
    rewrite !join_snoc by discriminate. rewrite <- !sapp_assoc. reflexivity.
  Qed.

  (** The files written next to "d/stem.ext". *)
  Lemma group_key d stem ext x : dir_part d -> no_char slash stem -> stem <> "" ->
    no_char slash ext -> no_char "." ext -> ext <> "" ->
    good_suffix x ->
    let path := pabsolute cwd (ppath_of (d ++ stem ++ "." ++ ext)) in
    psuffix path = ("." ++ ext)%string /\
    key cwd (group_name path ++ x) = key cwd (d ++ stem ++ x).
  Proof.
    intros Hd Hs Hne Hes Hed Hen Hx path.
    assert (Hplain : plain (stem ++ "." ++ ext)).
    { split.
      - apply no_char_app. split; [exact Hs|]. apply no_char_app. split; [|exact Hes].
        intros [H|[]]. discriminate.
      - assert (L : (3 <= String.length (stem ++ "." ++ ext))%nat).
        { rewrite !slength_app. destruct stem; [congruence|]. destruct ext; [congruence|]. cbn. lia. }
        repeat split; intros E; rewrite E in L; cbn in L; lia. }
    destruct (pabs_dir d _ Hd Hplain) as (l & E1 & Hl & E2). fold path in E1.
    assert (En : pname path = (stem ++ "." ++ ext)%string)
      by (unfold pname; rewrite E1; cbn [pparts]; apply last_last).
    split.
    - unfold psuffix. rewrite En, split_name_ext by assumption. reflexivity.
    - unfold group_name, pstem. rewrite En, split_name_ext by assumption. cbn [fst].
      unfold pparent. rewrite E1. cbn [proot pparts]. rewrite removelast_last.
      assert (Hroot : initial_slashes (path_join cwd d) = "/" \/ initial_slashes (path_join cwd d) = "//")
        by (apply initial_cases, path_join_abs, Hcwd).
      assert (Hpx : plain (stem ++ x)) by (apply good_plain; assumption).
      rewrite ppath_str_abs by exact Hroot. rewrite <- sapp_assoc, sjoin_snoc_app.
      destruct (keep_ne l Hl) as [K1 K2].
      rewrite key_root; [|exact Hroot| |].
      + rewrite E2 by exact Hpx. rewrite !norm_comps_snoc by exact Hpx. unfold keep. rewrite norm_comps_filter.
        reflexivity.
      + apply Forall_app. split; [exact K1|]. repeat constructor. apply Hpx.
      + apply Forall_app. split; [exact K2|]. repeat constructor. apply Hpx.
  Qed.

  Lemma keys_nodup {A} (d stem : string) (suf : A -> string) l : dir_part d -> no_char slash stem ->
    (forall a, In a l -> good_suffix (suf a)) -> NoDup (map suf l) ->
    NoDup (map (fun a => key cwd (d ++ stem ++ suf a)) l).
  Proof.
    intros Hd Hs Hg Hnd. destruct (key_dir cwd Hcwd d Hd) as [P HP].
    induction l as [|a l IH]; [constructor|]. cbn [map] in *. inversion Hnd as [|? ? Hni Hnd']; subst.
    constructor.
    - intros Hin. apply in_map_iff in Hin. destruct Hin as (b & Eb & Hb). apply Hni.
      rewrite !HP in Eb by (apply good_plain; [exact Hs|apply Hg; cbn; auto]).
      apply sapp_inv_head, sapp_inv_head in Eb. rewrite <- Eb. apply in_map, Hb.
    - apply IH; [|exact Hnd']. intros b Hb. apply Hg. right; exact Hb.
  Qed.

  (** The common shape of the saving functions. *)
  Lemma save_group {A} (d stem ext : string) (suf : A -> string) (content : A -> bytes) (l : list A) s :
    dir_part d -> no_char slash stem -> stem <> "" -> no_char slash ext -> no_char "." ext -> ext <> "" ->
    (forall a, In a l -> good_suffix (suf a)) -> NoDup (map suf l) ->
    let path := pabsolute cwd (ppath_of (d ++ stem ++ "." ++ ext)) in
    let m : io unit := io_iter (fun a => fits_writeto cwd (group_name path ++ suf a) (content a)) l in
    snd (m s) = Ok tt ->
    (forall a, In a l -> run (fst (m s)) s (key cwd (d ++ stem ++ suf a)) = Some (File (content a))) /\
    (forall p, (forall a, In a l -> p <> key cwd (d ++ stem ++ suf a)) -> run (fst (m s)) s p = s p).
  Proof.
    intros Hd Hs Hne Hes Hed Hen Hg Hnd path m Hok.
    assert (Ek : forall a, In a l -> key cwd (group_name path ++ suf a) = key cwd (d ++ stem ++ suf a)).
    { intros a Ha. apply (group_key d stem ext (suf a)); auto. }
    assert (Hnd2 : NoDup (map (fun a => key cwd (group_name path ++ suf a)) l)).
    { rewrite (map_ext_in _ (fun a => key cwd (d ++ stem ++ suf a))) by exact Ek.
      apply keys_nodup; assumption. }
    destruct (iter_write (fun a => (group_name path ++ suf a)%string) content l s Hnd2 Hok) as [I1 I2].
    split.
    - intros a Ha. rewrite <- Ek by exact Ha. apply I1, Ha.
    - intros p Hp. apply I2. intros Hin. apply in_map_iff in Hin. destruct Hin as (a & <- & Ha).
      apply (Hp a Ha). apply Ek, Ha.
  Qed.

  Lemma noslash_check x : forallb (fun a => negb (Ascii.eqb a slash)) (list_ascii_of_string x) = true ->
    no_char slash x.
  Proof.
    intros H Hin. rewrite forallb_forall in H. specialize (H _ Hin). rewrite Ascii.eqb_refl in H. discriminate.
  Qed.

  (** What stays: every pre-existing file or directory outside the written names. *)
  Lemma c54_all content d stem s :
    dir_part d -> no_char slash stem -> stem <> "" ->
    let filename := (d ++ stem ++ ".fits")%string in
    let m := save_all_pol_params_as_fits cwd content filename in
    outcome m s = Ok tt ->
    (forall id, In id ["I"; "Q"; "U"; "pB"; "AoLP"; "DoLP"] ->
       after m s (key cwd (d ++ stem ++ "_" ++ id ++ ".fits")) = Some (File (content id))) /\
    (forall p n, (forall id, In id ["I"; "Q"; "U"; "pB"; "AoLP"; "DoLP"] ->
                    p <> key cwd (d ++ stem ++ "_" ++ id ++ ".fits")) ->
       s p = Some n -> after m s p = Some n).
  Proof.
    intros Hd Hs Hne filename m Hok. unfold outcome, after in *.
    unfold m, save_all_pol_params_as_fits in *.
    destruct (negb (String.eqb (psuffix (ppath_of filename)) ".fits")); [discriminate|].
    destruct (make_abs_cases filename s) as (es & _ & Hkeep & [E|[e E]]).
    2:{ rewrite (io_bind_raise _ _ _ _ _ E) in Hok. discriminate. }
    rewrite (io_bind_effects _ _ _ _ _ E) in *. cbn [fst snd] in *.
    set (path := pabsolute cwd (ppath_of filename)) in *.
    change filename with (d ++ stem ++ "." ++ "fits")%string in path.
    destruct (save_group d stem "fits" (fun id => ("_" ++ id ++ ".fits")%string) content polparam_ids (run es s))
      as [G1 G2]; try assumption; try discriminate.
    - apply noslash_check. reflexivity.
    - intros Hin. cbn in Hin. repeat (destruct Hin as [Hin|Hin]; [discriminate|]). exact Hin.
    - intros a Ha. split; [|rewrite !slength_app; cbn; lia].
      unfold polparam_ids in Ha. cbn [In] in Ha.
      repeat (destruct Ha as [<-|Ha]; [apply noslash_check; reflexivity|]). destruct Ha.
    - unfold polparam_ids. cbn. repeat constructor; cbn; intros H;
      repeat (destruct H as [H|H]; [discriminate|]); exact H.
    - split.
      + intros id Hid. rewrite run_app. apply G1, Hid.
      + intros p n Hp Hn. rewrite run_app. rewrite G2; [apply Hkeep, Hn|]. exact Hp.
  Qed.

  Lemma c54_param content d stem id s :
    dir_part d -> no_char slash stem -> stem <> "" -> no_char slash id ->
    let filename := (d ++ stem ++ ".fits")%string in
    let m := save_param_as_fits cwd (id, content) filename in
    outcome m s = Ok tt ->
    after m s (key cwd (d ++ stem ++ "_" ++ id ++ ".fits")) = Some (File content) /\
    (forall p n, p <> key cwd (d ++ stem ++ "_" ++ id ++ ".fits") -> s p = Some n -> after m s p = Some n).
  Proof.
    intros Hd Hs Hne Hid filename m Hok. unfold outcome, after in *. unfold m, save_param_as_fits in *.
    destruct (make_abs_cases filename s) as (es & _ & Hkeep & [E|[e E]]).
    2:{ rewrite (io_bind_raise _ _ _ _ _ E) in Hok. discriminate. }
    rewrite (io_bind_effects _ _ _ _ _ E) in *. cbn [fst snd] in *.
    set (path := pabsolute cwd (ppath_of filename)) in *.
    change filename with (d ++ stem ++ "." ++ "fits")%string in path.
    assert (Gx : good_suffix ("_" ++ id ++ ".fits")).
    { split; [|rewrite !slength_app; cbn; lia].
      apply no_char_app. split; [apply noslash_check; reflexivity|].
      apply no_char_app. split; [exact Hid|apply noslash_check; reflexivity]. }
    destruct (group_key d stem "fits" ("_" ++ id ++ ".fits")%string) as [Gs Gk]; try assumption; try discriminate.
    { apply noslash_check. reflexivity. }
    { intros Hin. cbn in Hin. repeat (destruct Hin as [Hin|Hin]; [discriminate|]). exact Hin. }
    fold path in Gs, Gk. rewrite Gs in *. cbn [String.eqb negb] in *.
    change (negb (String.eqb ("." ++ "fits") ".fits")) with false in *. cbv iota in *.
    destruct (fits_writeto_cases cwd (group_name path ++ "_" ++ id ++ ".fits") content (run es s))
      as [[e E2]|(pre & E2 & Hpre)]; rewrite E2 in *; [discriminate|]. cbn [fst] in *.
    rewrite Gk in *. split.
    - rewrite !run_app. apply run_write.
    - intros p n Hp Hn. rewrite run_app. rewrite run_other; [apply Hkeep, Hn|].
      apply Forall_app. split; (eapply targets_other; [exact Hp|]); [exact Hpre|apply write_targets].
  Qed.

  Lemma eval_all_ids pol ids l : eval_all pol ids = Ok l ->
    map fst l = ids /\ forall id b, In (id, b) l -> pol id = Ok b.
  Proof.
    revert l. induction ids as [|id ids IH]; intros l E; cbn in E.
    - injection E as <-. split; [reflexivity|intros ? ? []].
    - destruct (pol id) as [b|e|] eqn:Ep; try discriminate. cbn in E.
      destruct (eval_all pol ids) as [l'|e|]; try discriminate. cbn in E. injection E as <-.
      destruct (IH l' eq_refl) as [I1 I2]. split; [cbn; rewrite I1; reflexivity|].
      intros id' b' [H|H]; [injection H as <- <-; exact Ep|apply I2, H].
  Qed.

  Lemma single_good id : In id single_pol_ids -> good_suffix ("POL" ++ id ++ ".fits").
  Proof.
    intros Ha. split; [|rewrite !slength_app; cbn; lia].
    unfold single_pol_ids in Ha. cbn [In] in Ha.
    repeat (destruct Ha as [<-|Ha]; [apply noslash_check; reflexivity|]). destruct Ha.
  Qed.

  Lemma c54_single pol d stem s :
    dir_part d -> no_char slash stem -> stem <> "" ->
    let filename := (d ++ stem ++ ".fits")%string in
    let m := save_single_pol_images cwd pol filename in
    outcome m s = Ok tt ->
    (forall id, In id ["0"; "45"; "90"; "-45"] -> exists b, pol id = Ok b /\
       after m s (key cwd (d ++ stem ++ "POL" ++ id ++ ".fits")) = Some (File b)) /\
    (forall p n, (forall id, In id ["0"; "45"; "90"; "-45"] ->
                    p <> key cwd (d ++ stem ++ "POL" ++ id ++ ".fits")) ->
       s p = Some n -> after m s p = Some n).
  Proof.
    intros Hd Hs Hne filename m Hok. unfold outcome, after in *.
    unfold m, save_single_pol_images in *.
    destruct (eval_all pol single_pol_ids) as [l|e|] eqn:El.
    2:{ rewrite (io_bind_raise _ _ s [] e) in Hok by reflexivity. discriminate. }
    2:{ discriminate. }
    rewrite (io_bind_ok _ _ s l) in * by reflexivity.
    destruct (eval_all_ids _ _ _ El) as [Hids Hv].
    destruct (make_abs_cases filename s) as (es & _ & Hkeep & [E|[e E]]).
    2:{ rewrite (io_bind_raise _ _ _ _ _ E) in Hok. discriminate. }
    rewrite (io_bind_effects _ _ _ _ _ E) in *. cbn [fst snd] in *.
    set (path := pabsolute cwd (ppath_of filename)) in *.
    change filename with (d ++ stem ++ "." ++ "fits")%string in path.
    destruct (negb (String.eqb (psuffix path) ".fits")); [discriminate|].
    assert (Hin_ids : forall pb, In pb l -> In (fst pb) single_pol_ids).
    { intros pb Hpb. rewrite <- Hids. apply in_map, Hpb. }
    destruct (save_group d stem "fits" (fun pb : string * bytes => ("POL" ++ fst pb ++ ".fits")%string) snd l (run es s))
      as [G1 G2]; try assumption; try discriminate.
    - apply noslash_check. reflexivity.
    - intros Hin. cbn in Hin. repeat (destruct Hin as [Hin|Hin]; [discriminate|]). exact Hin.
    - intros pb Hpb. apply single_good, Hin_ids, Hpb.
    - rewrite <- (map_map fst (fun id => ("POL" ++ id ++ ".fits")%string)), Hids.
      unfold single_pol_ids. cbn. repeat constructor; cbn; intros H;
      repeat (destruct H as [H|H]; [discriminate|]); exact H.
    - split.
      + intros id Hid. change (In id single_pol_ids) in Hid. rewrite <- Hids in Hid.
        apply in_map_iff in Hid. destruct Hid as ((id' & b) & <- & Hb). cbn [fst].
        exists b. split; [apply Hv, Hb|]. rewrite run_app. apply (G1 (id', b) Hb).
      + intros p n Hp Hn. rewrite run_app. rewrite G2; [apply Hkeep, Hn|].
        intros pb Hpb. apply Hp. apply (Hin_ids pb Hpb).
  Qed.

  (** Invalid suffixes. *)
  Lemma c54_suffix_all content filename s :
    psuffix (ppath_of filename) <> ".fits" ->
    fails_cleanly (save_all_pol_params_as_fits cwd content filename) s.
  Proof.
    intros H. unfold fails_cleanly, save_all_pol_params_as_fits. apply String.eqb_neq in H. rewrite H.
    split; [reflexivity|eexists; reflexivity].
  Qed.

  Lemma c54_not_demosaiced dic images filename s :
    fails_cleanly (save_demosaiced_images_as_fits cwd false dic images filename) s.
  Proof. split; [reflexivity|eexists; reflexivity]. Qed.
  Lemma c54_suffix_demosaiced dem dic images filename s :
    psuffix (ppath_of filename) = "" ->
    fails_cleanly (save_demosaiced_images_as_fits cwd dem dic images filename) s.
  Proof.
    intros H. unfold fails_cleanly, save_demosaiced_images_as_fits. rewrite H.
    destruct dem; (split; [reflexivity|eexists; reflexivity]).
  Qed.

  Lemma c54_suffix_single_partial pol filename s :
    (forall id, In id ["0"; "45"; "90"; "-45"] -> exists b, pol id = Ok b) ->
    psuffix (pabsolute cwd (ppath_of filename)) <> ".fits" ->
    (exists e, outcome (save_single_pol_images cwd pol filename) s = Raise e) /\
    only_dirs (fst (save_single_pol_images cwd pol filename s)) /\
    (forall p n, s p = Some n -> after (save_single_pol_images cwd pol filename) s p = Some n).
  Proof.
    intros Hpol Hsuf. unfold outcome, after, save_single_pol_images.
    assert (El : exists l, eval_all pol single_pol_ids = Ok l).
    { cbn. destruct (Hpol "0"%string) as [b0 ->]; [cbn; auto|].
      destruct (Hpol "45"%string) as [b1 ->]; [cbn; auto|].
      destruct (Hpol "90"%string) as [b2 ->]; [cbn; auto|].
      destruct (Hpol "-45"%string) as [b3 ->]; [cbn; auto|]. cbn. eexists; reflexivity. }
    destruct El as [l El]. rewrite (io_bind_ok _ _ s l) by (unfold io_lift; rewrite El; reflexivity).
    destruct (make_abs_cases filename s) as (es & Hdirs & Hkeep & [E|[e E]]).
    - rewrite (io_bind_effects _ _ _ _ _ E). cbn [fst snd].
      apply String.eqb_neq in Hsuf. rewrite Hsuf. cbn [negb io_raise fst snd]. rewrite app_nil_r.
      split; [eexists; reflexivity|split; [exact Hdirs|exact Hkeep]].
    - rewrite (io_bind_raise _ _ _ _ _ E). cbn [fst snd].
      split; [eexists; reflexivity|split; [exact Hdirs|exact Hkeep]].
  Qed.

  (** ** Demosaiced images *)
  Lemma uint_no_slash u : no_char slash (NilEmpty.string_of_uint u).
  Proof.
    induction u as [|u IH|u IH|u IH|u IH|u IH|u IH|u IH|u IH|u IH|u IH]; [apply no_char_nil|..];
      (cbn; apply no_char_cons; split; [discriminate|exact IH]).
  Qed.

  Lemma str_no_slash k : no_char slash (str_of k).
  Proof.
    unfold str_of, NilZero.string_of_int, NilZero.string_of_uint.
    destruct (Z.to_int k) as [u|u].
    - destruct u; try apply (uint_no_slash). apply noslash_check. reflexivity.
    - destruct u; (apply no_char_cons; split; [discriminate|]); try apply uint_no_slash.
      apply noslash_check. reflexivity.
  Qed.

  Lemma str_inj a b : str_of a = str_of b -> a = b.
  Proof.
    intros E. apply to_int_inj. unfold str_of in E.
    assert (G : forall k, NilZero.int_of_string (NilZero.string_of_int (Z.to_int k)) = Some (Z.to_int k)).
    { intros k. apply NilZero.isi; unfold Z.to_int; destruct k; try discriminate; intros H; injection H as H;
        exact (DecimalPos.Unsigned.to_uint_nonnil _ H). }
    pose proof (G a) as Ga. rewrite E, G in Ga. injection Ga as Ga. symmetry. exact Ga.
  Qed.

  Lemma key_of_value_in dic i k : key_of_value dic i = Ok k -> In (k, i) dic.
  Proof.
    unfold key_of_value. destruct (find _ dic) as [[k' v]|] eqn:E; [|discriminate].
    intros H. injection H as <-. apply find_some in E. cbn in E. destruct E as [H1 H2].
    apply Z.eqb_eq in H2. subst v. exact H1.
  Qed.

  Lemma iter_keys dic (name : Z -> string) : forall (l : list (Z * bytes)) s,
    snd (io_iter (fun ib => io_bind (io_lift (key_of_value dic (fst ib)))
            (fun k => fits_writeto cwd (name k) (snd ib))) l s) = Ok tt ->
    exists ks : list (Z * bytes), Forall2 (fun ib kb => In (fst kb, fst ib) dic /\ snd ib = snd kb) l ks /\
      io_iter (fun ib => io_bind (io_lift (key_of_value dic (fst ib)))
            (fun k => fits_writeto cwd (name k) (snd ib))) l s =
      io_iter (fun kb => fits_writeto cwd (name (fst kb)) (snd kb)) ks s.
  Proof.
    induction l as [|[i b] l IH]; intros s Hok.
    - exists []. split; [constructor|reflexivity].
    - cbn [io_iter fst snd] in *. destruct (key_of_value dic i) as [k|e|] eqn:Ek.
      + assert (Eh : io_bind (io_lift (Ok k)) (fun k => fits_writeto cwd (name k) b) s = fits_writeto cwd (name k) b s)
          by (rewrite (io_bind_ok _ _ s k) by reflexivity; reflexivity).
        destruct (fits_writeto_cases cwd (name k) b s) as [[e E]|(pre & E & Hpre)].
        * rewrite E in Eh. rewrite (io_bind_raise _ _ _ _ _ Eh) in Hok. discriminate.
        * rewrite E in Eh. rewrite (io_bind_effects _ _ _ _ _ Eh) in *. cbn [snd] in Hok.
          destruct (IH _ Hok) as (ks & F & Eks). exists ((k, b) :: ks). split.
          -- constructor; [|exact F]. split; [apply key_of_value_in, Ek|reflexivity].
          -- cbn [io_iter fst snd]. rewrite (io_bind_effects _ _ _ _ _ E), Eks. reflexivity.
      + assert (Eh : io_bind (io_lift (Raise e)) (fun k => fits_writeto cwd (name k) b) s = ([], Raise e))
          by (apply io_bind_raise; reflexivity).
        rewrite (io_bind_raise _ _ _ _ _ Eh) in Hok. discriminate.
      + discriminate.
  Qed.

  Lemma Forall2_in_l {A B} (P : A -> B -> Prop) l l' a : Forall2 P l l' -> In a l -> exists b, In b l' /\ P a b.
  Proof.
    induction 1 as [|x y l l' H F IH]; intros Hin; [destruct Hin|]; destruct Hin as [<-|Hin].
    - exists y. split; [left; reflexivity|exact H].
    - destruct (IH Hin) as (b & Hb & Pb). exists b. split; [right; exact Hb|exact Pb].
  Qed.
  Lemma Forall2_in_r {A B} (P : A -> B -> Prop) l l' b : Forall2 P l l' -> In b l' -> exists a, In a l /\ P a b.
  Proof.
    induction 1 as [|x y l l' H F IH]; intros Hin; [destruct Hin|]; destruct Hin as [<-|Hin].
    - exists x. split; [left; reflexivity|exact H].
    - destruct (IH Hin) as (a & Ha & Pa). exists a. split; [right; exact Ha|exact Pa].
  Qed.

  Lemma dic_fun (dic : list (Z * Z)) k i j : NoDup (map fst dic) -> In (k, i) dic -> In (k, j) dic -> i = j.
  Proof.
    induction dic as [|[k0 v0] dic IH]; intros Hnd Hi Hj; [destruct Hi|].
    cbn [map fst] in Hnd. inversion Hnd as [|? ? Hni Hnd']; subst.
    destruct Hi as [Hi|Hi], Hj as [Hj|Hj].
    - injection Hi as -> ->. injection Hj as ->. reflexivity.
    - injection Hi as -> ->. exfalso. apply Hni. apply (in_map fst) in Hj. exact Hj.
    - injection Hj as -> ->. exfalso. apply Hni. apply (in_map fst) in Hi. exact Hi.
    - apply IH; assumption.
  Qed.

  Lemma nodup_keys dic (l ks : list (Z * bytes)) : NoDup (map fst dic) -> NoDup (map fst l) ->
    Forall2 (fun ib kb => In (fst kb, fst ib) dic /\ snd ib = snd kb) l ks -> NoDup (map fst ks).
  Proof.
    intros Hd Hl F. induction F as [|x y l ks [H _] F IH]; [constructor|]. cbn [map] in *.
    inversion Hl as [|? ? Hni Hl']; subst. constructor; [|apply IH, Hl'].
    intros Hin. apply in_map_iff in Hin. destruct Hin as (b & Eb & Hb).
    destruct (Forall2_in_r _ _ _ _ F Hb) as (a & Ha & Pa & _). rewrite Eb in Pa.
    apply Hni. rewrite (dic_fun dic _ _ _ Hd H Pa). apply in_map, Ha.
  Qed.

  Lemma combine_fst {A B} (l : list A) (l' : list B) : length l = length l' -> map fst (combine l l') = l.
  Proof.
    revert l'. induction l as [|a l IH]; intros [|b l'] H; try discriminate; [reflexivity|].
    cbn. rewrite IH by (cbn in H; lia). reflexivity.
  Qed.

  Lemma c54_demosaiced dic images d stem ext s :
    dir_part d -> no_char slash stem -> stem <> "" -> no_char slash ext -> no_char "." ext -> ext <> "" ->
    NoDup (map fst dic) ->
    let filename := (d ++ stem ++ "." ++ ext)%string in
    let m := save_demosaiced_images_as_fits cwd true dic images filename in
    outcome m s = Ok tt ->
    (forall i b, nth_error images i = Some b -> exists k, In (k, Z.of_nat i) dic /\
       after m s (key cwd (d ++ stem ++ "_POL" ++ str_of k ++ ".fits")) = Some (File b)) /\
    (forall p n, (forall k, p <> key cwd (d ++ stem ++ "_POL" ++ str_of k ++ ".fits")) ->
       s p = Some n -> after m s p = Some n).
  Proof.
    intros Hd Hs Hne Hes Hed Hen Hdic filename m Hok. unfold outcome, after in *.
    unfold m, save_demosaiced_images_as_fits in *. cbn [negb] in *.
    destruct (String.eqb (psuffix (ppath_of filename)) ""); [discriminate|].
    destruct (make_abs_cases filename s) as (es & _ & Hkeep & [E|[e E]]).
    2:{ rewrite (io_bind_raise _ _ _ _ _ E) in Hok. discriminate. }
    rewrite (io_bind_effects _ _ _ _ _ E) in *. cbn [fst snd] in *.
    set (path := pabsolute cwd (ppath_of filename)) in *.
    destruct (iter_keys dic (fun k => (group_name path ++ "_POL" ++ str_of k ++ ".fits")%string) _ _ Hok)
      as (ks & F & Eks).
    rewrite Eks in *.
    assert (Gk : forall k, good_suffix ("_POL" ++ str_of k ++ ".fits")).
    { intros k. split; [|rewrite !slength_app; cbn; lia].
      apply no_char_app. split; [apply noslash_check; reflexivity|].
      apply no_char_app. split; [apply str_no_slash|apply noslash_check; reflexivity]. }
    assert (Hlen : length (zrange (Z.of_nat (length images))) = length images)
      by (unfold zrange; rewrite map_length, seq_length, Nat2Z.id; reflexivity).
    assert (Hnd : NoDup (map fst ks)).
    { eapply nodup_keys; [exact Hdic| |exact F]. rewrite combine_fst by exact Hlen.
      unfold zrange. apply FinFun.Injective_map_NoDup; [intros x y H; lia|apply seq_NoDup]. }
    destruct (save_group d stem ext (fun kb : Z * bytes => ("_POL" ++ str_of (fst kb) ++ ".fits")%string) snd ks (run es s))
      as [G1 G2]; try assumption.
    - intros kb _. apply Gk.
    - rewrite <- (map_map fst (fun k => ("_POL" ++ str_of k ++ ".fits")%string)).
      apply FinFun.Injective_map_NoDup; [|exact Hnd].
      intros x y Hxy. apply sapp_inv_head, sapp_inv_tail in Hxy. apply str_inj, Hxy.
    - split.
      + intros i b Hib.
        assert (Hin : In (Z.of_nat i, b) (combine (zrange (Z.of_nat (length images))) images)).
        { apply nth_error_split in Hib. destruct Hib as (l1 & l2 & -> & <-).
          unfold zrange. rewrite Nat2Z.id, app_length, seq_app, map_app.
          rewrite combine_app' by (rewrite map_length, seq_length; reflexivity).
          apply in_or_app. right. cbn. left. reflexivity. }
        destruct (Forall2_in_l _ _ _ _ F Hin) as ([k b'] & Hk & Pk & Eb). cbn [fst snd] in Pk, Eb. subst b'.
        exists k. split; [exact Pk|]. rewrite run_app. apply (G1 (k, b) Hk).
      + intros p n Hp Hn. rewrite run_app. rewrite G2; [apply Hkeep, Hn|]. intros kb _. apply Hp.
  Qed.
End SaveParams.
