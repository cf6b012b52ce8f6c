(** Files: names of converted files, merging, saving parameters. *)
From Coq Require Import String Ascii Lia ZifyBool Reals Lra Permutation Decimal DecimalString DecimalZ.
From Verif Require Import Base.Base Base.BaseFacts Model.Paths Model.Codec Model.Fs
  Spec.CodecSpec Spec.FsSpec Spec.Terminates Proofs.PathFacts Proofs.CodecFacts Proofs.BinaryFacts
  Proofs.RawFacts Proofs.FsFacts.
Local Open Scope string_scope.
Local Open Scope list_scope.
Local Open Scope Z_scope.
Ltac Zify.zify_post_hook ::= idtac.
Local Arguments ascii_dec : simpl never.

Lemma good_raw : good_suffix ".raw".
Proof. split; [|cbn; lia]. intros H. cbn in H. repeat (destruct H as [H|H]; [discriminate|]). exact H. Qed.
Lemma good_colraw : good_suffix ":raw".
Proof. split; [|cbn; lia]. intros H. cbn in H. repeat (destruct H as [H|H]; [discriminate|]). exact H. Qed.
Lemma good_fits : good_suffix ".fits".
Proof. split; [|cbn; lia]. intros H. cbn in H. repeat (destruct H as [H|H]; [discriminate|]). exact H. Qed.

(** ** C49 *)
Section Names.
  Variable cwd : string.
  Hypothesis Hcwd : is_abs cwd = true.
  Variable fits_u2 : list (list Z) -> bytes.
  Notation convert := (convert_rawfile_to_fits cwd fits_u2).

  Lemma key_normal p : is_abs p = true -> normpath p = p -> key cwd p = p.
  Proof. intros Ha Hn. unfold key, abspath. rewrite path_join_is_abs by exact Ha. exact Hn. Qed.

  Lemma raw_abs t : is_abs (t ++ ".raw") = true -> is_abs t = true.
  Proof.
    destruct t as [|a t]; [discriminate|]. unfold is_abs, starts_with. cbn.
    destruct (ascii_dec "/" a); [|discriminate]. rewrite !prefix_nil. auto.
  Qed.

  Lemma dtc_abs t : is_abs t = true -> is_abs (dots_to_colons t) = true.
  Proof. intros H. destruct (is_abs_inv t H) as [t' ->]. cbn. apply is_abs_app with (a := "/"). reflexivity. Qed.

  Lemma converted_form t : is_abs (t ++ ".raw") = true -> normpath (t ++ ".raw") = (t ++ ".raw")%string ->
    converted_name cwd (t ++ ".raw") = (dots_to_colons t ++ ".fits")%string /\
    newkey cwd (t ++ ".raw") = (dots_to_colons t ++ ".fits")%string.
  Proof.
    intros Ha Hn.
    assert (E : converted_name cwd (t ++ ".raw") = (dots_to_colons t ++ ".fits")%string).
    { unfold converted_name. change (abspath cwd (t ++ ".raw")) with (key cwd (t ++ ".raw")).
      rewrite key_normal by assumption. f_equal.
      change ".raw" with (String dot "raw"). rewrite split_sep.
      change (split_on dot "raw") with ["raw"]. rewrite removelast_last. apply join_colons. }
    split; [exact E|]. unfold newkey. rewrite E.
    pose proof (dtc_normal _ Ha Hn) as Hd. rewrite dtc_app in Hd.
    change (dots_to_colons ".raw") with ":raw" in Hd.
    pose proof (dtc_abs t (raw_abs t Ha)) as Hda.
    destruct (norm_swap (dots_to_colons t) Hda) as (X & P & HX).
    destruct (HX _ good_colraw) as [E1 _]. destruct (HX _ good_fits) as [E2 _].
    rewrite Hd in E1. apply sapp_inv_tail in E1.
    unfold key, abspath. rewrite path_join_is_abs by (apply is_abs_app, Hda). rewrite E2, <- E1. reflexivity.
  Qed.

  Lemma c49_name t h w ro s :
    is_abs (t ++ ".raw") = true -> normpath (t ++ ".raw") = (t ++ ".raw")%string ->
    outcome (convert (t ++ ".raw") h w ro) s = Ok tt ->
    exists content img, s (t ++ ".raw")%string = Some (File content) /\ le16_image h w content img /\
      after (convert (t ++ ".raw") h w ro) s (dots_to_colons t ++ ".fits")%string =
        Some (File (fits_u2 (to_list img))) /\
      (forall p, p <> (t ++ ".raw")%string -> p <> (dots_to_colons t ++ ".fits")%string ->
         after (convert (t ++ ".raw") h w ro) s p = s p).
  Proof.
    intros Ha Hn Hok. assert (Hr : ends_with ".raw" (t ++ ".raw")) by (exists t; reflexivity).
    destruct (c48_done cwd Hcwd fits_u2 _ h w ro s Hr Hok) as (new & content & img & _ & -> & Es & Hi & Ea & _).
    rewrite (key_normal _ Ha Hn) in Es. destruct (converted_form t Ha Hn) as [_ En].
    exists content, img. split; [exact Es|split; [exact Hi|]]. rewrite En in Ea. split; [exact Ea|].
    intros p Hp1 Hp2.
    destruct (convert_cases cwd Hcwd fits_u2 (t ++ ".raw") h w ro s)
      as [[Ec _]|(c & i & pr & tail & r & _ & _ & Hpr & Ec & Ht)].
    - unfold after. rewrite Ec. reflexivity.
    - unfold after. rewrite Ec. cbn [fst]. rewrite En in Hpr |- *. rewrite (key_normal _ Ha Hn) in Ht.
      apply run_other. apply Forall_app. split; [eapply targets_other; [exact Hp2|exact Hpr]|].
      apply Forall_app. split; [eapply targets_other; [exact Hp2|apply write_targets]|].
      destruct Ht as [(_ & -> & _)|(_ & [(-> & _)|(-> & _)])]; repeat constructor. cbn. congruence.
  Qed.

  Lemma substring_app t u : substring (String.length t) (String.length u) (t ++ u) = u.
  Proof.
    induction t as [|a t IH]; [|exact IH]. cbn. induction u as [|b u IHu]; [reflexivity|].
    cbn. rewrite IHu. reflexivity.
  Qed.

  Lemma contains_suffix sub t : sub <> "" -> contains sub (t ++ sub) = true.
  Proof.
    intros Hne. unfold contains. destruct (index 0 sub (t ++ sub)) eqn:E; [reflexivity|].
    exfalso. apply (index_correct3 0 (String.length t) sub (t ++ sub) E Hne).
    - lia.
    - apply substring_app.
  Qed.

  Lemma convert_success filename h w ro s content :
    contains ".raw" filename = true -> ends_in_slash filename = false ->
    s (key cwd filename) = Some (File content) -> 0 <= h -> 0 <= w ->
    2 * (h * w) <= Z.of_nat (length content) ->
    is_dir s (newkey cwd filename) = false ->
    is_dir s (parent_key cwd (converted_name cwd filename)) = true ->
    newkey cwd filename <> key cwd filename ->
    outcome (convert filename h w ro) s = Ok tt.
  Proof.
    intros Hc He Hs Hh Hw Hl Hd Hp Hne. unfold outcome, convert_rawfile_to_fits. rewrite Hc. cbn [negb].
    unfold io_bind at 1, read_file. rewrite Hs, He. cbn [run fold_left app].
    destruct (u2_ok h w content Hh Hw ltac:(unfold zlen; lia)) as (img & Eu & _).
    unfold io_bind at 1, io_lift. rewrite Eu. cbn [run fold_left app].
    assert (Hes : ends_in_slash (converted_name cwd filename) = false).
    { unfold converted_name. apply ends_in_slash_app; [apply good_fits|discriminate]. }
    destruct (fits_writeto_ok cwd _ (fits_u2 (to_list img)) s Hes Hd Hp) as (pre & Ew & Hpre).
    unfold io_bind at 1. rewrite Ew. destruct ro; [|reflexivity].
    unfold remove_file. change (key cwd (abspath cwd filename)) with (key cwd (key cwd filename)).
    rewrite (key_idem cwd Hcwd), run_other, Hs; [reflexivity|].
    apply Forall_app. split; (eapply targets_other; [|first [exact Hpre|apply write_targets]]);
      unfold newkey in Hne; congruence.
  Qed.

  Lemma c49_partial t h w ro s content :
    is_abs (t ++ ".raw") = true -> normpath (t ++ ".raw") = (t ++ ".raw")%string -> no_char "." t ->
    s (t ++ ".raw")%string = Some (File content) -> 0 <= h -> 0 <= w ->
    2 * (h * w) <= Z.of_nat (length content) ->
    is_dir s (parent_key cwd (t ++ ".raw")) = true ->
    is_dir s (t ++ ".fits") = false ->
    outcome (convert (t ++ ".raw") h w ro) s = Ok tt /\
    exists img, le16_image h w content img /\
      after (convert (t ++ ".raw") h w ro) s (t ++ ".fits")%string = Some (File (fits_u2 (to_list img))).
  Proof.
    intros Ha Hn Hd Hs Hh Hw Hl Hpar Hdir.
    destruct (converted_form t Ha Hn) as [E1 E2]. rewrite (dots_to_colons_id t Hd) in E1, E2.
    assert (Hok : outcome (convert (t ++ ".raw") h w ro) s = Ok tt).
    { apply convert_success with (content := content); try assumption.
      - apply contains_suffix. discriminate.
      - apply ends_in_slash_app; [apply good_raw|discriminate].
      - rewrite (key_normal _ Ha Hn). exact Hs.
      - rewrite E2. exact Hdir.
      - rewrite E1. unfold parent_key in *. pose proof (raw_abs t Ha) as Hta.
        destruct (norm_swap t Hta) as (X & P & HX).
        destruct (HX _ good_raw) as [R1 R2]. destruct (HX _ good_fits) as [F1 F2].
        rewrite (key_normal _ Ha Hn) in Hpar. unfold newkey in E2. rewrite E1 in E2. rewrite E2.
        unfold path_join in *. change (is_abs "..") with false in *. cbv iota in *.
        assert (Hz : forall u, good_suffix u -> String.eqb (t ++ u) "" || ends_in_slash (t ++ u) = false).
        { intros u Hu. rewrite ends_in_slash_app;
            [|apply Hu|intros ->; destruct Hu as [_ Hu]; cbn in Hu; lia].
          rewrite Bool.orb_false_r. destruct (is_abs_inv t Hta) as [t' ->]. reflexivity. }
        rewrite (Hz _ good_raw) in Hpar. rewrite (Hz _ good_fits).
        change ("/" ++ "..")%string with "/.." in *. rewrite R2 in Hpar. rewrite F2. exact Hpar.
      - rewrite E2, (key_normal _ Ha Hn). intros E. symmetry in E. exact (raw_fits_differ _ _ E). }
    split; [exact Hok|].
    destruct (c49_name t h w ro s Ha Hn Hok) as (c & img & Ec & Hi & Ea & _).
    rewrite (dots_to_colons_id t Hd) in Ea. rewrite Hs in Ec. injection Ec as <-. exists img. auto.
  Qed.
End Names.

(** The refutation: a dot elsewhere in the path. *)
Definition demo_fs (dirs : list string) (raw : string) (content : bytes) : fs := fun p =>
  if String.eqb p raw then Some (File content)
  else if existsb (String.eqb p) dirs then Some Dir else None.

Lemma c49_refuted fits_u2 :
  let s := demo_fs ["/"; "/data"] "/data/run.2.raw" [1; 0] in
  outcome (convert_rawfile_to_fits "/" fits_u2 "/data/run.2.raw" 1 1 false) s = Ok tt /\
  after (convert_rawfile_to_fits "/" fits_u2 "/data/run.2.raw" 1 1 false) s "/data/run.2.fits" = None /\
  after (convert_rawfile_to_fits "/" fits_u2 "/data/run.2.raw" 1 1 false) s "/data/run:2.fits" =
    Some (File (fits_u2 [[1]])).
Proof.
  cbv zeta. set (s := demo_fs _ _ _).
  assert (H1 : is_abs ("/data/run.2" ++ ".raw") = true) by reflexivity.
  assert (H2 : normpath ("/data/run.2" ++ ".raw") = ("/data/run.2" ++ ".raw")%string) by reflexivity.
  assert (Hok : outcome (convert_rawfile_to_fits "/" fits_u2 ("/data/run.2" ++ ".raw") 1 1 false) s = Ok tt).
  { apply (convert_success "/" eq_refl fits_u2 _ 1 1 false s [1; 0]); try reflexivity; try (cbn; lia).
    vm_compute. discriminate. }
  destruct (c49_name "/" eq_refl fits_u2 "/data/run.2" 1 1 false s H1 H2 Hok) as (c & img & Es & Hi & Ea & Ho).
  split; [exact Hok|]. split.
  - apply Ho; discriminate.
  - etransitivity; [exact Ea|]. f_equal. f_equal. f_equal.
    cbn in Es. injection Es as <-.
    destruct Hi as (_ & Hr & Hc & Hv). unfold to_list. rewrite Hr, Hc.
    change (zrange 1) with [0]. cbn [map]. rewrite Hv by lia. reflexivity.
Qed.

(** A dotted directory that has no twin with colons: the conversion fails. *)
Lemma c49_dotted_dir fits_u2 :
  let s := demo_fs ["/"; "/data"; "/data/2021.12.01"] "/data/2021.12.01/a.raw" [1; 0] in
  fails_cleanly (convert_rawfile_to_fits "/" fits_u2 "/data/2021.12.01/a.raw" 1 1 false) s.
Proof.
  cbv zeta. unfold fails_cleanly, convert_rawfile_to_fits. cbn. split; [reflexivity|eexists; reflexivity].
Qed.
