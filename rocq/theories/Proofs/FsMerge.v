(** Merging raw files, saving and re-reading them. *)
From Coq Require Import String Ascii Lia ZifyBool Reals Lra Permutation.
From Verif Require Import Base.Base Base.BaseFacts Model.Paths Model.Codec Model.Fs
  Spec.CodecSpec Spec.FsSpec Spec.Terminates Proofs.PathFacts Proofs.CodecFacts Proofs.BinaryFacts
  Proofs.RawFacts Proofs.FsFacts Proofs.FsProps.
Local Open Scope string_scope.
Local Open Scope list_scope.
Local Open Scope Z_scope.
Ltac Zify.zify_post_hook ::= idtac.

(** ** C47 with files *)
Lemma le16_raw oor data z :
  wf data ->
  (forall y x, 0 <= y < rows data -> 0 <= x < cols data ->
     cell data y x = IZR (z y x) /\ 0 <= z y x <= 32767) ->
  exists img, le16_image (rows data) (cols data) (raw_bytes oor data) img /\
    to_list img = pixels (rows data) (cols data) z.
Proof.
  intros Hwf Hz. exists (mkarr (rows data) (cols data) z). split; [|reflexivity].
  unfold le16_image. cbn [rows cols cell].
  pose proof (raw_length oor data Hwf) as HL. unfold zlen in HL.
  split; [lia|split; [reflexivity|split; [reflexivity|]]].
  intros y x Hy Hx. destruct (Hz y x Hy Hx) as [E R].
  destruct (raw_layout oor data Hwf y x (z y x) Hy Hx E R) as [E1 E2]. rewrite E1, E2.
  pose proof (Z.div_mod (z y x) 256 ltac:(lia)). lia.
Qed.

Section Save.
  Variable cwd : string.
  Hypothesis Hcwd : is_abs cwd = true.

  Lemma write_file_cases p c s :
    (exists e, write_file cwd p c s = ([], Raise e)) \/
    write_file cwd p c s = (write_effects (key cwd p) c, Ok tt).
  Proof.
    unfold write_file. destruct (ends_in_slash p); [left; eauto|].
    destruct (is_dir s (parent_key cwd p)); cbn [negb]; [|left; eauto].
    destruct (is_dir s (key cwd p)); [left; eauto|right; reflexivity].
  Qed.

  Lemma c47_files oor fits_u2 filename data z s ro :
    wf data -> ends_with ".raw" filename ->
    (forall y x, 0 <= y < rows data -> 0 <= x < cols data ->
       cell data y x = IZR (z y x) /\ 0 <= z y x <= 32767) ->
    outcome (save_as_raw cwd oor filename data) s = Ok tt ->
    let s1 := after (save_as_raw cwd oor filename data) s in
    let conv := convert_rawfile_to_fits cwd fits_u2 filename (rows data) (cols data) ro in
    (forall p, p <> key cwd filename -> s1 p = s p) /\
    s1 (key cwd filename) = Some (File (raw_bytes oor data)) /\
    (outcome conv s1 = Ok tt -> exists new, new <> key cwd filename /\
       after conv s1 new = Some (File (fits_u2 (pixels (rows data) (cols data) z)))).
  Proof.
    intros Hwf Hraw Hz Hok s1 conv.
    assert (E : save_as_raw cwd oor filename data s =
                (write_effects (key cwd filename) (raw_bytes oor data), Ok tt)).
    { unfold outcome in Hok. unfold save_as_raw in *.
      destruct (negb (String.eqb (psuffix (ppath_of filename)) ".raw")); [discriminate|].
      destruct (write_file_cases filename (raw_bytes oor data) s) as [[e Ee]|Ee]; rewrite Ee in *;
        [discriminate|reflexivity]. }
    unfold s1, after. rewrite E. cbn [fst]. split; [|split].
    - intros p Hp. apply run_other. eapply targets_other; [exact Hp|apply write_targets].
    - apply run_write.
    - intros Hc. set (s2 := run _ s) in *.
      assert (E2 : s2 (key cwd filename) = Some (File (raw_bytes oor data))) by apply run_write.
      destruct (c48_done cwd Hcwd fits_u2 filename _ _ ro s2 Hraw Hc)
        as (new & content & img & Hne & _ & Es & Hi & Ea & _).
      exists new. split; [exact Hne|]. rewrite E2 in Es. injection Es as <-.
      destruct (le16_raw oor data z Hwf Hz) as (img' & Hi' & El).
      rewrite <- El, (le16_unique _ _ _ _ _ Hi' Hi). exact Ea.
  Qed.
End Save.

(** ** C50 *)
Section Merge.
  Variable cwd : string.
  Hypothesis Hcwd : is_abs cwd = true.
  Variable fits_f8 : list (list R) -> bytes.
  Notation merge := (merge_rawfiles_to_fits cwd fits_f8).

  Notation raw_holds := (raw_holds cwd).
  Notation unreadable := (unreadable cwd).

  Lemma add_raw_ok h w s : 0 <= h -> 0 <= w -> forall files imgs a0,
    rows a0 = h -> cols a0 = w ->
    Forall (fun f => ends_in_slash f = false) files ->
    Forall2 (raw_holds s h w) files imgs ->
    exists a, add_raw_files cwd files h w a0 s = ([], Ok a) /\ rows a = h /\ cols a = w /\
      forall y x, 0 <= y < h -> 0 <= x < w -> (cell a y x = cell a0 y x + sum_at imgs y x)%R.
  Proof.
    intros Hh Hw. induction files as [|f files IH]; intros imgs a0 Hr Hc Hsl HF; inversion HF; subst.
    - exists a0. repeat split; auto. intros. unfold sum_at. cbn. lra.
    - inversion Hsl; subst. destruct H1 as (c & Es & Hi).
      cbn [add_raw_files]. unfold io_bind at 1, read_file. rewrite Es. rewrite H2.
      cbn [run fold_left app].
      destruct (u2_ok (rows a0) (cols a0) c) as (img & Eu & Hi'); try assumption.
      { destruct Hi as (Hl & _). unfold zlen. lia. }
      unfold io_bind at 1, io_lift. rewrite Eu. cbn [run fold_left app].
      destruct (IH l' (amap2 (fun a d => (a + IZR d)%R) a0 img)) as (a & Ea & Ra & Ca & Va); try reflexivity; try assumption.
      rewrite Ea. exists a. repeat split; try assumption.
      intros y' x' Hy Hx. rewrite Va by assumption. cbn [cell amap2].
      destruct Hi as (_ & _ & _ & V1). destruct Hi' as (_ & _ & _ & V2).
      unfold sum_at. cbn [map fold_right]. rewrite V1, V2 by assumption. lra.
  Qed.

  Lemma add_raw_cases h w s : forall files a0,
    (exists a, add_raw_files cwd files h w a0 s = ([], Ok a) /\
       Forall (fun f => exists c, ends_in_slash f = false /\ s (key cwd f) = Some (File c) /\
                                  2 * (h * w) <= Z.of_nat (length c)) files) \/
    (exists e, add_raw_files cwd files h w a0 s = ([], Raise e)).
  Proof.
    induction files as [|f files IH]; intros a0; [left; eexists; split; [reflexivity|constructor]|].
    cbn [add_raw_files].
    assert (Hrd : (exists c, ends_in_slash f = false /\ s (key cwd f) = Some (File c) /\
                             read_file cwd f s = ([], Ok c)) \/
                  (exists e, read_file cwd f s = ([], Raise e))).
    { unfold read_file. destruct (s (key cwd f)) as [[c|]|]; [|right; eexists; reflexivity..].
      destruct (ends_in_slash f); [right; eexists; reflexivity|left; exists c; auto]. }
    destruct Hrd as [(c & Ee & Es & Er)|[e Er]];
      [|right; exists e; apply io_bind_raise; exact Er].
    rewrite (io_bind_ok _ _ _ _ Er).
    destruct (u2_cases h w c) as [[img Eu]|[e Eu]];
      [|right; exists e; apply io_bind_raise; unfold io_lift; rewrite Eu; reflexivity].
    rewrite (io_bind_ok _ _ _ img) by (unfold io_lift; rewrite Eu; reflexivity).
    destruct (IH (amap2 (fun a d => (a + IZR d)%R) a0 img)) as [(a & Ea & Hf)|[e Ea]]; rewrite Ea.
    - left. eexists. split; [reflexivity|]. constructor; [|exact Hf]. exists c.
      destruct (u2_inv _ _ _ _ Eu) as (_ & _ & (Hl & _)). auto.
    - right. eexists. reflexivity.
  Qed.

  (** All files readable: the call is the writing of one file. *)
  Lemma merge_form files imgs new h w mode s :
    0 <= h -> 0 <= w -> Forall (fun f => ends_in_slash f = false) files ->
    Forall2 (raw_holds s h w) files imgs ->
    merge files new h w mode s =
      (if negb (String.eqb (last_piece (ppath_str (pabsolute cwd (ppath_of new)))) "fits")
       then ([], Raise ValueError)
       else fits_writeto cwd (ppath_str (pabsolute cwd (ppath_of new)))
              (fits_f8 (pixels h w (merged mode (length files) imgs))) s).
  Proof.
    intros Hh Hw Hsl HF. unfold merge_rawfiles_to_fits.
    destruct (negb _); [reflexivity|].
    replace ((h <? 0) || (w <? 0)) with false by lia.
    destruct (add_raw_ok h w s Hh Hw files imgs (full h w 0%R) eq_refl eq_refl Hsl HF)
      as (a & Ea & Ra & Ca & Va).
    unfold io_bind. rewrite Ea. cbn [run fold_left app].
    assert (El : to_list (if String.eqb mode "average"
                          then amap (fun v => (v / IZR (Z.of_nat (length files)))%R) a else a) =
                 pixels h w (merged mode (length files) imgs)).
    { unfold merged, pixels, to_list.
      destruct (String.eqb mode "average"); cbn [amap rows cols cell]; rewrite Ra, Ca;
        apply map_ext_in; intros y Hy; apply map_ext_in; intros x Hx;
        apply in_zrange in Hy, Hx; rewrite Va by assumption; cbn [full cell];
        [rewrite <- INR_IZR_INZ|]; try (f_equal; lra); lra. }
    rewrite El. destruct (fits_writeto _ _ _ s). reflexivity.
  Qed.

  Lemma c50_written files imgs new h w mode s :
    0 <= h -> 0 <= w -> Forall (fun f => ends_in_slash f = false) files ->
    Forall2 (raw_holds s h w) files imgs ->
    outcome (merge files new h w mode) s = Ok tt ->
    after (merge files new h w mode) s (key cwd new) =
      Some (File (fits_f8 (pixels h w (merged mode (length files) imgs)))).
  Proof.
    intros Hh Hw Hsl HF Hok. unfold outcome, after in *.
    rewrite (merge_form files imgs new h w mode s Hh Hw Hsl HF) in *.
    destruct (negb _); [discriminate|].
    destruct (fits_writeto_cases cwd (ppath_str (pabsolute cwd (ppath_of new)))
      (fits_f8 (pixels h w (merged mode (length files) imgs))) s) as [[e E]|(pre & E & _)];
      rewrite E in *; [discriminate|].
    cbn [fst]. rewrite (key_pabs cwd Hcwd), run_app. apply run_write.
  Qed.

  Lemma c50_others files new h w mode s s' p :
    crash (merge files new h w mode) s s' -> p <> key cwd new -> s' p = s p.
  Proof.
    intros (pre & post & E & ->) Hp.
    assert (Ht : Forall (fun e => target e = key cwd new) (fst (merge files new h w mode s))).
    { unfold merge_rawfiles_to_fits. destruct (negb _); [constructor|].
      destruct ((h <? 0) || (w <? 0)); [constructor|].
      unfold io_bind. destruct (add_raw_cases h w s files (full h w 0%R)) as [(a & Ea & _)|[e Ea]];
        rewrite Ea; [|constructor].
      cbn [run fold_left app].
      match goal with |- context [fits_writeto cwd ?q ?c s] =>
        destruct (fits_writeto_cases cwd q c s) as [[e E']|(pr & E' & Hpr)]; rewrite E' end;
        [constructor|].
      cbn [fst]. rewrite (key_pabs cwd Hcwd) in *. apply Forall_app. split; [exact Hpr|apply write_targets]. }
    apply run_other. eapply targets_other; [exact Hp|]. eapply Forall_prefix; [exact Ht|exact E].
  Qed.

  Lemma c50_short files new h w mode s f :
    In f files -> unreadable s h w f -> fails_cleanly (merge files new h w mode) s.
  Proof.
    intros Hin Hu. unfold fails_cleanly, merge_rawfiles_to_fits.
    destruct (negb _); [split; [reflexivity|eexists; reflexivity]|].
    destruct ((h <? 0) || (w <? 0)); [split; [reflexivity|eexists; reflexivity]|].
    unfold io_bind. destruct (add_raw_cases h w s files (full h w 0%R)) as [(a & Ea & Hf)|[e Ea]]; rewrite Ea.
    - exfalso. rewrite Forall_forall in Hf. destruct (Hf f Hin) as (c & _ & Es & Hl).
      specialize (Hu c Es). lia.
    - split; [reflexivity|eexists; reflexivity].
  Qed.

  Lemma sum_at_perm imgs imgs' y x : Permutation imgs imgs' -> sum_at imgs y x = sum_at imgs' y x.
  Proof.
    intros H. unfold sum_at. induction H; cbn; lra.
  Qed.

  Lemma Forall2_perm {A B} (P : A -> B -> Prop) l l' : Permutation l l' -> forall k,
    Forall2 P l k -> exists k', Permutation k k' /\ Forall2 P l' k'.
  Proof.
    induction 1 as [|a l l' H IH|a b l|l1 l2 l3 H1 IH1 H2 IH2]; intros k HF.
    - exists k. auto.
    - inversion HF; subst. destruct (IH _ H4) as (k' & Hp & HF'). exists (y :: k'). split; constructor; auto.
    - inversion HF; subst. inversion H3; subst. exists (y0 :: y :: l'0). split; [apply perm_swap|].
      repeat constructor; assumption.
    - destruct (IH1 _ HF) as (k1 & P1 & F1). destruct (IH2 _ F1) as (k2 & P2 & F2).
      exists k2. split; [eapply perm_trans; eassumption|assumption].
  Qed.

  Lemma c50_perm files files' new h w mode s : Permutation files files' ->
    merge files new h w mode s = merge files' new h w mode s \/
    (fails_cleanly (merge files new h w mode) s /\ fails_cleanly (merge files' new h w mode) s).
  Proof.
    intros HP.
    destruct ((h <? 0) || (w <? 0)) eqn:Eneg.
    { right. split; unfold fails_cleanly, merge_rawfiles_to_fits; rewrite Eneg;
        destruct (negb _); (split; [reflexivity|eexists; reflexivity]). }
    assert (Hh : 0 <= h) by lia. assert (Hw : 0 <= w) by lia.
    destruct (add_raw_cases h w s files (full h w 0%R)) as [(a & Ea & Hf)|[e Ea]].
    - left.
      assert (HF : exists imgs, Forall2 (raw_holds s h w) files imgs).
      { clear - Hf Hh Hw. induction Hf as [|f l (c & Hs & Es & Hl) Hf IH]; [exists []; constructor|].
        destruct IH as [imgs IH]. destruct (u2_ok h w c Hh Hw) as (img & _ & Hi); [unfold zlen; lia|].
        exists (img :: imgs). constructor; [exists c; auto|exact IH]. }
      destruct HF as [imgs HF]. destruct (Forall2_perm _ _ _ HP _ HF) as (imgs' & HPi & HF').
      assert (Hsl : Forall (fun f => ends_in_slash f = false) files).
      { eapply Forall_impl; [|exact Hf]. intros f (c & Hs & _). exact Hs. }
      assert (Hsl' : Forall (fun f => ends_in_slash f = false) files').
      { rewrite Forall_forall in *. intros f Hi. apply Hsl. apply (Permutation_in f (Permutation_sym HP)), Hi. }
      rewrite (merge_form files imgs), (merge_form files' imgs') by assumption.
      assert (E : pixels h w (merged mode (length files) imgs) = pixels h w (merged mode (length files') imgs')).
      { unfold pixels. apply map_ext. intros y. apply map_ext. intros x. unfold merged.
        rewrite (sum_at_perm _ _ y x HPi), (Permutation_length HP). reflexivity. }
      rewrite E. reflexivity.
    - right.
      assert (G : forall fl e', add_raw_files cwd fl h w (full h w 0%R) s = ([], Raise e') ->
        fails_cleanly (merge fl new h w mode) s).
      { intros fl e' E. unfold fails_cleanly, merge_rawfiles_to_fits. rewrite Eneg.
        destruct (negb _); [split; [reflexivity|eexists; reflexivity]|].
        unfold io_bind. rewrite E. split; [reflexivity|eexists; reflexivity]. }
      split; [eapply G; exact Ea|].
      destruct (add_raw_cases h w s files' (full h w 0%R)) as [(a' & Ea' & Hf')|[e' Ea']];
        [|eapply G; exact Ea'].
      exfalso.
      assert (HF : exists imgs, Forall2 (raw_holds s h w) files imgs).
      { assert (Hf : Forall (fun f => exists c, ends_in_slash f = false /\ s (key cwd f) = Some (File c) /\
                                  2 * (h * w) <= Z.of_nat (length c)) files).
        { rewrite Forall_forall in *. intros f Hi. apply Hf'. apply (Permutation_in f HP), Hi. }
        clear - Hf Hh Hw. induction Hf as [|f l (c & Hs & Es & Hl) Hf IH]; [exists []; constructor|].
        destruct IH as [imgs IH]. destruct (u2_ok h w c Hh Hw) as (img & _ & Hi); [unfold zlen; lia|].
        exists (img :: imgs). constructor; [exists c; auto|exact IH]. }
      destruct HF as [imgs HF].
      assert (Hsl : Forall (fun f => ends_in_slash f = false) files).
      { rewrite Forall_forall in *. intros f Hi. destruct (Hf' f (Permutation_in f HP Hi)) as (c & Hs & _). exact Hs. }
      destruct (add_raw_ok h w s Hh Hw files imgs (full h w 0%R) eq_refl eq_refl Hsl HF) as (a & Ea2 & _).
      rewrite Ea in Ea2. discriminate.
  Qed.
End Merge.
