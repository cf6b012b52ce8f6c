(** Averaging 12-bit files (convert_set). *)
From Coq Require Import String Ascii Lia ZifyBool Reals Lra Permutation.
From Verif Require Import Base.Base Base.BaseFacts Model.Paths Model.Codec Model.Fs
  Spec.CodecSpec Spec.FsSpec Spec.Terminates Proofs.PathFacts Proofs.CodecFacts Proofs.BinaryFacts
  Proofs.FsFacts Proofs.FsProps Proofs.FsMerge Proofs.FsSave.
Local Open Scope string_scope.
Local Open Scope list_scope.
Local Open Scope Z_scope.
Ltac Zify.zify_post_hook ::= idtac.

Lemma ends_in_nul_dec l : ends_in_nul l \/ ~ ends_in_nul l.
Proof.
  destruct (rev l) as [|a r] eqn:E.
  - right. intros [l' ->]. rewrite rev_app_distr in E. discriminate.
  - assert (El : l = rev r ++ [a]) by (rewrite <- (rev_involutive l), E; reflexivity).
    destruct (Z.eq_dec a 0) as [->|Ha]; [left; exists (rev r); exact El|].
    right. intros [l' E']. rewrite El in E'. apply app_inj_tail in E'. destruct E' as [_ E']. contradiction.
Qed.

Lemma dark_frame_chunk n : (32 <= n)%nat -> ends_in_nul (chunk (repeat 0 n) (length (repeat 0 n) / 32) 0).
Proof.
  intros Hn. rewrite chunk_0, repeat_length.
  assert (Hc : (0 < n / 32)%nat) by (apply Nat.div_str_pos; lia).
  destruct (n / 32)%nat as [|c] eqn:Ec; [lia|].
  assert (Hle : (S c <= n)%nat) by (rewrite <- Ec; apply Nat.div_le_upper_bound; lia).
  exists (repeat 0 c). clear - Hle. replace n with (S c + (n - S c))%nat by lia.
  rewrite repeat_app, firstn_app, repeat_length, Nat.sub_diag, firstn_all2 by (rewrite repeat_length; lia).
  cbn [firstn]. rewrite app_nil_r. replace (S c) with (c + 1)%nat by lia. rewrite repeat_app. reflexivity.
Qed.
Lemma dark_frame_witness s : s "/dark.bin" = Some (File dark_frame) ->
  frame_file "/" s "/dark.bin" /\ nul_chunk_file "/" s "/dark.bin".
Proof.
  intros Hs. assert (E : s (key "/" "/dark.bin") = Some (File dark_frame)) by exact Hs.
  assert (G : Z.of_nat (Z.to_nat (1952 * 1952 * 3 / 2)) = 1952 * 1952 * 3 / 2) by (apply Z2Nat.id; discriminate).
  unfold dark_frame in E. revert E G. generalize (Z.to_nat (1952 * 1952 * 3 / 2)). intros n E G.
  split.
  - exists (repeat 0 n). split; [exact E|]. split; [|rewrite repeat_length; exact G].
    apply Forall_forall. intros x Hx. apply repeat_spec in Hx. subst x. unfold is_byte. lia.
  - exists (repeat 0 n), 0%nat. split; [exact E|]. split; [lia|]. apply dark_frame_chunk.
    change (1952 * 1952 * 3 / 2) with 5715456 in G. lia.
Qed.

Section Set_.
  Variable cwd : string.
  Hypothesis Hcwd : is_abs cwd = true.
  Variable fits_f8 : list (list R) -> bytes.
  Variable schedules : nat -> list nat.
  Hypothesis Hsch : forall i, complete_schedule 32 (schedules i).

  Lemma add_bin_ok s n : n <> 0%R -> forall files imgs i a0,
    rows a0 = 1952 -> cols a0 = 1952 ->
    Forall (fun f => ends_in_slash f = false) files ->
    Forall2 (bin_holds cwd s) files imgs ->
    exists a, add_bin_files cwd files schedules i n a0 s = ([], Ok a) /\ rows a = 1952 /\ cols a = 1952 /\
      forall y x, 0 <= y < 1952 -> 0 <= x < 1952 -> (cell a y x = cell a0 y x + sum_at imgs y x / n)%R.
  Proof.
    intros Hn. induction files as [|f files IH]; intros imgs i a0 Hr Hc Hsl HF;
      inversion HF as [|? img ? imgs' Hh HF']; subst.
    - exists a0. repeat split; auto. intros. unfold sum_at. cbn [map fold_right]. unfold Rdiv. rewrite Rmult_0_l. lra.
    - inversion Hsl as [|? ? Hf Hsl']; subst. destruct Hh as (c & Es & Hb & Hl & Hnul & _ & _ & V).
      cbn [add_bin_files].
      rewrite (io_bind_ok _ _ s c) by (unfold read_file; rewrite Es, Hf; reflexivity).
      pose proof (c45_good c (schedules i) Hb (Hsch i) Hl Hnul) as E.
      match type of E with _ = Ok ?d => set (data := d) in * end.
      rewrite (io_bind_ok _ _ s data) by (unfold io_lift; rewrite E; reflexivity).
      rewrite Hr, Hc. change (rows data) with 1952. change (cols data) with 1952. rewrite Z.eqb_refl. cbn [andb].
      destruct (IH imgs' (S i) (amap2 (fun a d => (a + IZR d / n)%R) a0 data)) as (a & Ea & Ra & Ca & Va);
        try assumption.
      exists a. split; [exact Ea|split; [exact Ra|split; [exact Ca|]]].
      intros y x Hy Hx. rewrite Va by assumption. cbn [cell amap2].
      unfold sum_at. cbn [map fold_right]. rewrite V by assumption. unfold data. cbn [cell]. field. exact Hn.
  Qed.

  Definition mean_image (imgs : list (arr Z)) (y x : Z) : R := (sum_at imgs y x / INR (length imgs))%R.

  Lemma key_abspath p : key cwd (abspath cwd p) = key cwd p.
  Proof. change (abspath cwd p) with (key cwd p). apply key_idem, Hcwd. Qed.

  Lemma set_form files imgs new s :
    files <> [] -> Forall (fun f => ends_in_slash f = false) files ->
    Forall2 (bin_holds cwd s) files imgs ->
    convert_set cwd fits_f8 files new 1952 1952 schedules s =
      (if negb (String.eqb (last_piece (abspath cwd new)) "fits") then ([], Raise ValueError)
       else fits_writeto cwd (abspath cwd new) (fits_f8 (pixels 1952 1952 (merged "average" (length files) imgs))) s).
  Proof.
    intros Hne Hsl HF. unfold convert_set. destruct (negb _); [reflexivity|].
    change ((1952 <? 0) || (1952 <? 0)) with false. cbv iota.
    assert (Hn : IZR (Z.of_nat (length files)) <> 0%R).
    { apply not_0_IZR. destruct files; [congruence|]. cbn [length]. lia. }
    destruct (add_bin_ok s (IZR (Z.of_nat (length files))) Hn files imgs 0%nat (full 1952 1952 0%R) eq_refl eq_refl Hsl HF)
      as (a & Ea & Ra & Ca & Va).
    rewrite (io_bind_ok _ _ s a) by exact Ea.
    assert (El : to_list a = pixels 1952 1952 (merged "average" (length files) imgs)).
    { unfold merged, pixels, to_list. cbn [String.eqb]. rewrite Ra, Ca.
      apply map_ext_in. intros y Hy. apply map_ext_in. intros x Hx. apply in_zrange in Hy, Hx.
      rewrite Va by assumption. unfold full. cbn [cell].
      change (String.eqb "average" "average") with true. cbv iota. rewrite <- INR_IZR_INZ. apply Rplus_0_l. }
    rewrite El. reflexivity.
  Qed.

  Lemma c76_written files imgs new s :
    files <> [] -> Forall (fun f => ends_in_slash f = false) files ->
    Forall2 (bin_holds cwd s) files imgs ->
    outcome (convert_set cwd fits_f8 files new 1952 1952 schedules) s = Ok tt ->
    after (convert_set cwd fits_f8 files new 1952 1952 schedules) s (abspath cwd new) =
      Some (File (fits_f8 (pixels 1952 1952 (merged "average" (length files) imgs)))).
  Proof.
    intros Hne Hsl HF Hok. unfold outcome, after in *.
    rewrite (set_form files imgs new s Hne Hsl HF) in *. destruct (negb _); [discriminate|].
    match type of Hok with context [fits_writeto cwd ?q ?c s] =>
      destruct (fits_writeto_cases cwd q c s) as [[e E]|(pre & E & _)] end;
      rewrite E in *; [discriminate|].
    cbn [fst]. rewrite key_abspath, run_app. unfold key. apply run_write.
  Qed.

  Lemma add_bin_cases s n : forall files i a0,
    (exists a, add_bin_files cwd files schedules i n a0 s = ([], Ok a)) \/
    (exists r, add_bin_files cwd files schedules i n a0 s = ([], r) /\ forall a, r <> Ok a).
  Proof.
    induction files as [|f files IH]; intros i a0; [left; eexists; reflexivity|]. cbn [add_bin_files].
    assert (Hrd : (exists c, read_file cwd f s = ([], Ok c)) \/ (exists e, read_file cwd f s = ([], Raise e))).
    { unfold read_file. destruct (s (key cwd f)) as [[c|]|]; [|right; eexists; reflexivity..].
      destruct (ends_in_slash f); [right|left]; eexists; reflexivity. }
    destruct Hrd as [[c Er]|[e Er]].
    2:{ right. exists (Raise e). split; [apply io_bind_raise, Er|discriminate]. }
    rewrite (io_bind_ok _ _ _ _ Er).
    destruct (nparr_from_binary c (schedules i)) as [d|e|] eqn:En.
    - rewrite (io_bind_ok _ _ s d) by reflexivity.
      destruct ((rows a0 =? rows d) && (cols a0 =? cols d)); [apply IH|].
      right. exists (Raise ValueError). split; [reflexivity|discriminate].
    - right. exists (Raise e). split; [apply io_bind_raise; reflexivity|discriminate].
    - right. exists NoFuel. split; [reflexivity|discriminate].
  Qed.

  Lemma c76_others files new h w s s' p :
    crash (convert_set cwd fits_f8 files new h w schedules) s s' -> p <> abspath cwd new -> s' p = s p.
  Proof.
    intros (pre & post & E & ->) Hp.
    assert (Ht : Forall (fun e => target e = abspath cwd new) (fst (convert_set cwd fits_f8 files new h w schedules s))).
    { unfold convert_set. destruct (negb _); [constructor|].
      destruct ((h <? 0) || (w <? 0)); [constructor|].
      destruct (add_bin_cases s (IZR (Z.of_nat (length files))) files 0%nat (full h w 0%R)) as [[a Ea]|(r & Er & Hr)].
      - rewrite (io_bind_ok _ _ s a) by exact Ea.
        match goal with |- context [fits_writeto cwd ?q ?c s] =>
          destruct (fits_writeto_cases cwd q c s) as [[e E']|(pr & E' & Hpr)]; rewrite E' end; [constructor|].
        cbn [fst]. rewrite key_abspath in *. apply Forall_app. split; [exact Hpr|apply write_targets].
      - unfold io_bind. rewrite Er. destruct r as [a|e|]; [exfalso; apply (Hr a); reflexivity|constructor..]. }
    apply run_other. eapply targets_other; [exact Hp|]. eapply Forall_prefix; [exact Ht|exact E].
  Qed.
  (** A chunk that ends in NUL in any of the files *)
  Lemma add_bin_nul s n : forall files i a0, rows a0 = 1952 -> cols a0 = 1952 ->
    Forall (fun f => ends_in_slash f = false) files -> Forall (frame_file cwd s) files ->
    Exists (nul_chunk_file cwd s) files ->
    exists e, add_bin_files cwd files schedules i n a0 s = ([], Raise e).
  Proof.
    induction files as [|f files IH]; intros i a0 Hr Hc Hsl HF HE; [inversion HE|].
    inversion Hsl as [|? ? Hf Hsl']; subst. inversion HF as [|? ? Hh HF']; subst.
    destruct Hh as (c & Es & Hb & Hl). cbn [add_bin_files].
    rewrite (io_bind_ok _ _ s c) by (unfold read_file; rewrite Es, Hf; reflexivity).
    assert (Hdec : (exists k, (k < 32)%nat /\ ends_in_nul (chunk c (length c / 32) k)) \/
                   forall k, (k < 32)%nat -> ~ ends_in_nul (chunk c (length c / 32) k)).
    { clear - c. generalize (length c / 32)%nat as size. intros size. induction (32)%nat as [|m [(k & Hk & Hn)|IH]].
      - right. intros k Hk. lia.
      - left. exists k. split; [lia|exact Hn].
      - destruct (ends_in_nul_dec (chunk c size m)) as [Hy|Hn]; [left; exists m; split; [lia|exact Hy]|].
        right. intros k Hk. destruct (Nat.eq_dec k m) as [->|]; [exact Hn|]. apply IH. lia. }
    destruct Hdec as [(k & Hk & Hn)|Hg].
    - destruct (c45_nul c (schedules i) k Hb (Hsch i) Hl Hk Hn) as [e E].
      exists e. apply io_bind_raise. unfold io_lift. rewrite E. reflexivity.
    - pose proof (c45_good c (schedules i) Hb (Hsch i) Hl Hg) as E.
      match type of E with _ = Ok ?d => set (data := d) in * end.
      rewrite (io_bind_ok _ _ s data) by (unfold io_lift; rewrite E; reflexivity).
      rewrite Hr, Hc. change (rows data) with 1952. change (cols data) with 1952. rewrite Z.eqb_refl. cbn [andb].
      apply IH; try assumption.
      inversion HE as [? ? Hx|? ? Hx]; subst; [|exact Hx]. exfalso.
      destruct Hx as (c' & k & Es' & Hk & Hn). rewrite Es in Es'. injection Es' as <-. exact (Hg k Hk Hn).
  Qed.

  Lemma c76_nul files new s :
    Forall (fun f => ends_in_slash f = false) files -> Forall (frame_file cwd s) files ->
    Exists (nul_chunk_file cwd s) files ->
    fails_cleanly (convert_set cwd fits_f8 files new 1952 1952 schedules) s.
  Proof.
    intros Hsl HF HE. unfold fails_cleanly, convert_set. destruct (negb _); [split; [reflexivity|eexists; reflexivity]|].
    change ((1952 <? 0) || (1952 <? 0)) with false. cbv iota.
    destruct (add_bin_nul s (IZR (Z.of_nat (length files))) files 0%nat (full 1952 1952 0%R) eq_refl eq_refl Hsl HF HE)
      as [e E].
    rewrite (io_bind_raise _ _ s _ e E). split; [reflexivity|eexists; reflexivity].
  Qed.
End Set_.

Lemma c76_perm cwd fits_f8 sch1 sch2 files files' imgs new s : is_abs cwd = true ->
  (forall i, complete_schedule 32 (sch1 i)) -> (forall i, complete_schedule 32 (sch2 i)) ->
  files <> [] -> Forall (fun f => ends_in_slash f = false) files ->
  Forall2 (bin_holds cwd s) files imgs -> Permutation files files' ->
  convert_set cwd fits_f8 files new 1952 1952 sch1 s = convert_set cwd fits_f8 files' new 1952 1952 sch2 s.
Proof.
  intros Hcwd H1 H2 Hne Hsl HF HP. destruct (Forall2_perm _ _ _ HP _ HF) as (imgs' & HPi & HF').
  rewrite (set_form cwd fits_f8 sch1 H1 files imgs), (set_form cwd fits_f8 sch2 H2 files' imgs'); try assumption.
  - assert (E : pixels 1952 1952 (merged "average" (length files) imgs) =
                pixels 1952 1952 (merged "average" (length files') imgs')).
    { unfold pixels. apply map_ext. intros y. apply map_ext. intros x. unfold merged.
      rewrite (sum_at_perm _ _ y x HPi), (Permutation_length HP). reflexivity. }
    rewrite E. reflexivity.
  - intros ->. apply Permutation_sym, Permutation_nil in HP. congruence.
  - rewrite Forall_forall in *. intros f Hi. apply Hsl. apply (Permutation_in f (Permutation_sym HP)), Hi.
Qed.

(** An invalid suffix in save_single_pol_images: the directory is there afterwards. *)
Lemma c54_single_refuted pol :
  (forall id, In id ["0"; "45"; "90"; "-45"] -> exists b, pol id = Ok b) ->
  let s : fs := fun p => if String.eqb p "/" then Some Dir else None in
  s "/out" = None /\
  outcome (save_single_pol_images "/" pol "/out/a.txt") s = Raise ValueError /\
  after (save_single_pol_images "/" pol "/out/a.txt") s "/out" = Some Dir.
Proof.
  intros Hpol s. split; [reflexivity|].
  destruct (Hpol "0") as [b0 E0]; [cbn; auto|]. destruct (Hpol "45") as [b1 E1]; [cbn; auto|].
  destruct (Hpol "90") as [b2 E2]; [cbn; auto|]. destruct (Hpol "-45") as [b3 E3]; [cbn; auto 6|].
  unfold outcome, after, save_single_pol_images.
  assert (El : eval_all pol single_pol_ids = Ok [("0", b0); ("45", b1); ("90", b2); ("-45", b3)])
    by (unfold single_pol_ids; cbn [eval_all]; rewrite E0, E1, E2, E3; reflexivity).
  rewrite El. split; reflexivity.
Qed.
Lemma c54_param_refuted content :
  let s : fs := fun p => if String.eqb p "/" then Some Dir else None in
  s "/out" = None /\
  outcome (save_param_as_fits "/" content "/out/a.txt") s = Raise ValueError /\
  after (save_param_as_fits "/" content "/out/a.txt") s "/out" = Some Dir.
Proof. split; [reflexivity|]. split; reflexivity. Qed.

Lemma bin_holds_witness : exists c s,
  bin_holds "/" s "/a.bin" (mkarr 1952 1952 (fun y x => nth (Z.to_nat (1952 * y + x)) (decode12 c) 0)).
Proof.
  destruct c45_witness as (c & H1 & H2 & H3).
  exists c, (fun p => if String.eqb p "/a.bin" then Some (File c) else None), c.
  split; [reflexivity|split; [exact H1|split; [exact H2|split; [exact H3|]]]].
  split; [reflexivity|split; [reflexivity|]]. intros. reflexivity.
Qed.
