(** Proofs for C94. *)
From Coq Require Import String.
From Verif Require Import Base.Base Model.Paths Model.Fs Spec.FsSpec Spec.DirSpec.
Local Open Scope Z_scope.

Section Dirs.
  Variable cwd : string.

  Lemma upd_same s p v : upd s p v p = v.
  Proof. unfold upd. rewrite String.eqb_refl. reflexivity. Qed.

  Lemma mkdir_from_ok root rest done s :
    (forall n, (0 < n <= length rest)%nat -> no_file (found cwd s {| proot := root; pparts := done ++ firstn n rest |})) ->
    exists es, mkdir_from cwd root done rest s = (es, Ok tt) /\
      (forall k, run es s k = s k \/ run es s k = Some Dir) /\
      (rest <> [] -> found cwd (run es s) {| proot := root; pparts := done ++ rest |} = Some Dir).
  Proof.
    revert done s. induction rest as [|c rest IH]; intros done s Hn.
    - exists []. split; [reflexivity|]. split; [left; reflexivity|contradiction].
    - cbn [mkdir_from]. set (q := {| proot := root; pparts := done ++ [c] |}).
      assert (Hq : no_file (found cwd s q)) by (apply (Hn 1%nat); cbn [length]; lia).
      set (s1 := upd s (key cwd (ppath_str q)) (Some Dir)).
      assert (E1 : exists es1 s2, (fun s => if exists_ s (key cwd (ppath_str q))
                   then if is_dir s (key cwd (ppath_str q)) then ([], Ok tt) else ([], Raise OSError)
                   else ([EMkdir (key cwd (ppath_str q))], Ok tt)) s = (es1, Ok tt) /\ run es1 s = s2 /\
                   (forall k, s2 k = s k \/ s2 k = Some Dir) /\ found cwd s2 q = Some Dir).
      { unfold exists_, is_dir. unfold found in Hq. destruct Hq as [-> | Hq].
        - exists [EMkdir (key cwd (ppath_str q))], s1. split; [reflexivity|]. split; [reflexivity|]. split.
          + intro k. unfold s1, upd. destruct (String.eqb k _); [right|left]; reflexivity.
          + unfold found, s1. apply upd_same.
        - rewrite Hq. exists [], s. split; [reflexivity|]. split; [reflexivity|]. split; [left; reflexivity|exact Hq]. }
      destruct E1 as (es1 & s2 & E1 & R1 & K1 & F1). unfold io_bind. rewrite E1, R1.
      destruct (IH (done ++ [c]) s2) as (es2 & E2 & K2 & F2).
      { intros n Hn'. assert (A := Hn (S n)). cbn [firstn length] in A. rewrite <- app_assoc. cbn [app].
        specialize (A ltac:(lia)). unfold found in *.
        destruct (K1 (key cwd (ppath_str {| proot := root; pparts := done ++ c :: firstn n rest |}))) as [-> | ->];
          [exact A|right; reflexivity]. }
      rewrite E2. exists (es1 ++ es2). split; [reflexivity|].
      assert (Rr : run (es1 ++ es2) s = run es2 s2) by (unfold run in *; rewrite fold_left_app, R1; reflexivity).
      rewrite Rr. split.
      + intro k. destruct (K2 k) as [-> | ->]; [apply K1|right; reflexivity].
      + intros _. destruct rest as [|c' rest].
        * cbn [mkdir_from] in E2. injection E2 as <-. exact F1.
        * replace (done ++ c :: c' :: rest) with ((done ++ [c]) ++ c' :: rest) by (rewrite <- app_assoc; reflexivity).
          apply F2. discriminate.
  Qed.

  Lemma make_abs_unfold name s :
    make_abs_and_create_dir cwd name s =
      (let path := meant cwd name in
       if negb (String.eqb (psuffix path) "") then
         io_bind (fun s => if exists_ s (key cwd (ppath_str (pparent path))) then ([], Ok tt)
                           else mkdir_parents cwd (pparent path) s) (fun _ => io_ret path) s
       else
         io_bind (fun s => if exists_ s (key cwd (ppath_str path)) then ([], Ok tt) else mkdir cwd path s)
           (fun _ => io_ret path) s).
  Proof. unfold make_abs_and_create_dir, meant. destruct (negb _); reflexivity. Qed.

  Lemma suffix_true q : looks_like_file q -> negb (String.eqb (psuffix q) "") = true.
  Proof. intro Hq. unfold looks_like_file in Hq. apply negb_true_iff. apply String.eqb_neq. exact Hq. Qed.
  Lemma suffix_false q : ~ looks_like_file q -> negb (String.eqb (psuffix q) "") = false.
  Proof.
    intro Hq. unfold looks_like_file in Hq. destruct (String.eqb_spec (psuffix q) ""); [reflexivity|contradiction].
  Qed.

  Lemma file_folder name s :
    looks_like_file (meant cwd name) ->
    (forall d, on_the_way (pparent (meant cwd name)) d -> no_file (found cwd s d)) ->
    found cwd s {| proot := proot (meant cwd name); pparts := [] |} = Some Dir ->
    outcome (make_abs_and_create_dir cwd name) s = Ok (meant cwd name) /\
    found cwd (after (make_abs_and_create_dir cwd name) s) (pparent (meant cwd name)) = Some Dir.
  Proof.
    intros Hf Hway Hroot. unfold outcome, after. rewrite make_abs_unfold. cbv zeta. rewrite (suffix_true _ Hf).
    set (q := pparent (meant cwd name)) in *. unfold io_bind.
    assert (Hq : no_file (found cwd s q)).
    { apply Hway. exists (length (pparts q)). rewrite firstn_all. destruct q; reflexivity. }
    unfold exists_. unfold found in Hq. destruct Hq as [Hq|Hq]; rewrite Hq.
    - unfold mkdir_parents. destruct (mkdir_from_ok (proot q) (pparts q) [] s) as (es & E & _ & F).
      { intros n _. cbn [app]. apply Hway. exists n. reflexivity. }
      rewrite E. cbn [io_ret fst snd]. rewrite app_nil_r. split; [reflexivity|].
      cbn [app] in F. assert (Eq : {| proot := proot q; pparts := pparts q |} = q) by (destruct q; reflexivity).
      rewrite Eq in F. apply F. intro En. unfold found in Hroot.
      assert (Er : {| proot := proot (meant cwd name); pparts := [] |} = q)
        by (rewrite <- Eq, En; unfold q, pparent; reflexivity).
      rewrite Er in Hroot. congruence.
    - cbn [io_ret fst snd app]. split; [reflexivity|]. unfold run. cbn [fold_left]. exact Hq.
  Qed.

  Lemma plain_folder name s :
    ~ looks_like_file (meant cwd name) ->
    (found cwd s (meant cwd name) <> None ->
     outcome (make_abs_and_create_dir cwd name) s = Ok (meant cwd name) /\ after (make_abs_and_create_dir cwd name) s = s) /\
    (found cwd s (meant cwd name) = None -> found cwd s (pparent (meant cwd name)) = Some Dir ->
     outcome (make_abs_and_create_dir cwd name) s = Ok (meant cwd name) /\
     found cwd (after (make_abs_and_create_dir cwd name) s) (meant cwd name) = Some Dir) /\
    (found cwd s (meant cwd name) = None -> found cwd s (pparent (meant cwd name)) <> Some Dir ->
     fails_cleanly (make_abs_and_create_dir cwd name) s).
  Proof.
    intro Hf. unfold outcome, after, fails_cleanly. rewrite make_abs_unfold. cbv zeta. rewrite (suffix_false _ Hf).
    set (q := meant cwd name) in *. unfold io_bind, exists_, found, mkdir, is_dir, exists_. split; [|split].
    - intro Hq. destruct (s (key cwd (ppath_str q))); [|contradiction]. split; reflexivity.
    - intros Hq Hp. rewrite Hq, Hp. cbn [negb fst snd io_ret]. split; [reflexivity|]. cbn [app]. unfold run. cbn [fold_left apply].
      apply upd_same.
    - intros Hq Hp. rewrite Hq. destruct (s (key cwd (ppath_str (pparent q)))) as [[c|]|]; try contradiction;
        cbn [negb]; (split; [reflexivity|exists FileNotFoundError; reflexivity]).
  Qed.

  Lemma dotted_folder name s :
    looks_like_file (meant cwd name) -> found cwd s (pparent (meant cwd name)) <> None ->
    outcome (make_abs_and_create_dir cwd name) s = Ok (meant cwd name) /\
    after (make_abs_and_create_dir cwd name) s = s.
  Proof.
    intros Hf Hp. unfold outcome, after. rewrite make_abs_unfold. cbv zeta. rewrite (suffix_true _ Hf).
    unfold io_bind, exists_. unfold found in Hp. destruct (s (key cwd (ppath_str (pparent (meant cwd name))))); [|contradiction].
    split; reflexivity.
  Qed.
End Dirs.
