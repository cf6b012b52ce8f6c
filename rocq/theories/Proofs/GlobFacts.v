(** glob and the folders of Demodulators. *)
From Coq Require Import String Ascii Lia Permutation.
From Verif Require Import Base.Base Base.BaseFacts Base.Num Model.Demodulate Model.DemodLoad Model.DemodCov Model.Glob
  Spec.LoadSpec Spec.GlobSpec Proofs.LoadFacts.
Local Open Scope list_scope.

Lemma plain_no_magic s : plain_name s -> has_magic s = false.
Proof.
  induction s as [|c s IH]; cbn; [reflexivity|]. intros ((H1 & H2 & H3) & Hs).
  rewrite (IH Hs). apply Ascii.eqb_neq in H1, H2, H3. rewrite H1, H2, H3. reflexivity.
Qed.

Lemma glob_plain {A} (t : tree A) p base : plain_path p -> glob_folders t base p = [base ++ p].
Proof.
  revert base. induction p as [|c p IH]; intros base Hp; cbn.
  - rewrite app_nil_r. reflexivity.
  - inversion Hp as [|c' p' Hc Hp']; subst. rewrite (plain_no_magic _ Hc), (IH _ Hp'), <- app_assoc. reflexivity.
Qed.

(** ** Matching *)
Definition lits (s : string) : list token := map Lit (list_ascii_of_string s).

Lemma tokens_lits s : plain_name s -> forall fuel, (String.length s <= fuel)%nat -> tokens fuel s = lits s.
Proof.
  induction s as [|c s IH]; intros Hs fuel Hf.
  - destruct fuel; reflexivity.
  - destruct fuel as [|fuel]; cbn in Hf; [lia|]. cbn in Hs. destruct Hs as ((H1 & H2 & H3) & Hs).
    cbn. apply Ascii.eqb_neq in H1, H2, H3. rewrite H1, H2, H3, IH by (assumption || lia). reflexivity.
Qed.

Lemma tokens_app s r : plain_name s -> forall fuel, (String.length (s ++ r) <= fuel)%nat ->
  tokens fuel (s ++ r) = lits s ++ tokens (fuel - String.length s) r.
Proof.
  induction s as [|c s IH]; intros Hs fuel Hf.
  - cbn. rewrite Nat.sub_0_r. reflexivity.
  - destruct fuel as [|fuel]; cbn in Hf; [lia|]. cbn in Hs. destruct Hs as ((H1 & H2 & H3) & Hs).
    cbn. apply Ascii.eqb_neq in H1, H2, H3. rewrite H1, H2, H3, IH by (assumption || lia). reflexivity.
Qed.

Lemma match_lits s ts name : token_match (lits s ++ ts) name = true <->
  exists r, name = (s ++ r)%string /\ token_match ts r = true.
Proof.
  revert name. induction s as [|c s IH]; intros name; cbn.
  - split; [eauto|]. intros (r & -> & H). assumption.
  - destruct name as [|d name].
    + split; [discriminate|]. intros (r & K & _). discriminate.
    + rewrite andb_true_iff, Ascii.eqb_eq. unfold lits in IH. rewrite IH. split.
      * intros (-> & r & -> & H). exists r. split; [reflexivity|assumption].
      * intros (r & K & H). injection K as -> ->. split; [reflexivity|]. exists r. split; [reflexivity|assumption].
Qed.

Lemma match_star ts name : token_match (Star :: ts) name = true <->
  exists a r, name = (a ++ r)%string /\ token_match ts r = true.
Proof.
  cbn. induction name as [|c name IH].
  - rewrite orb_false_r. split.
    + intros H. exists EmptyString, EmptyString. split; [reflexivity|assumption].
    + intros (a & r & K & H). destruct a; [|discriminate]. cbn in K. subst r. assumption.
  - rewrite orb_true_iff, IH. split.
    + intros [H|(a & r & -> & H)].
      * exists EmptyString, (String c name). split; [reflexivity|assumption].
      * exists (String c a), r. split; [reflexivity|assumption].
    + intros (a & r & K & H). destruct a as [|d a].
      * cbn in K. subst r. left; assumption.
      * cbn in K. injection K as -> ->. right. exists a, r. split; [reflexivity|assumption].
Qed.

Lemma fnmatch_plain s name : plain_name s -> fnmatch name s = true <-> name = s.
Proof.
  intros Hs. unfold fnmatch. rewrite (tokens_lits s Hs) by lia.
  rewrite <- (app_nil_r (lits s)), match_lits. cbn. split.
  - intros (r & -> & H). destruct r; [|discriminate]. induction s as [|c s IH]; cbn; [reflexivity|].
    cbn in Hs. rewrite IH; [reflexivity|tauto].
  - intros ->. exists EmptyString. split; [|reflexivity].
    clear Hs. induction s as [|c s IH]; cbn; [reflexivity|]. rewrite <- IH. reflexivity.
Qed.

Lemma append_nil_r s : (s ++ "")%string = s.
Proof. induction s as [|c s IH]; cbn; [reflexivity|]. rewrite IH. reflexivity. Qed.

Lemma fnmatch_fits name : fnmatch name "*.fits" = true <-> fits_name name.
Proof.
  unfold fnmatch. change (tokens (String.length "*.fits") "*.fits") with (Star :: lits ".fits" ++ []).
  rewrite match_star. unfold fits_name. split.
  - intros (a & r & -> & H). apply match_lits in H as (r' & -> & H). destruct r'; [|discriminate].
    exists a. reflexivity.
  - intros (stem & ->). exists stem, ".fits"%string. split; [reflexivity|]. apply match_lits.
    exists EmptyString. split; reflexivity.
Qed.

Lemma hidden_spec s : hidden s = false <-> not_hidden s.
Proof.
  unfold hidden, not_hidden. destruct s as [|c s].
  - split; [discriminate|reflexivity].
  - split.
    + intros H r K. injection K as -> _. discriminate.
    + intros H. destruct c as [[] [] [] [] [] [] [] []]; try reflexivity. destruct (H s eq_refl).
Qed.

(** ** Listing *)
Lemma path_eqb_spec p q : path_eqb p q = true <-> p = q.
Proof. unfold path_eqb. destruct (list_eq_dec string_dec p q); split; congruence. Qed.

Definition entry_of {A} (p : list string) (e : list string * entry A) : list (string * entry A) :=
  match fst e with
  | [] => []
  | c :: q => if path_eqb (removelast (fst e)) p then [(last (fst e) c, snd e)] else []
  end.
Lemma listdir_cons {A} e (t : tree A) p : listdir (e :: t) p = entry_of p e ++ listdir t p.
Proof. reflexivity. Qed.

Lemma entry_here {A} p name (e : entry A) : entry_of p (p ++ [name], e) = [(name, e)].
Proof.
  unfold entry_of. cbn [fst snd]. destruct (p ++ [name]) as [|c q] eqn:E.
  - apply app_eq_nil in E as (_ & K). discriminate.
  - rewrite <- E, removelast_last, last_last.
    destruct (path_eqb p p) eqn:F; [reflexivity|]. exfalso.
    assert (path_eqb p p = true) by (apply path_eqb_spec; reflexivity). congruence.
Qed.
Lemma entry_elsewhere {A} p q (e : entry A) : (forall name, q <> p ++ [name]) -> entry_of p (q, e) = [].
Proof.
  intros H. unfold entry_of. cbn [fst snd]. destruct q as [|c q]; [reflexivity|].
  destruct (path_eqb (removelast (c :: q)) p) eqn:E; [|reflexivity]. apply path_eqb_spec in E.
  destruct (H (last (c :: q) c)). rewrite <- E. apply app_removelast_last. discriminate.
Qed.
Lemma in_folder_or_not (p q : list string) : (exists name, q = p ++ [name]) \/ (forall name, q <> p ++ [name]).
Proof.
  destruct q as [|c q].
  - right. intros name K. symmetry in K. apply app_eq_nil in K as (_ & K). discriminate.
  - destruct (path_eqb (removelast (c :: q)) p) eqn:E.
    + left. apply path_eqb_spec in E. exists (last (c :: q) c). rewrite <- E. apply app_removelast_last. discriminate.
    + right. intros name K. rewrite K, removelast_last in E.
      assert (path_eqb p p = true) by (apply path_eqb_spec; reflexivity). congruence.
Qed.

Lemma listed {A} (keep : string -> bool) (P : string -> Prop) (t : tree A) p :
  (forall s, keep s = true <-> P s) ->
  files_of P p t (filter (fun e => keep (fst e)) (listdir t p)).
Proof.
  intros HP. induction t as [|[q e] t IH]; [apply no_files|].
  rewrite listdir_cons. destruct (in_folder_or_not p q) as [(name & ->)|Hq].
  - rewrite entry_here. cbn [app filter fst]. destruct (keep name) eqn:E.
    + apply a_file; [apply HP; assumption|exact IH].
    + apply not_a_file; [|exact IH]. intros n Hn K. apply app_inj_tail in K as (_ & K). subst n.
      apply HP in Hn. congruence.
  - rewrite entry_elsewhere by assumption. apply not_a_file; [|exact IH]. intros n _. apply Hq.
Qed.

Lemma files_of_unique {A} (P : string -> Prop) p (t : tree A) l l' : files_of P p t l -> files_of P p t l' -> l = l'.
Proof.
  intros H. revert l'. induction H as [|name e t l Hn H IH|q e t l Hq H IH]; intros l' H'.
  - inversion H'; reflexivity.
  - inversion H' as [|name' e' t' l1 Hn' H1 E1 E2|q e' t' l1 Hq H1 E1 E2]; subst.
    + apply app_inj_tail in E1 as (_ & ->). f_equal. apply IH; assumption.
    + destruct (Hq name Hn eq_refl).
  - inversion H' as [|name' e' t' l1 Hn' H1 E1 E2|q' e' t' l1 Hq' H1 E1 E2]; subst.
    + destruct (Hq name' Hn' eq_refl).
    + apply IH; assumption.
Qed.

Lemma wanted_spec s : ((hidden "*.fits" || negb (hidden s)) && fnmatch s "*.fits")%bool = true <-> fits_name s /\ not_hidden s.
Proof.
  change (hidden "*.fits") with false. rewrite orb_false_l, andb_true_iff, negb_true_iff, hidden_spec, fnmatch_fits. tauto.
Qed.

Lemma NoDup_app_iff_local {B} (l l' : list B) : NoDup l -> NoDup l' -> (forall b, In b l -> In b l' -> False) -> NoDup (l ++ l').
Proof.
  intros Hl Hl' Hd. induction Hl as [|b l Hb Hl IH]; cbn; [exact Hl'|]. constructor.
  - rewrite in_app_iff. intros [K|K]; [exact (Hb K)|]. exact (Hd b (or_introl eq_refl) K).
  - apply IH. intros b' K. apply Hd. right; exact K.
Qed.
Lemma NoDup_fst_functional {B C} (l : list (B * C)) b c c' : NoDup (map fst l) -> In (b, c) l -> In (b, c') l -> c = c'.
Proof.
  induction l as [|(b0 & c0) l IH]; [intros _ []|]. cbn [map fst]. intros Hnd H1 H2. inversion Hnd as [|x y Hx Hy]; subst.
  destruct H1 as [H1|H1]; destruct H2 as [H2|H2].
  - congruence.
  - injection H1 as -> ->. destruct Hx. apply (in_map fst) in H2. exact H2.
  - injection H2 as -> ->. destruct Hx. apply (in_map fst) in H1. exact H1.
  - exact (IH Hy H1 H2).
Qed.

Section Load.
  Context {A : Type} `{Num A}.

  (** A folder whose path has no special characters *)
  Lemma glob_in_plain (t : tree A) p l : plain_path p -> files_of (fun s => fits_name s /\ not_hidden s) p t l ->
    glob_files t p "*.fits" = l.
  Proof.
    intros Hp Hl. unfold glob_files. rewrite (glob_plain t p [] Hp). cbn [flat_map app]. rewrite app_nil_r.
    eapply files_of_unique; [|exact Hl]. unfold glob1.
    apply (listed (fun s => (hidden "*.fits" || negb (hidden s)) && fnmatch s "*.fits")%bool). apply wanted_spec.
  Qed.

  Lemma c111_plain (t : tree A) p l : plain_path p -> exists_path t p = true ->
    files_of (fun s => fits_name s /\ not_hidden s) p t l ->
    Demodulator t p = load (map opened l).
  Proof.
    intros Hp He Hl. unfold Demodulator. rewrite He. cbn [negb]. rewrite (glob_in_plain t p l Hp Hl). reflexivity.
  Qed.

  (** Nothing but the folder's files matters. *)
  Lemma c111_local (t t' : tree A) p l : plain_path p -> exists_path t p = true -> exists_path t' p = true ->
    files_of (fun s => fits_name s /\ not_hidden s) p t l -> files_of (fun s => fits_name s /\ not_hidden s) p t' l ->
    Demodulator t p = Demodulator t' p.
  Proof.
    intros Hp He He' Hl Hl'. rewrite (c111_plain t p l), (c111_plain t' p l) by assumption. reflexivity.
  Qed.

  (** ** A folder whose name ends in [c] *)
  Lemma bracket_magic s c : has_magic (bracketed s c) = true.
  Proof.
    unfold bracketed. induction s as [|d s IH]; [reflexivity|]. cbn. rewrite IH, !orb_true_r. reflexivity.
  Qed.

  Lemma bracket_tokens c r : c <> "!"%char -> c <> "]"%char -> bracket (String c (String "]" r)) = Some (false, String c "", r).
  Proof.
    intros H1 H2. destruct c as [[] [] [] [] [] [] [] []]; try reflexivity; congruence.
  Qed.

  Lemma in_class_one c d : in_class [(c, c)] d = true <-> d = c.
  Proof.
    cbn. rewrite orb_false_r, andb_true_iff. unfold ascii_le. rewrite !N.leb_le. split.
    - intros (H1 & H2). assert (N_of_ascii d = N_of_ascii c) as E by lia.
      rewrite <- (ascii_N_embedding d), <- (ascii_N_embedding c), E. reflexivity.
    - intros ->. lia.
  Qed.

  Lemma append_length a b : String.length (a ++ b) = (String.length a + String.length b)%nat.
  Proof. induction a as [|c a IH]; cbn; [reflexivity|]. rewrite IH. reflexivity. Qed.

  Lemma fnmatch_bracketed s c name : plain_name s -> c <> "!"%char -> c <> "]"%char ->
    fnmatch name (bracketed s c) = true <-> name = unbracketed s c.
  Proof.
    intros Hs H1 H2. unfold fnmatch, bracketed. rewrite tokens_app by (assumption || lia).
    rewrite append_length. replace (_ + _ - _)%nat with 3%nat by (cbn; lia).
    assert (T : tokens 3 (String "[" (String c "]")) = [Class false [(c, c)]]).
    { cbn [tokens]. change (Ascii.eqb "[" "*") with false. change (Ascii.eqb "[" "?") with false.
      change (Ascii.eqb "[" "[") with true. cbn iota. rewrite bracket_tokens by assumption. reflexivity. }
    rewrite T, match_lits. unfold unbracketed. split.
    - intros (r & -> & H'). cbn in H'. destruct r as [|d r]; [discriminate|].
      apply andb_true_iff in H' as (Hc & Hr). destruct r; [|discriminate].
      assert (d = c) by (apply in_class_one; destruct (in_class [(c, c)] d) eqn:E; [reflexivity|cbn in E; rewrite E in Hc; discriminate]).
      subst d. reflexivity.
    - intros ->. exists (String c ""). split; [reflexivity|]. cbn [token_match].
      assert (in_class [(c, c)] c = true) as -> by (apply in_class_one; reflexivity). reflexivity.
  Qed.

  Lemma glob1_bracketed (l : list (string * entry A)) s c : plain_name s -> c <> "!"%char -> c <> "]"%char ->
    not_hidden (unbracketed s c) ->
    glob1 l (bracketed s c) = filter (fun e => String.eqb (fst e) (unbracketed s c)) l.
  Proof.
    intros Hs H1 H2 Hh. unfold glob1. induction l as [|e l IH]; [reflexivity|]. cbn [filter]. rewrite IH.
    destruct (String.eqb_spec (fst e) (unbracketed s c)) as [E|E].
    - assert (F : fnmatch (fst e) (bracketed s c) = true) by (apply fnmatch_bracketed; assumption).
      rewrite F, E. apply hidden_spec in Hh. rewrite Hh, orb_true_r. reflexivity.
    - assert (F : fnmatch (fst e) (bracketed s c) = false).
      { destruct (fnmatch (fst e) (bracketed s c)) eqn:F; [|reflexivity].
        apply fnmatch_bracketed in F; [congruence|assumption..]. }
      rewrite F, andb_false_r. reflexivity.
  Qed.

  (** The folders named [p/s c] that exist *)
  Definition twins (t : tree A) (p : list string) (s : string) (c : ascii) : list (string * entry A) :=
    filter (fun e => is_folder (snd e)) (filter (fun e => String.eqb (fst e) (unbracketed s c)) (listdir t p)).

  Lemma glob_bracketed (t : tree A) p s c : plain_path p -> plain_name s -> c <> "!"%char -> c <> "]"%char ->
    not_hidden (unbracketed s c) ->
    glob_folders t [] (p ++ [bracketed s c]) = map (fun e => p ++ [fst e]) (twins t p s c).
  Proof.
    intros Hp Hs H1 H2 Hh.
    assert (G : forall base, glob_folders t base (p ++ [bracketed s c]) = map (fun e => (base ++ p) ++ [fst e]) (twins t (base ++ p) s c)).
    { induction p as [|d p IH]; intros base.
      - cbn [app glob_folders]. rewrite bracket_magic, app_nil_r, glob1_bracketed by assumption.
        unfold twins. induction (filter _ (filter _ _)) as [|e l IHl]; cbn; [reflexivity|]. rewrite IHl. reflexivity.
      - inversion Hp as [|d' p' Hd Hp']; subst. cbn [app glob_folders]. rewrite (plain_no_magic _ Hd).
        rewrite (IH Hp'). replace ((base ++ [d]) ++ p) with (base ++ d :: p) by (rewrite <- app_assoc; reflexivity). reflexivity. }
    apply G.
  Qed.

  Lemma listdir_in (t : tree A) p name e : In (name, e) (listdir t p) <-> In (p ++ [name], e) t.
  Proof.
    induction t as [|[q e'] t IH]; [reflexivity|]. rewrite listdir_cons, in_app_iff, IH. cbn [In].
    destruct (in_folder_or_not p q) as [(n & ->)|Hq].
    - rewrite entry_here. cbn [In]. split.
      + intros [[K|[]]|K]; [injection K as -> ->; left; reflexivity|right; assumption].
      + intros [K|K]; [|right; assumption]. injection K as K ->. apply app_inj_tail in K as (_ & ->).
        left; left; reflexivity.
    - rewrite entry_elsewhere by assumption. cbn [In]. split.
      + intros [[]|K]; right; assumption.
      + intros [K|K]; [|right; assumption]. injection K as -> ->. destruct (Hq name eq_refl).
  Qed.

  Lemma filter_none {B} (f : B -> bool) l : (forall b, In b l -> f b = false) -> filter f l = [].
  Proof.
    induction l as [|b l IH]; intros Hl; cbn; [reflexivity|]. rewrite (Hl b (or_introl eq_refl)).
    apply IH. intros b' Hb'. apply Hl. right; assumption.
  Qed.

  Lemma twins_none (t : tree A) p s c : ~ In (p ++ [unbracketed s c], Folder) t -> twins t p s c = [].
  Proof.
    intros Hn. unfold twins. apply filter_none. intros [n e] Hin. apply filter_In in Hin as (Hin & E).
    cbn in *. apply String.eqb_eq in E. subst n. apply listdir_in in Hin. destruct e; [|reflexivity].
    destruct (Hn Hin).
  Qed.

  Lemma twins_one (t : tree A) p s c : no_twice t -> In (p ++ [unbracketed s c], Folder) t ->
    twins t p s c = [(unbracketed s c, Folder)].
  Proof.
    unfold no_twice, twins. induction t as [|[q e] t IH]; [intros _ []|].
    intros Hnd Hin. inversion Hnd as [|q' l' Hq Hnd']; subst. rewrite listdir_cons, !filter_app.
    destruct Hin as [K|Hin].
    - injection K as -> ->. rewrite entry_here. cbn [filter fst]. rewrite String.eqb_refl. cbn [filter snd is_folder app].
      f_equal. change (twins t p s c = []). apply twins_none. intros Hin. apply Hq.
      apply (in_map fst) in Hin. exact Hin.
    - rewrite IH by assumption. destruct (in_folder_or_not p q) as [(n & ->)|Hq'].
      + rewrite entry_here. cbn [filter fst]. destruct (String.eqb_spec n (unbracketed s c)) as [->|E]; [|reflexivity].
        exfalso. apply Hq. apply (in_map fst) in Hin. exact Hin.
      + rewrite entry_elsewhere by assumption. reflexivity.
  Qed.

  (** The Demodulator of folder [p/s[c]] is read from folder [p/sc]. *)
  Lemma c111_other (t : tree A) p s c l : no_twice t -> plain_path p -> plain_name s -> c <> "!"%char -> c <> "]"%char ->
    not_hidden (unbracketed s c) ->
    exists_path t (p ++ [bracketed s c]) = true -> In (p ++ [unbracketed s c], Folder) t ->
    files_of (fun s => fits_name s /\ not_hidden s) (p ++ [unbracketed s c]) t l ->
    Demodulator t (p ++ [bracketed s c]) = load (map opened l).
  Proof.
    intros Ht Hp Hs H1 H2 Hh He Hin Hl. unfold Demodulator. rewrite He. cbn [negb].
    unfold glob_files. rewrite glob_bracketed by assumption. rewrite twins_one by assumption.
    cbn [map flat_map fst]. rewrite app_nil_r. f_equal. f_equal.
    eapply files_of_unique; [|exact Hl]. unfold glob1.
    apply (listed (fun s => (hidden "*.fits" || negb (hidden s)) && fnmatch s "*.fits")%bool). apply wanted_spec.
  Qed.

  (** Without that folder it is not found. *)
  Lemma c111_not_found (t : tree A) p s c : plain_path p -> plain_name s -> c <> "!"%char -> c <> "]"%char ->
    not_hidden (unbracketed s c) -> ~ In (p ++ [unbracketed s c], Folder) t ->
    Demodulator t (p ++ [bracketed s c]) = Raise FileNotFoundError.
  Proof.
    intros Hp Hs H1 H2 Hh Hn. unfold Demodulator. destruct (exists_path t (p ++ [bracketed s c])); [|reflexivity].
    cbn [negb]. unfold glob_files. rewrite glob_bracketed by assumption. rewrite twins_none by assumption. reflexivity.
  Qed.

  (** ** Calibrations in folders *)
  Lemma files_of_in (P : string -> Prop) p (t : tree A) l : files_of P p t l ->
    forall name e, In (name, e) l <-> P name /\ In (p ++ [name], e) t.
  Proof.
    intros Hl. induction Hl as [|n e' t l Hn Hl IH|q e' t l Hq Hl IH]; intros name e.
    - cbn. tauto.
    - cbn [In]. rewrite IH. split.
      + intros [K|(K1 & K2)]; [injection K as -> ->; auto|auto].
      + intros (K1 & [K2|K2]); [|auto]. injection K2 as K2 ->. apply app_inj_tail in K2 as (_ & ->). auto.
    - cbn [In]. rewrite IH. split.
      + intros (K1 & K2); auto.
      + intros (K1 & [K2|K2]); [|auto]. injection K2 as -> ->. destruct (Hq name K1 eq_refl).
  Qed.
  Lemma files_of_once (P : string -> Prop) p (t : tree A) l : files_of P p t l -> no_twice t -> NoDup (map fst l).
  Proof.
    unfold no_twice. intros Hl. induction Hl as [|n e' t l Hn Hl IH|q e' t l Hq Hl IH]; intros Hnd; cbn [map fst] in *.
    - constructor.
    - inversion Hnd as [|x y Hx Hy]; subst. constructor; [|apply IH; assumption].
      intros Hin. apply in_map_iff in Hin as ((n' & e) & E & Hin). cbn in E. subst n'.
      apply (files_of_in _ _ _ _ Hl) in Hin as (_ & Hin). apply Hx. apply (in_map fst) in Hin. exact Hin.
    - inversion Hnd; subst. apply IH; assumption.
  Qed.

  Lemma written_wanted (c : calibration A) name f : In (name, f) (written_files c) -> fits_name name /\ not_hidden name.
  Proof.
    intros Hin. apply (in_map fst) in Hin. rewrite (written_names_eq c) in Hin.
    cbn in Hin.
    repeat (destruct Hin as [<-|Hin]; [split; [|intros r K; discriminate]|]); try contradiction.
    all: first [exists "M00"%string; reflexivity|exists "M01"%string; reflexivity|exists "M02"%string; reflexivity
      |exists "M03"%string; reflexivity|exists "M10"%string; reflexivity|exists "M11"%string; reflexivity
      |exists "M12"%string; reflexivity|exists "M13"%string; reflexivity|exists "M20"%string; reflexivity
      |exists "M21"%string; reflexivity|exists "M22"%string; reflexivity|exists "M23"%string; reflexivity
      |exists "transmittancies"%string; reflexivity|exists "efficiences"%string; reflexivity
      |exists "phases"%string; reflexivity|exists "fit_found_flag"%string; reflexivity].
  Qed.

  Lemma map_fst_opened (l : list (string * entry A)) : map fst (map opened l) = map fst l.
  Proof. rewrite map_map. reflexivity. Qed.

  Lemma load_holds (t : tree A) p c l : no_twice t -> holds t p c ->
    files_of (fun s => fits_name s /\ not_hidden s) p t l ->
    exists d, load (map opened l) = Ok d /\ same_tensor (mij d) (k_m c) /\ fit_found_flags d = Some (k_found c).
  Proof.
    intros Ht [_ Hf Ho] Hl.
    set (known := fun e : string * fits_file A => existsb (fun w => String.eqb (fst w) (fst e)) (written_files c)).
    assert (Hk : forall n f, known (n, f) = true <-> exists g, In (n, g) (written_files c)).
    { intros n f. unfold known. rewrite existsb_exists. split.
      - intros ((n' & g) & Hin & E). cbn in E. apply String.eqb_eq in E. subst n'. exists g; exact Hin.
      - intros (g & Hin). exists (n, g). split; [exact Hin|]. apply String.eqb_refl. }
    assert (Hnd : NoDup (map fst (map opened l))).
    { rewrite map_fst_opened. eapply files_of_once; eassumption. }
    assert (Hw : forall n f, In (n, f) (written_files c) -> In (n, f) (map opened l)).
    { intros n f Hin. apply in_map_iff. exists (n, File f). split; [reflexivity|].
      apply (files_of_in _ _ _ _ Hl). split; [eapply written_wanted; eassumption|apply Hf; exact Hin]. }
    apply (c27_roundtrip c (filter (fun e => negb (known e)) (map opened l))).
    - apply NoDup_Permutation.
      + eapply NoDup_map_inv; exact Hnd.
      + apply NoDup_app_iff_local.
        * eapply NoDup_map_inv. apply written_names_NoDup.
        * apply NoDup_filter. eapply NoDup_map_inv; exact Hnd.
        * intros (n & f) H1 H2. apply filter_In in H2 as (_ & H2).
          assert (known (n, f) = true) as E by (apply Hk; eauto). rewrite E in H2. discriminate.
      + intros (n & f). rewrite in_app_iff, filter_In. split.
        * intros Hin. destruct (known (n, f)) eqn:E; [left|right; auto].
          apply Hk in E as (g & Hg). pose proof (Hw _ _ Hg) as Hg'.
          enough (f = g) as -> by exact Hg. eapply NoDup_fst_functional; eassumption.
        * intros [Hin|(Hin & _)]; auto.
    - exact Hnd.
    - intros n f Hin. apply filter_In in Hin as (Hin & E).
      apply in_map_iff in Hin as ((n' & e) & K & Hin). unfold opened in K. cbn in K. injection K as -> Ke.
      apply (files_of_in _ _ _ _ Hl) in Hin as ((H1 & H2) & Hin).
      intros q i j Hij. destruct (two_digits n) as [(i', j')|] eqn:D.
      + apply two_digits_spec in D. destruct (Ho _ _ _ _ Hin H1 H2 D) as (g & Hg).
        assert (known (n, f) = true) as E' by (apply Hk; eauto). rewrite E' in E. discriminate.
      + apply two_digits_none in D. exact (D q i j Hij).
  Qed.

  Lemma exists_folder (t : tree A) p c : holds t p c -> exists_path t p = true.
  Proof.
    intros [(_ & Hin) _ _]. unfold exists_path. destruct p as [|x p]; [reflexivity|].
    apply existsb_exists. exists (x :: p, Folder). split; [exact Hin|]. apply path_eqb_spec. reflexivity.
  Qed.

  Lemma c111_found (t : tree A) p c : no_twice t -> plain_path p -> holds t p c ->
    exists d, Demodulator t p = Ok d /\ same_tensor (mij d) (k_m c) /\ fit_found_flags d = Some (k_found c).
  Proof.
    intros Ht Hp Hc.
    pose proof (listed (fun s => (hidden "*.fits" || negb (hidden s)) && fnmatch s "*.fits")%bool _ t p wanted_spec) as Hl.
    rewrite (c111_plain _ _ _ Hp (exists_folder _ _ _ Hc) Hl). eapply load_holds; eassumption.
  Qed.

  Lemma c111_wrong (t : tree A) p s x c c' : no_twice t -> plain_path p -> plain_name s -> x <> "!"%char -> x <> "]"%char ->
    not_hidden (unbracketed s x) -> holds t (p ++ [bracketed s x]) c -> holds t (p ++ [unbracketed s x]) c' ->
    exists d, Demodulator t (p ++ [bracketed s x]) = Ok d /\ same_tensor (mij d) (k_m c') /\
      fit_found_flags d = Some (k_found c').
  Proof.
    intros Ht Hp Hs H1 H2 Hh Hc Hc'.
    pose proof (listed (fun s => (hidden "*.fits" || negb (hidden s)) && fnmatch s "*.fits")%bool _ t (p ++ [unbracketed s x]) wanted_spec) as Hl.
    rewrite (c111_other _ _ _ _ _ Ht Hp Hs H1 H2 Hh (exists_folder _ _ _ Hc) (proj2 (holds_folder _ _ _ Hc')) Hl).
    eapply load_holds; eassumption.
  Qed.
End Load.
