(** Loading files. *)
From Coq Require Import Reals Lra String Ascii Permutation.
From Verif Require Import Base.Base Base.BaseFacts Base.Num Base.Bcast Model.Keywords Model.Paths Model.FileInit
  Spec.KeywordSpec Spec.FsSpec Spec.CleanSpec Spec.FilesSpec Proofs.PathFacts Proofs.KeywordFacts Proofs.CleanFacts.
Local Open Scope string_scope.
Local Open Scope Z_scope.
Local Arguments ascii_dec : simpl never.

(** ** Dates *)

Lemma upto_dot_split s p : upto_dot s p -> hd "" (split_on dot s) = p.
Proof.
  intros (Hp & [-> |(rest & ->)]).
  - rewrite split_none by exact Hp. reflexivity.
  - change "."%char with dot. rewrite split_sep, split_none by exact Hp. reflexivity.
Qed.
Lemma hget_absent {A} (h : header A) k : absent h k -> hget h k = Raise KeyError.
Proof.
  induction h as [|[k' v'] h IH]; intros Ha; [reflexivity|]. cbn [hget]. destruct (String.eqb_spec k' k) as [->|Hne].
  - exfalso. apply (Ha v'). constructor.
  - apply IH. intros v Hv. apply (Ha v). constructor; assumption.
Qed.
Lemma absent_hset {A} (h : header A) k v k1 : k1 <> k -> absent h k1 -> absent (hset h k v) k1.
Proof.
  intros Hne Ha u Hu. apply (Ha u). clear Ha. induction h as [|[k' v'] h IH]; cbn [hset] in Hu.
  - inversion Hu; subst; [congruence|assumption].
  - destruct (String.eqb_spec k' k) as [->|]; inversion Hu; subst; try congruence; constructor; auto.
Qed.

Lemma date_of_ok {A} (rd : reader A) h t : dated rd h t -> date_of rd h = Ok t.
Proof.
  intros Hd. unfold date_of. destruct Hd as [Ha|d p t Hk Hu Hi|d p c q t Hk Hu Hi Hc Hq Ht].
  - rewrite (hget_absent _ _ Ha). reflexivity.
  - rewrite (hget_keyword _ _ _ Hk). cbn [hsplit_dot bind]. rewrite (upto_dot_split _ _ Hu), Hi. reflexivity.
  - rewrite (hget_keyword _ _ _ Hk). cbn [hsplit_dot bind hstr]. rewrite (upto_dot_split _ _ Hu), Hi.
    rewrite (hget_keyword _ _ _ Hc). cbn [hsplit_dot bind]. rewrite (upto_dot_split _ _ Hq), Ht. reflexivity.
Qed.

(** ** Sorting *)

Lemma insertZ_in v l u : In u (insertZ v l) <-> u = v \/ In u l.
Proof.
  induction l as [|w l IH]; cbn; [intuition congruence|]. destruct (v <=? w); cbn; [intuition congruence|]. rewrite IH. tauto.
Qed.
Lemma sortedZ_in l u : In u (sortedZ l) <-> In u l.
Proof. induction l as [|v l IH]; cbn; [tauto|]. rewrite insertZ_in, IH. intuition congruence. Qed.

Fixpoint ascending (l : list Z) : Prop :=
  match l with [] => True | v :: l => (forall u, In u l -> v <= u) /\ ascending l end.
Lemma insertZ_ascending v l : ascending l -> ascending (insertZ v l).
Proof.
  induction l as [|w l IH]; cbn; [intros _; split; [intros u []|exact I]|]. intros (Hw & Hl). destruct (Z.leb_spec v w).
  - cbn. split; [|split; assumption]. intros u [<-|Hu]; [assumption|]. specialize (Hw u Hu). lia.
  - cbn. split; [|apply IH; exact Hl]. intros u Hu. apply insertZ_in in Hu as [->|Hu]; [lia|exact (Hw u Hu)].
Qed.
Lemma sortedZ_ascending l : ascending (sortedZ l).
Proof. induction l as [|v l IH]; [exact I|]. apply insertZ_ascending. exact IH. Qed.
Lemma ascending_last d l : ascending (d :: l) -> In (last l d) (d :: l) /\ forall u, In u (d :: l) -> u <= last l d.
Proof.
  revert d. induction l as [|w l IH]; intros d (Hd & Hl).
  - cbn. split; [tauto|]. intros u [->|[]]. lia.
  - destruct (IH w Hl) as (Hin & Hle).
    assert (E : last (w :: l) d = last l w).
    { clear. revert w d. induction l as [|x l IH]; intros w d; [reflexivity|]. change (last (w :: x :: l) d) with (last (x :: l) d).
      rewrite !IH. reflexivity. }
    rewrite E. split; [right; exact Hin|]. intros u [<-|Hu]; [|apply Hle; exact Hu].
    specialize (Hd w (or_introl eq_refl)). specialize (Hle w (or_introl eq_refl)). lia.
Qed.

(** ** The loop *)

Lemma raw_no names : ~ In ".raw" names -> existsb (String.eqb ".raw") names = false.
Proof.
  intros Hn. destruct (existsb (String.eqb ".raw") names) eqn:E; [|reflexivity]. exfalso. apply Hn.
  apply existsb_exists in E as (x & Hx & Ex). apply String.eqb_eq in Ex. subst x. exact Hx.
Qed.

Section Files.
  Context {A : Type} `{Num A} (rd : reader A).
  Variables (all : list string) (HH WW : Z) (content : string -> arr A) (head : string -> header A) (time : string -> option Z).
  Hypothesis (Hs : series rd all HH WW content head time).

  Lemma bmap2_same (f : A -> A -> A) a b : rows a = HH -> cols a = WW -> rows b = HH -> cols b = WW ->
    exists c, bmap2 f a b = Ok c /\ rows c = HH /\ cols c = WW /\
      forall y x, 0 <= y < HH -> 0 <= x < WW -> cell c y x = f (cell a y x) (cell b y x).
  Proof.
    intros Ra Ca Rb Cb. unfold bmap2, bdim. rewrite Ra, Ca, Rb, Cb, !Z.eqb_refl. eexists. split; [reflexivity|].
    split; [reflexivity|]. split; [reflexivity|]. intros y x Hy Hx. cbn [cell]. unfold bcell. rewrite Ra, Ca, Rb, Cb.
    destruct (Z.eqb_spec HH 1), (Z.eqb_spec WW 1); repeat first [replace 0 with y by lia; reflexivity | f_equal; lia | f_equal]; lia.
  Qed.

  Lemma rest_of_ok d names c0 dates : incl names all -> rows c0 = HH -> cols c0 = WW ->
    exists c, rest_of rd all d names c0 dates = Ok (c, dates ++ map time names)%list /\ rows c = HH /\ cols c = WW /\
      forall y x, 0 <= y < HH -> 0 <= x < WW ->
        cell c y x = fold_left (fun acc name => acc +! (cell (content name) y x /! nofZ d)) names (cell c0 y x).
  Proof.
    revert c0 dates. induction names as [|name names IH]; intros c0 dates Hin R0 C0.
    - exists c0. cbn. rewrite app_nil_r. repeat split; assumption.
    - cbn [rest_of]. destruct Hs as (Hraw & Hf). rewrite (raw_no _ Hraw).
      destruct (Hf name) as (Eo & Rc & Cc & Hd); [apply Hin; left; reflexivity|]. rewrite Eo. cbn [bind fst snd].
      destruct (bmap2_same nadd c0 (amap (fun v => v /! nofZ d) (content name))) as (c1 & E1 & R1 & C1 & V1); try assumption.
      rewrite E1. cbn [bind]. rewrite (date_of_ok rd _ _ Hd). cbn [bind].
      destruct (IH c1 (dates ++ [time name])%list) as (c & E & Rr & Cr & V); [intros x Hx; apply Hin; right; exact Hx|assumption|assumption|].
      exists c. rewrite E, <- app_assoc. split; [reflexivity|]. split; [exact Rr|]. split; [exact Cr|].
      intros y x Hy Hx. rewrite V, V1 by assumption. reflexivity.
  Qed.

  Definition known (l : list (option Z)) : list Z := flat_map (fun d => match d with Some t => [t] | None => [] end) l.
  Lemma known_in names t : In t (known (map time names)) <-> exists name, In name names /\ time name = Some t.
  Proof.
    unfold known. rewrite in_flat_map. split.
    - intros (d & Hd & Ht). apply in_map_iff in Hd as (name & <- & Hn). exists name. split; [exact Hn|].
      destruct (time name) as [u|]; [|contradiction]. destruct Ht as [->|[]]. reflexivity.
    - intros (name & Hn & Et). exists (time name). split; [apply in_map; exact Hn|]. rewrite Et. left. reflexivity.
  Qed.

  Lemma combine_ok first rest (avg : bool) : all = first :: rest ->
    let k := if avg then Z.of_nat (length all) else 1 in
    exists c, combine_files rd all avg =
        Ok (c, hset (hset (head first) "NAXIS1" (HInt WW)) "NAXIS2" (HInt HH), known (map time all)) /\
      rows c = HH /\ cols c = WW /\
      forall y x, 0 <= y < HH -> 0 <= x < WW ->
        cell c y x = fold_left (fun acc name => acc +! (cell (content name) y x /! nofZ k)) rest (cell (content first) y x /! nofZ k).
  Proof.
    intros Ea k. destruct (Hs) as (Hraw & Hf).
    destruct (Hf first) as (Eo & Rc & Cc & Hd); [rewrite Ea; left; reflexivity|].
    assert (Ek : 1 + (if avg then 1 else 0) * (Z.of_nat (length all) - 1) = k) by (unfold k; destruct avg; lia).
    destruct (rest_of_ok k rest (amap (fun v => v /! nofZ k) (content first)) [time first]) as (c & E & Rr & Cr & V);
      [intros x Hx; rewrite Ea; right; exact Hx|exact Rc|exact Cc|].
    exists c. split; [|split; [exact Rr|split; [exact Cr|]]].
    - unfold combine_files. rewrite Ea at 1. rewrite (raw_no _ Hraw), Ek, Eo. cbn [bind fst snd].
      rewrite (date_of_ok rd _ _ Hd). cbn [bind]. rewrite E. cbn [bind]. rewrite Rr, Cr. rewrite Ea. reflexivity.
    - intros y x Hy Hx. rewrite V by assumption. reflexivity.
  Qed.

  Lemma list_ok first second rest (avg : bool) : all = first :: second :: rest ->
    let k := if avg then Z.of_nat (length all) else 1 in
    exists im, image_from_list rd all avg = Ok im /\ rows (l_data im) = HH /\ cols (l_data im) = WW /\
      (forall y x, 0 <= y < HH -> 0 <= x < WW ->
        cell (l_data im) y x = fold_left (fun acc name => acc +! (cell (content name) y x /! nofZ k)) (second :: rest)
                                 (cell (content first) y x /! nofZ k)) /\
      l_header im = summed_header rd (Z.of_nat (length all))
         (hset (hset (head first) "NAXIS1" (HInt WW)) "NAXIS2" (HInt HH)) (known (map time all)) /\
      l_filename im = sum_name first.
  Proof.
    intros Ea k. destruct (combine_ok first (second :: rest) avg Ea) as (c & E & Rr & Cr & V).
    eexists. split.
    - unfold image_from_list. rewrite E. cbn [bind]. rewrite Ea at 1. reflexivity.
    - cbn [l_data l_header l_filename]. split; [exact Rr|]. split; [exact Cr|]. split; [exact V|]. split; reflexivity.
  Qed.

  (** *** The header *)
  Lemma summed_sumof n h ds : keyword (summed_header rd n h ds) "SUMOF" (HInt n).
  Proof.
    unfold summed_header. destruct (sortedZ ds); [apply hset_same|].
    apply hset_other; [discriminate|]. apply hset_other; [discriminate|]. apply hset_same.
  Qed.
  Lemma summed_other n h ds k v : ~ In k ["SUMOF"; "STRT-OBS"; "END-OBS"] -> keyword h k v -> keyword (summed_header rd n h ds) k v.
  Proof.
    intros Hk Hv. cbn in Hk. unfold summed_header. destruct (sortedZ ds); [apply hset_other; [intuition congruence|exact Hv]|].
    repeat (apply hset_other; [intuition congruence|]). exact Hv.
  Qed.
  Lemma summed_none n h k v : k <> "SUMOF" -> keyword h k v -> keyword (summed_header rd n h []) k v.
  Proof. intros Hk Hv. apply hset_other; assumption. Qed.
  Lemma summed_start n h names t : earliest names time t ->
    keyword (summed_header rd n h (known (map time names))) "STRT-OBS" (HStr (show_date rd t)).
  Proof.
    intros (Hin & Hle). set (ds := known (map time names)). unfold summed_header.
    assert (Ht : In t (sortedZ ds)) by (apply sortedZ_in, known_in; exact Hin).
    pose proof (sortedZ_ascending ds) as Ha. destruct (sortedZ ds) as [|d l] eqn:E; [contradiction|].
    assert (d = t).
    { destruct Ha as (Hd & _). assert (Hdin : In d (sortedZ ds)) by (rewrite E; left; reflexivity).
      apply sortedZ_in, known_in in Hdin as (name & Hn & Et). specialize (Hle name d Hn Et).
      destruct Ht as [->|Ht]; [reflexivity|]. specialize (Hd t Ht). lia. }
    subst d. apply hset_other; [discriminate|]. apply hset_same.
  Qed.
  Lemma summed_end n h names t : latest names time t ->
    keyword (summed_header rd n h (known (map time names))) "END-OBS" (HStr (show_date rd t)).
  Proof.
    intros (Hin & Hle). set (ds := known (map time names)). unfold summed_header.
    assert (Ht : In t (sortedZ ds)) by (apply sortedZ_in, known_in; exact Hin).
    pose proof (sortedZ_ascending ds) as Ha. destruct (sortedZ ds) as [|d l] eqn:E; [contradiction|].
    destruct (ascending_last d l Ha) as (Hl & Hu). rewrite <- E in Hl, Hu.
    assert (El : last l d = t).
    { apply sortedZ_in, known_in in Hl as (name & Hn & Et). specialize (Hle name _ Hn Et). rewrite <- E in Ht. specialize (Hu t Ht). lia. }
    rewrite <- El. apply hset_same.
  Qed.
End Files.

(** ** Statements *)

Lemma fold_div (l : list string) (f : string -> R) k a :
  (fold_left (fun acc name => acc + f name / k) l a = a + total (map f l) / k)%R.
Proof.
  revert a. induction l as [|n l IH]; intros a; cbn [fold_left map]; [unfold total; cbn; lra|].
  rewrite IH, total_cons. lra.
Qed.

Lemma c51_data (rd : reader R) names (avg : bool) ht wd content head time :
  series rd names ht wd content head time -> (2 <= length names)%nat ->
  exists im, image_from_list rd names avg = Ok im /\ rows (l_data im) = ht /\ cols (l_data im) = wd /\
    forall y x, 0 <= y < ht -> 0 <= x < wd ->
      cell (l_data im) y x = (let s := total (map (fun name => cell (content name) y x) names) in
                              if avg then s / INR (length names) else s)%R.
Proof.
  intros Hs Hn. destruct names as [|first [|second rest]] eqn:E; [cbn in Hn; lia|cbn in Hn; lia|]. rewrite <- E in *.
  destruct (list_ok rd names ht wd content head time Hs first second rest avg E) as (im & Ei & R1 & C1 & V & _).
  exists im. split; [exact Ei|]. split; [exact R1|]. split; [exact C1|]. intros y x Hy Hx. rewrite (V y x Hy Hx).
  cbn [nadd ndiv nofZ Num_R]. rewrite (fold_div (second :: rest) (fun name => cell (content name) y x)).
  assert (T : (total (map (fun name => cell (content name) y x) names) =
    cell (content first) y x + total (map (fun name => cell (content name) y x) (second :: rest)))%R) by (rewrite E; reflexivity).
  cbv zeta. rewrite T. destruct avg; [rewrite INR_IZR_INZ|]; lra.
Qed.

Lemma c51_header {A} `{Num A} (rd : reader A) first second rest (avg : bool) ht wd content head time :
  let names := first :: second :: rest in
  series rd names ht wd content head time ->
  exists im, image_from_list rd names avg = Ok im /\
    keyword (l_header im) "SUMOF" (HInt (Z.of_nat (length names))) /\
    keyword (l_header im) "NAXIS1" (HInt wd) /\ keyword (l_header im) "NAXIS2" (HInt ht) /\
    (forall t, earliest names time t -> keyword (l_header im) "STRT-OBS" (HStr (show_date rd t))) /\
    (forall t, latest names time t -> keyword (l_header im) "END-OBS" (HStr (show_date rd t))) /\
    (forall k v, ~ In k ["NAXIS1"; "NAXIS2"; "SUMOF"; "STRT-OBS"; "END-OBS"] -> keyword (head first) k v ->
       keyword (l_header im) k v) /\
    ((forall name, In name names -> time name = None) -> forall k v, In k ["STRT-OBS"; "END-OBS"] ->
       keyword (head first) k v -> keyword (l_header im) k v).
Proof.
  intros names Hs. destruct (list_ok rd names ht wd content head time Hs first second rest avg eq_refl) as (im & Ei & _ & _ & _ & Eh & _).
  exists im. split; [exact Ei|]. rewrite Eh. split; [apply summed_sumof|].
  split; [apply summed_other; [cbn; intuition discriminate|]; apply hset_other; [discriminate|]; apply hset_same|].
  split; [apply summed_other; [cbn; intuition discriminate|]; apply hset_same|].
  split; [intros t; apply summed_start|]. split; [intros t; apply summed_end|]. split.
  - intros k v Hk Hv. cbn in Hk. apply summed_other; [cbn; intuition congruence|].
    apply hset_other; [intuition congruence|]. apply hset_other; [intuition congruence|]. exact Hv.
  - intros Hnone k v Hk Hv.
    assert (E : known (map time names) = []).
    { unfold known. clear - Hnone. induction names as [|n l IH]; [reflexivity|]. cbn. rewrite (Hnone n) by (left; reflexivity).
      apply IH. intros m Hm. apply Hnone. right. exact Hm. }
    rewrite E. cbn in Hk. apply summed_none; [intuition congruence|].
    apply hset_other; [intuition congruence|]. apply hset_other; [intuition congruence|]. exact Hv.
Qed.

Lemma total_perm l l' : Permutation l l' -> total l = total l'.
Proof. intros Hp. induction Hp as [|v l l' _ IH|v w l|l l' l'' _ IH1 _ IH2]; rewrite ?total_cons; lra. Qed.

Lemma series_perm {A} (rd : reader A) names names' ht wd content head time :
  Permutation names names' -> series rd names ht wd content head time -> series rd names' ht wd content head time.
Proof.
  intros Hp (Hraw & Hf). split.
  - intros Hr. apply Hraw. apply (Permutation_in _ (Permutation_sym Hp)). exact Hr.
  - intros name Hn. apply Hf. apply (Permutation_in _ (Permutation_sym Hp)). exact Hn.
Qed.

Lemma c51_order (rd : reader R) names names' (avg : bool) ht wd content head time :
  series rd names ht wd content head time -> (2 <= length names)%nat -> Permutation names names' ->
  exists im im', image_from_list rd names avg = Ok im /\ image_from_list rd names' avg = Ok im' /\ l_data im =a= l_data im'.
Proof.
  intros Hs Hn Hp. pose proof (Permutation_length Hp) as Hl.
  destruct (c51_data rd names avg ht wd content head time Hs Hn) as (im & E & R1 & C1 & V).
  destruct (c51_data rd names' avg ht wd content head time (series_perm _ _ _ _ _ _ _ _ Hp Hs)) as (im' & E' & R1' & C1' & V'); [lia|].
  exists im, im'. split; [exact E|]. split; [exact E'|]. split; [congruence|]. split; [congruence|].
  intros y x Hy Hx. rewrite V, V' by lia. cbv zeta. rewrite Hl.
  rewrite (total_perm _ _ (Permutation_map (fun name => cell (content name) y x) Hp)). reflexivity.
Qed.

(** One file. *)
Lemma c52_list {A} `{Num A} (rd : reader A) name (avg : bool) ht wd content head time :
  series rd [name] ht wd content head time ->
  exists im, image_from_list rd [name] avg = Ok im /\ l_filename im = name /\
    rows (l_data im) = ht /\ cols (l_data im) = wd /\
    (forall y x, 0 <= y < ht -> 0 <= x < wd -> cell (l_data im) y x = cell (content name) y x /! nofZ 1) /\
    (forall k v, ~ In k ["NAXIS1"; "NAXIS2"] -> keyword (head name) k v -> keyword (l_header im) k v).
Proof.
  intros Hs. destruct (combine_ok rd [name] ht wd content head time Hs name [] avg eq_refl) as (c & E & R1 & C1 & V).
  eexists. split; [unfold image_from_list; rewrite E; reflexivity|]. cbn [l_filename l_data l_header]. split; [reflexivity|].
  split; [exact R1|]. split; [exact C1|]. split.
  - intros y x Hy Hx. rewrite V by assumption. cbn. destruct avg; reflexivity.
  - intros k v Hk Hv. cbn in Hk. apply hset_other; [intuition congruence|]. apply hset_other; [intuition congruence|]. exact Hv.
Qed.
Lemma c52_name {A} `{Num A} (rd : reader A) a name (avg : bool) ht wd content head time :
  series rd [String a name] ht wd content head time ->
  exists im, image_from_name rd (String a name) avg = Ok im /\ l_filename im = String a "".
Proof.
  intros Hs. destruct (combine_ok rd [String a name] ht wd content head time Hs (String a name) [] avg eq_refl) as (c & E & _).
  eexists. split; [unfold image_from_name; rewrite E; reflexivity|]. reflexivity.
Qed.

Lemma sum_name_dir d b : no_char "/" b -> sum_name (d ++ String "/" b) = d ++ "/SUM_" ++ b.
Proof.
  intros Hb. unfold sum_name.
  assert (E : split_on slash (d ++ String "/" b) = (split_on slash d ++ [b])%list) by (change "/"%char with slash; rewrite split_sep, (split_none _ b) by exact Hb; reflexivity).
  rewrite E, removelast_last, last_last, join_snoc by apply split_nonempty.
  change "/" with (String slash ""). rewrite join_split. reflexivity.
Qed.
Lemma sum_name_plain b : no_char "/" b -> sum_name b = "SUM_" ++ b.
Proof. intros Hb. unfold sum_name. rewrite split_none by exact Hb. reflexivity. Qed.

(** No file of a list whose date is in neither format can be loaded. *)
Lemma c51_undated {A} `{Num A} (rd : reader A) name a h d p (avg : bool) : name <> ".raw" -> fits_open rd name = Ok (a, h) ->
  keyword h "DATE-OBS" (HStr d) -> upto_dot d p -> strptime_iso rd p = None -> absent h "TIME-OBS" ->
  image_from_list rd [name] avg = Raise KeyError /\ image_from_name rd name avg = Raise KeyError.
Proof.
  intros Hr Eo Hd Hp Hi Ht.
  assert (E : combine_files rd [name] avg = Raise KeyError).
  { unfold combine_files. rewrite raw_no by (intros [Ex|[]]; congruence). rewrite Eo. cbn [bind fst snd].
    unfold date_of. rewrite (hget_keyword _ _ _ Hd). cbn [hsplit_dot bind hstr]. rewrite (upto_dot_split _ _ Hp), Hi.
    rewrite (hget_absent _ _ Ht). reflexivity. }
  unfold image_from_list, image_from_name. rewrite E. split; reflexivity.
Qed.

Lemma c51_empty {A} `{Num A} (rd : reader A) avg : image_from_list rd [] avg = Raise NameError.
Proof. reflexivity. Qed.

Lemma c52_sum {A} `{Num A} (rd : reader A) first second rest (avg : bool) ht wd content head time :
  series rd (first :: second :: rest) ht wd content head time ->
  exists im, image_from_list rd (first :: second :: rest) avg = Ok im /\
    (no_char "/" first -> l_filename im = "SUM_" ++ first) /\
    forall d b, first = d ++ String "/" b -> no_char "/" b -> l_filename im = d ++ "/SUM_" ++ b.
Proof.
  intros Hs. destruct (list_ok rd _ ht wd content head time Hs first second rest avg eq_refl) as (im & Ei & _ & _ & _ & _ & Ef).
  exists im. split; [exact Ei|]. rewrite Ef. split; [apply sum_name_plain|]. intros d b -> Hb. apply sum_name_dir. exact Hb.
Qed.
