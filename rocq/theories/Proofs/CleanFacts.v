(** Thresholds, medians and outliers. *)
From Coq Require Import Reals Lra String Sorting.Sorted Permutation.
From Verif Require Import Base.Base Base.BaseFacts Base.Num Model.Demosaic Model.Histogram Model.Cleaning
  Spec.MosaicSpec Spec.HistSpec Spec.CleanSpec Proofs.HistFacts Proofs.DemosaicFacts.
Local Open Scope R_scope.

(** ** Sums *)

Lemma total_cons v l : total (v :: l) = v + total l.
Proof. reflexivity. Qed.
Lemma fold_plus l a : fold_left Rplus l a = a + total l.
Proof. revert a. induction l as [|v l IH]; intros a; [unfold total; cbn; lra|]. cbn [fold_left]. rewrite IH, total_cons. lra. Qed.
Lemma sum_total l : sum l = total l.
Proof. unfold sum. rewrite fold_plus. lra. Qed.
Lemma mean_average l : mean l = average l.
Proof. unfold mean, average. rewrite sum_total. reflexivity. Qed.
Lemma total_split (p : R -> bool) (f : R -> R) l :
  total (map f l) = total (map f (filter p l)) + total (map f (filter (fun v => negb (p v)) l)).
Proof.
  induction l as [|v l IH]; [unfold total; cbn; lra|]. cbn [map filter]. rewrite total_cons, IH.
  destruct (p v); cbn [negb map]; rewrite total_cons; lra.
Qed.
Lemma Rltb_Rleb u t : Rltb u t = negb (Rleb t u).
Proof. unfold Rltb, Rleb. destruct (Rlt_dec u t), (Rle_dec t u); try reflexivity; lra. Qed.

Lemma filter_ext_in {X} (p q : X -> bool) l : (forall v, In v l -> p v = q v) -> filter p l = filter q l.
Proof.
  induction l as [|v l IH]; intros He; [reflexivity|]. cbn. rewrite He by (left; reflexivity).
  rewrite IH; [reflexivity|]. intros u Hu. apply He. right. exact Hu.
Qed.

(** ** Otsu *)

Lemma contribution_ok l cls : l <> [] ->
  contribution l cls = total (map (fun v => (v - average (filter cls l)) * (v - average (filter cls l))) (filter cls l)) / INR (length l).
Proof.
  intros Hl. assert (0 < INR (length l)) by (apply lt_0_INR; destruct l; [contradiction|cbn; lia]).
  unfold contribution. set (c := filter cls l). destruct c as [|v c'] eqn:E.
  - cbn. lra.
  - rewrite <- E. unfold var. rewrite mean_average. unfold average at 1. rewrite map_length, mean_average.
    assert (0 < INR (length c)) by (apply lt_0_INR; rewrite E; cbn; lia). field. lra.
Qed.

Lemma otsu_within l t : l <> [] -> otsu_intraclass_variance l t = within t l.
Proof.
  intros Hl. unfold otsu_intraclass_variance, within. rewrite !contribution_ok by exact Hl.
  unfold average at 5. rewrite map_length.
  rewrite (total_split (fun v => Rleb t v) (fun v => (v - class_average t l v) * (v - class_average t l v)) l).
  rewrite <- Rdiv_plus_distr. f_equal. f_equal.
  - f_equal. apply map_ext_in. intros v Hv. apply filter_In in Hv as (_ & Hv).
    replace (class_average t l v) with (average (filter (fun u => Rleb t u) l)); [reflexivity|].
    unfold class_average. f_equal. apply filter_ext_in. intros u _. rewrite !Rltb_Rleb, Hv. destruct (Rleb t u); reflexivity.
  - rewrite (filter_ext_in (fun v => negb (Rleb t v)) (fun v => Rltb v t)) by (intros; symmetry; apply Rltb_Rleb).
    f_equal. apply map_ext_in. intros v Hv. apply filter_In in Hv as (_ & Hv).
    replace (class_average t l v) with (average (filter (fun u => Rltb u t) l)); [reflexivity|].
    unfold class_average. f_equal. apply filter_ext_in. intros u _. rewrite Hv. destruct (Rltb u t); reflexivity.
Qed.

Lemma min_by_ok key l best :
  In (min_by key best l) (best :: l) /\ forall v, In v (best :: l) -> key (min_by key best l) <= key v.
Proof.
  revert best. induction l as [|u l IH]; intros best; cbn [min_by].
  - split; [left; reflexivity|]. intros v [->|[]]. lra.
  - destruct (IH (if Rltb (key u) (key best) then u else best)) as (Hin & Hle).
    pose proof (Hle _ (or_introl eq_refl)) as Hb. split.
    + destruct Hin as [E|Hin]; [|right; right; exact Hin]. rewrite <- E.
      destruct (Rltb (key u) (key best)); [right; left; reflexivity|left; reflexivity].
    + intros v [<-|[<-|Hv]].
      * destruct (Rltb (key u) (key best)) eqn:E; [apply Rltb_true in E|]; lra.
      * rewrite Rltb_Rleb in Hb, Hin, Hle |- *. destruct (Rleb (key best) (key u)) eqn:E; cbn [negb] in *; [apply Rleb_true in E|]; lra.
      * apply Hle. right. exact Hv.
Qed.

Lemma linspace_in a b n t : In t (linspace a b n) <-> exists k, (0 <= k < n)%Z /\ t = a + IZR k * ((b - a) / IZR (n - 1)).
Proof.
  unfold linspace. rewrite in_map_iff. split.
  - intros (k & <- & Hk). apply in_zrange in Hk. exists k. split; [exact Hk|reflexivity].
  - intros (k & Hk & ->). exists k. split; [reflexivity|]. apply in_zrange. exact Hk.
Qed.

Lemma auto_threshold_ok F data a b : 
  let l := pixels (median_filter F data 10) in
  let n := Z.min (Z.of_nat (length l)) 1000 in
  let candidate k := a + 1 + IZR k * ((b - (a + 1)) / IZR (n - 1)) in
  is_min a l -> is_max b l ->
  exists t k, auto_threshold F data = Ok t /\ (0 <= k < n)%Z /\ t = candidate k /\
    forall j, (0 <= j < n)%Z -> within t l <= within (candidate j) l.
Proof.
  intros l n candidate Ha Hb.
  assert (Hne : l <> []) by (intros E; rewrite E in Ha; destruct Ha as ([] & _)).
  assert (Hn : (0 < n)%Z) by (unfold n; clear - Hne; destruct l; [contradiction|cbn [length]; lia]).
  assert (E : auto_threshold F data = match linspace (a + 1) b n with
            | [] => Raise ValueError | t :: ts => Ok (min_by (otsu_intraclass_variance l) t ts) end).
  { unfold auto_threshold. unfold n. clear n candidate Hn. fold l. destruct l as [|v l']; [contradiction|].
    rewrite (min_unique _ _ _ (smallest_spec v l') Ha), (max_unique _ _ _ (largest_spec v l') Hb). reflexivity. }
  rewrite E. clear E.
  destruct (linspace (a + 1) b n) as [|t ts] eqn:Ec.
  - exfalso. assert (Hin : In (candidate 0%Z) (linspace (a + 1) b n)) by (apply linspace_in; exists 0%Z; split; [lia|reflexivity]).
    rewrite Ec in Hin. contradiction.
  - destruct (min_by_ok (otsu_intraclass_variance l) ts t) as (Hin & Hle). rewrite <- Ec in Hin, Hle.
    pose proof (proj1 (linspace_in _ _ _ _) Hin) as (k & Hk & Et).
    exists (min_by (otsu_intraclass_variance l) t ts), k. split; [reflexivity|]. split; [exact Hk|]. split; [exact Et|].
    intros j Hj. rewrite <- !otsu_within by exact Hne. apply Hle. apply linspace_in. exists j. split; [exact Hj|reflexivity].
Qed.

(** Candidates when the values span less than 1. *)
Lemma narrow_threshold F data a b :
  let l := pixels (median_filter F data 10) in
  is_min a l -> is_max b l -> b < a + 1 ->
  exists t, auto_threshold F data = Ok t /\ forall v, In v l -> v <= t.
Proof.
  intros l Ha Hb Hab. destruct (auto_threshold_ok F data a b Ha Hb) as (t & k & E & Hk & Et & _).
  exists t. split; [exact E|]. intros v Hv. destruct Hb as (_ & Hb). specialize (Hb v Hv).
  apply Rle_trans with b; [exact Hb|]. fold l in Hk, Et. set (n := Z.min (Z.of_nat (length l)) 1000) in *.
  rewrite Et. destruct (Z.eq_dec n 1) as [E1|].
  - replace k with 0%Z by lia. lra.
  - assert (H1 : 0 < IZR (n - 1)) by (apply (IZR_lt 0); lia).
    assert (Hkn : IZR k <= IZR (n - 1)) by (apply IZR_le; lia).
    assert (IZR k / IZR (n - 1) <= 1) by (apply Rle_div_l in Hkn || (apply Rmult_le_reg_r with (IZR (n - 1)); [exact H1|]; field_simplify; lra)).
    replace (IZR k * ((b - (a + 1)) / IZR (n - 1))) with ((IZR k / IZR (n - 1)) * (b - (a + 1))) by (field; lra). nra.
Qed.

Lemma auto_threshold_empty F data : pixels (median_filter F data 10) = [] -> auto_threshold F data = Raise ValueError.
Proof. intros E. unfold auto_threshold. rewrite E. reflexivity. Qed.

(** ** Medians *)

Lemma insert_perm v l : Permutation (v :: l) (insert_real v l).
Proof.
  induction l as [|u l IH]; cbn; [apply Permutation_refl|]. destruct (Rleb v u); [apply Permutation_refl|].
  apply perm_trans with (u :: v :: l); [apply perm_swap|apply perm_skip; exact IH].
Qed.
Lemma sort_perm l : Permutation l (sort_reals l).
Proof.
  induction l as [|v l IH]; cbn; [constructor|]. apply perm_trans with (v :: sort_reals l); [apply perm_skip; exact IH|apply insert_perm].
Qed.
Lemma insert_sorted v l : StronglySorted Rle l -> StronglySorted Rle (insert_real v l).
Proof.
  induction l as [|u l IH]; intros Hs; cbn; [repeat constructor|]. inversion Hs as [|u' l' Hl Hu]; subst.
  destruct (Rleb v u) eqn:E.
  - apply Rleb_true in E. constructor; [exact Hs|]. constructor; [exact E|].
    apply Forall_forall. intros w Hw. pose proof (proj1 (Forall_forall _ _) Hu w Hw). lra.
  - constructor; [apply IH; exact Hl|]. apply Forall_forall. intros w Hw.
    apply (Permutation_in w (Permutation_sym (insert_perm v l))) in Hw. destruct Hw as [<-|Hw].
    + destruct (Rle_dec v u) as [Hvu|]; [|lra]. apply Rleb_true in Hvu. congruence.
    + exact (proj1 (Forall_forall _ _) Hu w Hw).
Qed.
Lemma sort_sorted l : StronglySorted Rle (sort_reals l).
Proof. induction l as [|v l IH]; cbn; [constructor|apply insert_sorted; exact IH]. Qed.

Definition is_c (c u : R) : bool := if Req_EM_T u c then true else false.
Lemma occurs c l : occurrences c l = Z.of_nat (length (filter (is_c c) l)).
Proof. reflexivity. Qed.
Lemma filter_none {X} (p : X -> bool) l : (forall v, In v l -> p v = false) -> filter p l = [].
Proof.
  induction l as [|v l IH]; intros Hn; [reflexivity|]. cbn. rewrite Hn by (left; reflexivity). apply IH. intros u Hu. apply Hn. right. exact Hu.
Qed.

Lemma sorted_split c s : StronglySorted Rle s ->
  s = filter (fun u => Rltb u c) s ++ filter (is_c c) s ++ filter (fun u => Rltb c u) s.
Proof.
  induction s as [|u s IH]; intros Hs; [reflexivity|]. inversion Hs as [|u' s' Hl Hu]; subst. specialize (IH Hl).
  cbn [filter]. unfold is_c at 1. destruct (Rtotal_order u c) as [Hlt|[->|Hgt]].
  - replace (Rltb u c) with true by (symmetry; apply Rltb_true; exact Hlt).
    destruct (Req_EM_T u c); [lra|]. replace (Rltb c u) with false; [cbn; f_equal; exact IH|].
    rewrite Rltb_Rleb. replace (Rleb u c) with true by (symmetry; apply Rleb_true; lra). reflexivity.
  - assert (E1 : Rltb c c = false) by (rewrite Rltb_Rleb; replace (Rleb c c) with true by (symmetry; apply Rleb_true; lra); reflexivity).
    rewrite E1. destruct (Req_EM_T c c); [|lra].
    assert (E2 : filter (fun u => Rltb u c) s = []).
    { apply filter_none. intros w Hw. rewrite Rltb_Rleb. replace (Rleb c w) with true; [reflexivity|].
      symmetry. apply Rleb_true. exact (proj1 (Forall_forall _ _) Hu w Hw). }
    rewrite E2 in IH |- *. cbn [app] in *. f_equal. exact IH.
  - assert (E1 : Rltb u c = false) by (rewrite Rltb_Rleb; replace (Rleb c u) with true by (symmetry; apply Rleb_true; lra); reflexivity).
    rewrite E1. destruct (Req_EM_T u c); [lra|]. replace (Rltb c u) with true by (symmetry; apply Rltb_true; lra).
    assert (E2 : filter (fun u => Rltb u c) s = []).
    { apply filter_none. intros w Hw. pose proof (proj1 (Forall_forall _ _) Hu w Hw). rewrite Rltb_Rleb.
      replace (Rleb c w) with true; [reflexivity|]. symmetry. apply Rleb_true. lra. }
    assert (E3 : filter (is_c c) s = []).
    { apply filter_none. intros w Hw. pose proof (proj1 (Forall_forall _ _) Hu w Hw). unfold is_c. destruct (Req_EM_T w c); [lra|reflexivity]. }
    rewrite E2, E3 in IH |- *. cbn [app] in *. f_equal. exact IH.
Qed.

Lemma filter_perm {X} (p : X -> bool) l l' : Permutation l l' -> length (filter p l) = length (filter p l').
Proof.
  intros Hp. induction Hp as [|x l l' _ IH|x y l|l l' l'' _ IH1 _ IH2]; cbn; [reflexivity| | |congruence].
  - destruct (p x); cbn; congruence.
  - destruct (p x), (p y); reflexivity.
Qed.

Lemma nth_const c l : (forall v, In v l -> v = c) -> forall k, (k < length l)%nat -> nth k l 0 = c.
Proof. intros Hc k Hk. apply Hc. apply nth_In. exact Hk. Qed.

Lemma majority_nth c l k : majority c l -> (k = length l / 2 \/ (k = length l / 2 - 1 /\ Nat.even (length l) = true))%nat ->
  nth k (sort_reals l) 0 = c.
Proof.
  intros Hm Hk. unfold majority in Hm. rewrite occurs in Hm.
  assert (Hm' : (length l < 2 * length (filter (is_c c) l))%nat) by lia.
  rewrite (filter_perm _ _ _ (sort_perm l)) in Hm'.
  assert (HL : length (sort_reals l) = length l) by (symmetry; apply Permutation_length, sort_perm).
  pose proof (sorted_split c (sort_reals l) (sort_sorted l)) as Hs.
  set (A := filter (fun u => Rltb u c) (sort_reals l)) in *. set (B := filter (is_c c) (sort_reals l)) in *.
  set (C := filter (fun u => Rltb c u) (sort_reals l)) in *.
  assert (HB : forall v, In v B -> v = c).
  { intros v Hv. unfold B in Hv. apply filter_In in Hv as (_ & Hv). unfold is_c in Hv. destruct (Req_EM_T v c); [assumption|discriminate]. }
  assert (Hlen : (length A + (length B + length C) = length l)%nat) by (rewrite <- HL, Hs, !app_length; reflexivity).
  assert (HkA : (length A <= k < length A + length B)%nat).
  { pose proof (Nat.div_mod (length l) 2 (Nat.neq_succ_0 1)) as Hdm. pose proof (Nat.mod_upper_bound (length l) 2 (Nat.neq_succ_0 1)) as Hmu.
    destruct Hk as [->|(-> & Hev)]; [lia|]. apply Nat.even_spec in Hev as (h & Hh). rewrite Hh in *.
    replace (2 * h / 2)%nat with h in * by (apply Nat.div_unique with 0%nat; lia). lia. }
  rewrite Hs, app_nth2 by lia. rewrite app_nth1 by lia. apply nth_const; [exact HB|lia].
Qed.

Lemma majority_median c l : majority c l -> median l = Some c.
Proof.
  intros Hm. unfold median. destruct l as [|v l'] eqn:El; [unfold majority, occurrences in Hm; cbn in Hm; lia|]. rewrite <- El in *.
  destruct (Nat.even (length l)) eqn:Ev.
  - rewrite !(majority_nth c l) by tauto. f_equal. lra.
  - rewrite (majority_nth c l) by tauto. reflexivity.
Qed.

Lemma majority_dev c l : majority c l -> majority 0 (map (fun v => Rabs (v - c)) l).
Proof.
  unfold majority. rewrite !occurs, map_length. intros Hm.
  enough (length (filter (is_c c) l) <= length (filter (is_c 0) (map (fun v => Rabs (v - c)) l)))%nat by (unfold is_c in *; lia).
  clear Hm. induction l as [|v l IH]; [cbn; lia|]. cbn [map filter].
  assert (Hx : is_c c v = true -> is_c 0 (Rabs (v - c)) = true).
  { unfold is_c. destruct (Req_EM_T v c) as [->|]; [intros _|discriminate]. destruct (Req_EM_T (Rabs (c - c)) 0) as [|Hx]; [reflexivity|].
    exfalso. apply Hx. rewrite Rminus_diag_eq by reflexivity. apply Rabs_R0. }
  destruct (is_c c v); [rewrite Hx by reflexivity; cbn; lia|]. destruct (is_c 0 (Rabs (v - c))); cbn; lia.
Qed.

(** ** reject_outliers *)

Lemma reject_majority c l m : majority c l -> 0 < m -> reject_outliers l m = l.
Proof.
  intros Hm Hpos. unfold reject_outliers. rewrite (majority_median c l Hm), (majority_median 0 _ (majority_dev c l Hm)).
  unfold Reqb. destruct (Req_EM_T 0 0); [|lra]. replace (Rltb 0 m) with true by (symmetry; apply Rltb_true; exact Hpos).
  clear. induction l as [|v l IH]; cbn; [reflexivity|]. f_equal. exact IH.
Qed.
Lemma reject_spread l m med mdev : median l = Some med -> median (map (fun v => Rabs (v - med)) l) = Some mdev -> 0 < mdev ->
  reject_outliers l m = filter (fun v => if Rlt_dec (Rabs (v - med)) (m * mdev) then true else false) l.
Proof.
  intros E1 E2 Hpos. unfold reject_outliers. rewrite E1, E2. apply filter_ext_in. intros v _. unfold Reqb. destruct (Req_EM_T mdev 0); [lra|].
  assert (Hq : Rabs (v - med) = Rabs (v - med) / mdev * mdev) by (field; lra).
  unfold Rltb. destruct (Rlt_dec (Rabs (v - med) / mdev) m) as [Hlt|Hge], (Rlt_dec (Rabs (v - med)) (m * mdev)) as [Hlt'|Hge']; try reflexivity; exfalso; nra.
Qed.

(** ** remove_outliers_simple *)

Lemma repeat_nth c n k : (k < n)%nat -> nth k (repeat c n) 0 = c.
Proof. revert n. induction k as [|k IH]; intros [|n] Hk; [lia|reflexivity|lia|]. cbn. apply IH. lia. Qed.
Lemma spike_length n p c v : (p < n)%nat -> length (spike n p c v) = n.
Proof. intros Hp. unfold spike. rewrite app_length. cbn. rewrite !repeat_length. lia. Qed.
Lemma spike_nth n p c v k : (p < n)%nat -> (k < n)%nat -> nth k (spike n p c v) 0 = if (k =? p)%nat then v else c.
Proof.
  intros Hp Hk. unfold spike. destruct (Nat.eqb_spec k p) as [->|Hne].
  - rewrite app_nth2; rewrite repeat_length; [|lia]. rewrite Nat.sub_diag. reflexivity.
  - destruct (Nat.lt_ge_cases k p).
    + rewrite app_nth1 by (rewrite repeat_length; lia). apply repeat_nth. assumption.
    + rewrite app_nth2; rewrite repeat_length; [|lia]. replace (k - p)%nat with (S (k - p - 1)) by lia. cbn. apply repeat_nth. lia.
Qed.

(** At most one element of a stretch of a spike differs. *)
Lemma stretch n p c v a k : (p < n)%nat -> (length (filter (is_c c) (firstn k (skipn a (spike n p c v)))) + 1 >=
  length (firstn k (skipn a (spike n p c v))))%nat.
Proof.
  intros Hp. assert (G : forall l1 l2 : list R, Forall (fun u => u = c) l1 -> Forall (fun u => u = c) l2 ->
    forall l, (exists w, l = l1 ++ w :: l2) \/ l = l1 -> (length (filter (is_c c) l) + 1 >= length l)%nat).
  { assert (Gc : forall l, Forall (fun u => u = c) l -> length (filter (is_c c) l) = length l).
    { intros l Hl. induction Hl as [|u l -> _ IH]; [reflexivity|]. cbn. unfold is_c at 1. destruct (Req_EM_T c c); [cbn; congruence|lra]. }
    assert (Ga : forall l1 l2, filter (is_c c) (l1 ++ l2) = filter (is_c c) l1 ++ filter (is_c c) l2).
    { intros l1 l2. induction l1 as [|u l1 IH]; [reflexivity|]. cbn. rewrite IH. destruct (is_c c u); reflexivity. }
    intros l1 l2 H1 H2 l [(w & ->)| ->].
    - rewrite Ga, !app_length. cbn. rewrite (Gc l1 H1). pose proof (Gc l2 H2). destruct (is_c c w); cbn; lia.
    - rewrite (Gc l1 H1). lia. }
  assert (Fr : forall m, Forall (fun u => u = c) (repeat c m)) by (intros m; apply Forall_forall; intros u Hu; apply repeat_spec in Hu; exact Hu).
  assert (Ff : forall m l, Forall (fun u : R => u = c) l -> Forall (fun u => u = c) (firstn m l)).
  { intros m l Hl. rewrite Forall_forall in *. intros u Hu. apply Hl. rewrite <- (firstn_skipn m l). apply in_or_app. left. exact Hu. }
  assert (Fs : forall m l, Forall (fun u : R => u = c) l -> Forall (fun u => u = c) (skipn m l)).
  { intros m l Hl. rewrite Forall_forall in *. intros u Hu. apply Hl. rewrite <- (firstn_skipn m l). apply in_or_app. right. exact Hu. }
  unfold spike. rewrite skipn_app, firstn_app, !skipn_length, repeat_length.
  destruct (a - p)%nat as [|d] eqn:Ed.
  - cbn [skipn]. set (m := (k - (p - a))%nat). destruct m as [|m].
    + cbn [firstn]. rewrite app_nil_r. apply (G (firstn k (skipn a (repeat c p))) []); [apply Ff, Fs, Fr|constructor|right; reflexivity].
    + cbn [firstn]. eapply G; [| |left; eexists; reflexivity]; [apply Ff, Fs, Fr|apply Ff, Fr].
  - cbn [skipn]. apply (G (firstn k (skipn a (repeat c p)) ++ firstn (k - (p - a)) (skipn d (repeat c (n - p - 1)))) []);
      [|constructor|right; reflexivity].
    apply Forall_app. split; apply Ff, Fs, Fr.
Qed.

Lemma step_spike n p c v nb i : (p < n)%nat -> (2 <= nb)%Z -> (0 <= i < Z.of_nat n - 2 * nb)%Z ->
  step_outlier nb i (spike n p c v) = spike n p c v.
Proof.
  intros Hp Hnb Hi. unfold step_outlier. set (s := spike n p c v). assert (Ls : length s = n) by (apply spike_length; exact Hp).
  destruct (Z_lt_le_dec i nb) as [Hs|Hs].
  - rewrite pyslice_empty; [reflexivity|]. rewrite Ls, clip_pos, clip_neg by lia. lia.
  - set (w := pyslice s (i - nb) (i + nb)).
    assert (Lw : length w = Z.to_nat (2 * nb)) by (unfold w; destruct (pyslice_inside s (i - nb) (i + nb)) as (L & _); [lia|lia|lia|rewrite L; f_equal; lia]).
    assert (Hm : majority c w).
    { unfold majority. rewrite occurs. pose proof (stretch n p c v) as St.
      unfold w, pyslice in *. fold s in St. rewrite !clip_pos in * by lia.
      specialize (St (Z.to_nat (Z.min (Z.of_nat (length s)) (i - nb)))
        (Z.to_nat (Z.min (Z.of_nat (length s)) (i + nb) - Z.min (Z.of_nat (length s)) (i - nb))) Hp). lia. }
    rewrite (majority_median c w Hm), (majority_median 0 _ (majority_dev c w Hm)).
    set (e := nth (Z.to_nat (i + nb)) s 0).
    destruct (Rltb e (c - 3 * 0) || Rltb (c + 3 * 0) e) eqn:Et; [|reflexivity].
    assert (Hip : (Z.to_nat (i + nb)) = p).
    { unfold e, s in Et. rewrite spike_nth in Et by lia. destruct (Nat.eqb_spec (Z.to_nat (i + nb)) p); [assumption|].
      exfalso. rewrite !Rltb_Rleb in Et. replace (Rleb (c - 3 * 0) c) with true in Et by (symmetry; apply Rleb_true; lra).
      replace (Rleb c (c + 3 * 0)) with true in Et by (symmetry; apply Rleb_true; lra). discriminate. }
    apply nth_ext with 0 0.
    + rewrite app_length, firstn_length. cbn. rewrite skipn_length, Ls. lia.
    + intros k Hk. rewrite app_length, firstn_length in Hk. cbn in Hk. rewrite skipn_length, Ls in Hk.
      destruct (lt_eq_lt_dec k (Z.to_nat i)) as [[Hlt| ->]|Hgt].
      * rewrite app_nth1 by (rewrite firstn_length; lia). rewrite <- (firstn_skipn (Z.to_nat i) s) at 2.
        rewrite app_nth1 by (rewrite firstn_length; lia). reflexivity.
      * rewrite app_nth2 by (rewrite firstn_length; lia). rewrite firstn_length, Ls, Nat.min_l by lia. rewrite Nat.sub_diag. cbn.
        unfold s. rewrite spike_nth by lia. destruct (Nat.eqb_spec (Z.to_nat i) p); [lia|reflexivity].
      * rewrite app_nth2 by (rewrite firstn_length; lia). rewrite firstn_length, Ls, Nat.min_l by lia.
        replace (k - Z.to_nat i)%nat with (S (k - Z.to_nat i - 1)) by lia. cbn [nth].
        rewrite <- (firstn_skipn (Z.to_nat i + 1) s) at 2. rewrite app_nth2; rewrite firstn_length, Ls, Nat.min_l by lia; [f_equal; lia|lia].
Qed.

Lemma remove_spike n p c v nb : (p < n)%nat -> (2 <= nb)%Z -> remove_outliers_simple (spike n p c v) nb = spike n p c v.
Proof.
  intros Hp Hnb. unfold remove_outliers_simple.
  assert (Hlen : (Z.of_nat (length (pyslice (spike n p c v) nb (- nb))) <= Z.max 0 (Z.of_nat n - 2 * nb))%Z).
  { unfold pyslice. rewrite firstn_length, spike_length by exact Hp. rewrite (clip_pos _ nb), (clip_neg _ (- nb)) by lia. lia. }
  assert (G : forall is, (forall i, In i is -> 0 <= i < Z.of_nat n - 2 * nb)%Z ->
    fold_left (fun data i => step_outlier nb i data) is (spike n p c v) = spike n p c v).
  { induction is as [|i is IH]; intros Hi; [reflexivity|]. cbn. rewrite step_spike; [|exact Hp|exact Hnb|apply Hi; left; reflexivity].
    apply IH. intros j Hj. apply Hi. right. exact Hj. }
  apply G. intros i Hi. apply in_zrange in Hi. lia.
Qed.

(** ** get_hot_pixels *)

Lemma hot_raises F data threshold : mosaic data -> get_hot_pixels F data threshold = Raise AttributeError.
Proof.
  intros (M1 & M2 & M3 & M4). destruct (split_spec data) as (s & Es & _); [split; assumption|assumption|assumption|].
  unfold get_hot_pixels. rewrite Es. reflexivity.
Qed.
Lemma hot_map_zero F threshold a y x : 1 <= threshold -> 0 <= cell a y x -> 0 <= F a 2%Z y x -> cell (hot_map F threshold a) y x = 0.
Proof.
  intros Ht Ha Hf. unfold hot_map, median_filter. cbn [cell].
  destruct (Rltb threshold _) eqn:E; [|reflexivity]. exfalso. apply Rltb_true in E.
  set (p := cell a y x) in *. set (q := F a 2%Z y x) in *. destruct (Req_dec (p + q) 0) as [Z0|Hnz].
  - assert (p = 0) by lra. assert (q = 0) by lra. rewrite H, H0 in E. unfold Rdiv in E. rewrite Rminus_0_r, Rmult_0_l in E. lra.
  - assert (0 < p + q) by lra. apply (Rmult_lt_compat_r (p + q)) in E; [|assumption].
    unfold Rdiv in E. rewrite Rmult_assoc, Rinv_l, Rmult_1_r in E by exact Hnz. nra.
Qed.
