(** Proofs for C86, C87 and C93. *)
From Coq Require Import Reals Lra Lia Permutation Sorted.
From Verif Require Import Base.Base Base.BaseFacts Base.Num Model.Histogram Model.Cleaning Model.Limits
  Spec.CleanSpec Spec.LimitSpec Proofs.CleanFacts.
Local Open Scope R_scope.

Lemma count_fun P l n m : count P l n -> count P l m -> n = m.
Proof.
  intro A. revert m. induction A as [|v l n Hv A IH|v l n Hv A IH]; intros m B; inversion B; subst; try contradiction; auto.
Qed.
Lemma count_total P l : (forall v, {P v} + {~ P v}) -> exists n, count P l n /\ (n <= length l)%nat.
Proof.
  intros D. induction l as [|v l (n & A & B)]; [exists 0%nat; split; [constructor|cbn; lia]|].
  destruct (D v); [exists (S n)|exists n]; (split; [now constructor|cbn [length]; lia]).
Qed.
Lemma count_impl (P Q : R -> Prop) l n m : (forall v, In v l -> P v -> Q v) -> count P l n -> count Q l m -> (n <= m)%nat.
Proof.
  intros HPQ A. revert m. induction A as [|v l n Hv A IH|v l n Hv A IH]; intros m B; inversion B; subst.
  - lia.
  - apply le_n_S, IH; [intros; apply HPQ; [now right|assumption]|assumption].
  - exfalso. apply H1. apply HPQ; [now left|assumption].
  - apply le_S, IH; [intros; apply HPQ; [now right|assumption]|assumption].
  - apply IH; [intros; apply HPQ; [now right|assumption]|assumption].
Qed.
Lemma count_map (P : R -> Prop) (f : R -> R) l n : count P (map f l) n -> count (fun v => P (f v)) l n.
Proof. revert n. induction l as [|v l IH]; intros n A; inversion A; subst; constructor; auto. Qed.
Lemma count_perm P l l' n : Permutation l l' -> count P l n -> count P l' n.
Proof.
  intro Q. revert n. induction Q; intros n A.
  - exact A.
  - inversion A; subst; constructor; auto.
  - inversion A as [|? ? ? Hx A'|? ? ? Hx A']; subst; inversion A'; subst;
      do 2 (first [apply count_yes; [assumption|] | apply count_no; [assumption|]]); assumption.
  - auto.
Qed.
Lemma count_app P l l' n m : count P l n -> count P l' m -> count P (l ++ l') (n + m).
Proof. intros A B. induction A; cbn [app Nat.add]; [exact B|now constructor|now constructor]. Qed.
Lemma count_all P l : Forall P l -> count P l (length l).
Proof. induction 1; constructor; auto. Qed.

(** ** Chebyshev *)
Lemma total_map_nonneg (f : R -> R) l : (forall v, 0 <= f v) -> 0 <= total (map f l).
Proof. intro Hf. induction l as [|v l IH]; cbn [map]; [cbn; lra|]. rewrite total_cons. specialize (Hf v). lra. Qed.

Lemma chebyshev_count (f : R -> R) c (P : R -> Prop) l n :
  (forall v, 0 <= f v) -> (forall v, In v l -> P v -> c <= f v) -> count P l n -> INR n * c <= total (map f l).
Proof.
  intros Hf Hc A. induction A as [|v l n Hv A IH|v l n Hv A IH]; cbn [map]; rewrite ?total_cons.
  - cbn. lra.
  - rewrite S_INR. assert (c <= f v) by (apply Hc; [now left|assumption]).
    assert (INR n * c <= total (map f l)) by (apply IH; intros; apply Hc; [now right|assumption]). lra.
  - assert (INR n * c <= total (map f l)) by (apply IH; intros; apply Hc; [now right|assumption]). specialize (Hf v). lra.
Qed.

Lemma limits_mean data n :
  values data <> [] ->
  mean_minus_std data n = Some (average (values data) - n * deviation (values data)) /\
  mean_plus_std data n = Some (average (values data) + n * deviation (values data)).
Proof.
  intro Hn. unfold mean_minus_std, mean_plus_std, array_mean, array_std, deviation, values, pixels in *.
  destruct (concat (to_list data)) as [|v l]; [contradiction|].
  set (L := v :: l). cbn [lift2]. unfold var. rewrite !mean_average. split; reflexivity.
Qed.

Lemma variance_nonneg l : 0 <= average (map (fun v => (v - average l) * (v - average l)) l).
Proof.
  unfold average at 1. destruct l as [|v l]; [cbn; unfold Rdiv; rewrite Rmult_0_l; lra|].
  apply Rmult_le_pos; [apply total_map_nonneg; intros; apply Rle_0_sqr|]. left. apply Rinv_0_lt_compat. rewrite map_length.
  apply lt_0_INR. cbn [length]. lia.
Qed.

Lemma total_zero (f : R -> R) l : (forall v, 0 <= f v) -> total (map f l) = 0 -> forall v, In v l -> f v = 0.
Proof.
  intros Hf. induction l as [|u l IH]; intros E v Hv; [destruct Hv|]. cbn [map] in E. rewrite total_cons in E.
  pose proof (total_map_nonneg f l Hf) as A. pose proof (Hf u). destruct Hv as [<-|Hv]; [lra|]. apply IH; [lra|assumption].
Qed.

Lemma average_const c l : l <> [] -> (forall v, In v l -> v = c) -> average l = c.
Proof.
  intros Hn Hc. assert (E : total l = INR (length l) * c).
  { clear Hn. induction l as [|v l IH]; [cbn; lra|]. rewrite total_cons, IH by (intros; apply Hc; now right).
    cbn [length]. rewrite S_INR, (Hc v) by now left. lra. }
  unfold average. rewrite E. field. apply not_0_INR. destruct l; [contradiction|discriminate].
Qed.

Lemma sq_zero a b : (a - b) * (a - b) = 0 -> a = b.
Proof. intro E. apply Rmult_integral in E. lra. Qed.

Lemma chebyshev data n :
  values data <> [] -> 0 < n ->
  exists lo hi, mean_minus_std data n = Some lo /\ mean_plus_std data n = Some hi /\
    (lo + hi) / 2 = average (values data) /\ lo <= hi /\
    (lo = hi <-> forall u v, In u (values data) -> In v (values data) -> u = v) /\
    forall k, count (outside lo hi) (values data) k -> INR k * (n * n) <= INR (length (values data)).
Proof.
  intros Hne Hn. destruct (limits_mean data n Hne) as [El Eh]. rewrite El, Eh.
  set (l := values data) in *. set (av := average l). set (s := deviation l).
  assert (Hlen : 0 < INR (length l)) by (apply lt_0_INR; destruct l; [contradiction|cbn; lia]).
  assert (Hv : 0 <= average (map (fun v => (v - av) * (v - av)) l)) by apply variance_nonneg.
  assert (Hs : 0 <= s) by apply sqrt_pos.
  assert (Hss : s * s * INR (length l) = total (map (fun v => (v - av) * (v - av)) l)).
  { unfold s, deviation. fold av. rewrite sqrt_sqrt by exact Hv. unfold average at 1. rewrite map_length. field. lra. }
  do 2 eexists. split; [reflexivity|]. split; [reflexivity|]. split; [field|]. split; [nra|]. split.
  - split.
    + intros E u v Hu Hv'. assert (s = 0) by nra. rewrite H in Hss.
      assert (Z0 : total (map (fun v => (v - av) * (v - av)) l) = 0) by lra.
      assert (forall v, 0 <= (v - av) * (v - av)) as Hp by (intro; apply Rle_0_sqr).
      rewrite (sq_zero _ _ (total_zero _ l Hp Z0 u Hu)). symmetry. apply sq_zero. exact (total_zero _ l Hp Z0 v Hv').
    + intro Hc. assert (s = 0); [|nra].
      assert (exists c, In c l) as [c Hcl] by (destruct l as [|c l']; [contradiction|exists c; now left]).
      assert (G : forall v, In v l -> v = c) by (intros v Hv'; apply Hc; assumption).
      assert (Ha : av = c) by (apply average_const; assumption).
      assert (total (map (fun v => (v - av) * (v - av)) l) = 0).
      { rewrite Ha. clear -G. induction l as [|v l IH]; [reflexivity|]. cbn [map].
        rewrite total_cons, IH by (intros; apply G; now right). rewrite (G v) by now left. lra. }
      rewrite H in Hss. apply Rmult_integral in Hss. destruct Hss as [Hss|Hss]; [apply Rmult_integral in Hss; tauto|lra].
  - intros k Hk. destruct (Rle_lt_or_eq_dec 0 s Hs) as [Sp|S0].
    + assert (INR k * ((n * s) * (n * s)) <= total (map (fun v => (v - av) * (v - av)) l)).
      { apply (chebyshev_count _ _ _ _ _ (fun v => Rle_0_sqr (v - av))) with (2 := Hk). assert (0 <= n * s) by (apply Rmult_le_pos; lra).
        intros v _ Ho; unfold Rsqr; destruct Ho as [Ho|Ho]; [replace ((v - av) * (v - av)) with ((av - v) * (av - v)) by ring|]; apply Rmult_le_compat; lra. }
      assert (0 < s * s) by nra. apply (Rmult_le_reg_r (s * s)); [assumption|]. lra.
    + rewrite <- S0 in *. assert (k = 0%nat); [|subst; cbn; lra].
      apply (count_fun _ _ _ _ Hk). clear k Hk.
      assert (Z0 : total (map (fun v => (v - av) * (v - av)) l) = 0) by lra.
      assert (G : forall v, In v l -> v = av).
      { intros v Hv'. apply sq_zero. exact (total_zero _ l (fun v => Rle_0_sqr (v - av)) Z0 v Hv'). }
      clear -G. revert G. generalize av. intros a G. induction l as [|v l IH]; [constructor|].
      apply count_no; [|apply IH; intros; apply G; now right]. rewrite (G v) by now left. unfold outside. lra.
Qed.

(** ** Medians *)
Lemma sorted_nth s i j : StronglySorted Rle s -> (i <= j < length s)%nat -> nth i s 0 <= nth j s 0.
Proof.
  intro Hs. revert i j. induction Hs as [|v s Hs IH Hv]; intros i j Hij; cbn [length] in *; [lia|].
  destruct i as [|i], j as [|j]; cbn [nth]; try lra; try lia.
  - rewrite Forall_forall in Hv. apply Hv. apply nth_In. lia.
  - apply IH. lia.
Qed.

Lemma Rle_decidable : forall m v : R, {v <= m} + {~ v <= m}.
Proof. intros. apply Rle_dec. Qed.

Lemma count_below s k m : StronglySorted Rle s -> (k < length s)%nat -> nth k s 0 <= m ->
  forall c, count (fun v => v <= m) s c -> (k + 1 <= c)%nat.
Proof.
  intros Hs Hk Hm c Hc. rewrite <- (firstn_skipn (S k) s) in Hc.
  destruct (count_total (fun v => v <= m) (skipn (S k) s) (fun v => Rle_dec v m)) as (c2 & A2 & _).
  assert (A1 : count (fun v => v <= m) (firstn (S k) s) (length (firstn (S k) s))).
  { apply count_all. apply Forall_forall. intros v Hv. apply (In_nth _ _ 0) in Hv. destruct Hv as (i & Hi & <-).
    rewrite firstn_length in Hi. assert (E : nth i (firstn (S k) s) 0 = nth i s 0).
    { rewrite <- (firstn_skipn (S k) s) at 2. rewrite app_nth1; [reflexivity|]. rewrite firstn_length. lia. }
    rewrite E. apply Rle_trans with (nth k s 0); [apply sorted_nth; [exact Hs|lia]|exact Hm]. }
  pose proof (count_app _ _ _ _ _ A1 A2) as A. rewrite (count_fun _ _ _ _ Hc A), firstn_length. lia.
Qed.

Lemma count_above s k m : StronglySorted Rle s -> (k < length s)%nat -> m <= nth k s 0 ->
  forall c, count (fun v => m <= v) s c -> (length s - k <= c)%nat.
Proof.
  intros Hs Hk Hm c Hc. rewrite <- (firstn_skipn k s) in Hc.
  destruct (count_total (fun v => m <= v) (firstn k s) (fun v => Rle_dec m v)) as (c2 & A2 & _).
  assert (A1 : count (fun v => m <= v) (skipn k s) (length (skipn k s))).
  { apply count_all. apply Forall_forall. intros v Hv. apply (In_nth _ _ 0) in Hv. destruct Hv as (i & Hi & <-).
    rewrite skipn_length in Hi. assert (E : nth i (skipn k s) 0 = nth (k + i) s 0).
    { rewrite <- (firstn_skipn k s) at 2. rewrite app_nth2; rewrite firstn_length; [|lia]. f_equal. lia. }
    rewrite E. apply Rle_trans with (nth k s 0); [exact Hm|apply sorted_nth; [exact Hs|lia]]. }
  pose proof (count_app _ _ _ _ _ A2 A1) as A. rewrite (count_fun _ _ _ _ Hc A), skipn_length. lia.
Qed.

Lemma median_middle l m : median l = Some m -> middle l m.
Proof.
  intros E below above Hb Ha.
  apply (count_perm _ _ _ _ (sort_perm l)) in Hb, Ha.
  pose proof (sort_sorted l) as Hs. pose proof (Permutation_length (sort_perm l)) as Hl.
  unfold median in E. destruct l as [|v l']; [discriminate|]. set (L := v :: l') in *. set (s := sort_reals L) in *.
  assert (HL : (0 < length L)%nat) by (unfold L; cbn; lia).
  destruct (Nat.even (length L)) eqn:Ev.
  - apply Nat.even_spec in Ev. destruct Ev as [q Hq].
    replace (length L / 2)%nat with q in E by (rewrite Hq, Nat.mul_comm, Nat.div_mul; lia). injection E as E.
    assert (nth (q - 1) s 0 <= nth q s 0) by (apply sorted_nth; [exact Hs|lia]).
    pose proof (count_below s (q - 1) m Hs ltac:(lia) ltac:(lra) _ Hb).
    pose proof (count_above s q m Hs ltac:(lia) ltac:(lra) _ Ha). lia.
  - assert (Hq : Nat.Odd (length L)) by (apply Nat.odd_spec; unfold Nat.odd; rewrite Ev; reflexivity).
    destruct Hq as [q Hq].
    replace (length L / 2)%nat with q in E by (rewrite Hq; symmetry; rewrite Nat.mul_comm, Nat.div_add_l by lia; cbn; lia). injection E as E.
    pose proof (count_below s q m Hs ltac:(lia) ltac:(lra) _ Hb).
    pose proof (count_above s q m Hs ltac:(lia) ltac:(lra) _ Ha). lia.
Qed.

Lemma median_some l : l <> [] -> exists m, median l = Some m.
Proof. destruct l as [|v l]; [contradiction|]. intros _. unfold median. destruct (Nat.even _); eexists; reflexivity. Qed.

Lemma pixels_amap f (a : arr R) : pixels (amap f a) = map f (pixels a).
Proof.
  unfold pixels, to_list, amap. cbn [rows cols cell]. rewrite concat_map, map_map. f_equal. apply map_ext.
  intro y. rewrite map_map. reflexivity.
Qed.

Lemma median_limits data n :
  values data <> [] -> 1 <= n ->
  exists m lo hi, median_minus_std data n = Some lo /\ median_plus_std data n = Some hi /\
    middle (values data) m /\ (lo + hi) / 2 = m /\ lo <= hi /\
    forall k, count (inside lo hi) (values data) k -> (length (values data) <= 2 * k)%nat.
Proof.
  intros Hne Hn. unfold median_minus_std, median_plus_std, median_std.
  change (pixels data) with (values data). set (l := values data) in *.
  destruct (median_some l Hne) as [m Em]. rewrite Em. rewrite pixels_amap. change (pixels data) with l.
  destruct (median_some (map (fun v => Rabs (v - m)) l)) as [d Ed]; [intro E; apply map_eq_nil in E; contradiction|].
  rewrite Ed. cbn [lift2].
  pose proof (median_middle _ _ Ed) as Md.
  destruct (count_total (fun v => v <= d) (map (fun v => Rabs (v - m)) l) (fun v => Rle_dec v d)) as (b & Hb & _).
  destruct (count_total (fun v => d <= v) (map (fun v => Rabs (v - m)) l) (fun v => Rle_dec d v)) as (a & Ha & _).
  destruct (Md b a Hb Ha) as [Mb _]. rewrite map_length in Mb.
  assert (Hd : 0 <= d).
  { destruct (Rle_dec 0 d) as [|Hneg]; [assumption|exfalso]. assert (b = 0%nat).
    { apply (count_fun _ _ _ _ Hb). clear -Hneg. generalize l. intro l0. induction l0 as [|v l0 IH]; [constructor|].
      cbn [map]. apply count_no; [|exact IH]. pose proof (Rabs_pos (v - m)). lra. }
    destruct l; [contradiction|]. cbn [length] in Mb. lia. }
  exists m. do 2 eexists. split; [reflexivity|]. split; [reflexivity|]. split; [apply median_middle; exact Em|].
  split; [field|]. split; [nra|]. intros k Hk.
  apply count_map in Hb. assert (b <= k)%nat; [|lia].
  refine (count_impl _ _ l b k _ Hb Hk). intros v _ Hv. unfold inside.
  pose proof (Rle_abs (v - m)) as A1. pose proof (Rle_abs (- (v - m))) as A2. rewrite Rabs_Ropp in A2.
  assert (A3 : 1 * d <= n * d) by (apply Rmult_le_compat_r; lra). lra.
Qed.

Lemma limits_empty data n : values data = [] ->
  mean_minus_std data n = None /\ mean_plus_std data n = None /\ median_minus_std data n = None /\ median_plus_std data n = None.
Proof.
  intro E. unfold mean_minus_std, mean_plus_std, median_minus_std, median_plus_std, array_mean, pixels. unfold values in E. rewrite E.
  repeat split; reflexivity.
Qed.

(** ** Units *)
Lemma bsun_units rate rate_d ti td :
  ti <> 0 -> td <> 0 -> rate_d <> 0 ->
  exists u, get_Bsun_units (rate_d * td) ti td = Ok u /\
    rate * ti * u = (28 / 100) * (1083 / 100000000) * (rate / rate_d).
Proof.
  intros Hi Hd Hr. unfold get_Bsun_units, pydiv, Reqb.
  destruct (Req_EM_T ti 0); [contradiction|]. cbn [bind]. destruct (Req_EM_T td 0); [contradiction|]. cbn [bind].
  assert (E : rate_d * td / td = rate_d) by (field; assumption). rewrite E.
  destruct (Req_EM_T rate_d 0); [contradiction|]. eexists. split; [reflexivity|]. field. split; assumption.
Qed.

Lemma bsun_raises i ti td : ti = 0 \/ td = 0 \/ i = 0 -> get_Bsun_units i ti td = Raise ZeroDivisionError.
Proof.
  intro Hz. unfold get_Bsun_units, pydiv, Reqb. destruct (Req_EM_T ti 0); [reflexivity|]. cbn [bind].
  destruct (Req_EM_T td 0); [reflexivity|]. cbn [bind].
  destruct Hz as [Hz|[Hz| ->]]; try contradiction. replace (0 / td) with 0 by (field; assumption).
  destruct (Req_EM_T 0 0); [reflexivity|contradiction].
Qed.

Lemma sigma_noise v : 0 <= v -> sigma_DN v * sigma_DN v * (693 / 100) = v /\ 0 <= sigma_DN v.
Proof.
  intro Hv. unfold sigma_DN, gain. split.
  - transitivity (sqrt (693 / 100 * v) * sqrt (693 / 100 * v) / (693 / 100)); [field|]. rewrite sqrt_sqrt by lra. field.
  - pose proof (sqrt_pos (693 / 100 * v)). apply Rmult_le_pos; lra.
Qed.
