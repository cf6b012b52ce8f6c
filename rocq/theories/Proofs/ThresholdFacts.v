(** Otsu's threshold of two populations. *)
From Coq Require Import Reals Lra Lia.
From Verif Require Import Base.Base Base.BaseFacts Base.Num Model.Histogram Model.Cleaning Model.MedianFilter
  Proofs.HistFacts Proofs.CleanFacts Proofs.MedianFacts Spec.HistSpec Spec.CleanSpec Spec.MedianSpec Spec.ThresholdSpec.
Local Open Scope R_scope.

Lemma total_bounds (f : R -> R) lo hi l : (forall v, In v l -> lo <= f v <= hi) ->
  INR (length l) * lo <= total (map f l) <= INR (length l) * hi.
Proof.
  induction l as [|u l IH]; intros H; [cbn; lra|]. cbn [map length]. rewrite total_cons, S_INR.
  specialize (IH (fun v Hv => H v (or_intror Hv))). pose proof (H u (or_introl eq_refl)). lra.
Qed.
Lemma length_pos {X} (l : list X) v : In v l -> 0 < INR (length l).
Proof. destruct l; [contradiction|]. intros _. apply lt_0_INR. cbn. lia. Qed.
Lemma average_bounds (f : R -> R) lo hi l v : In v l -> (forall v, In v l -> lo <= f v <= hi) -> lo <= average (map f l) <= hi.
Proof.
  intros Hv H. pose proof (total_bounds f lo hi l H) as (B1 & B2). pose proof (length_pos l v Hv). unfold average. rewrite map_length.
  split; [apply Rmult_le_reg_r with (INR (length l))|apply Rmult_le_reg_r with (INR (length l))]; try assumption; unfold Rdiv; rewrite Rmult_assoc, Rinv_l by lra; lra.
Qed.

Lemma total_two (f : R -> R) u v l : (forall w, 0 <= f w) -> In u l -> In v l -> u <> v -> f u + f v <= total (map f l).
Proof.
  intros F. assert (one : forall w m, In w m -> f w <= total (map f m)).
  { intros w m Hw. induction m as [|x m IH]; [contradiction|]. cbn [map]. rewrite total_cons.
    destruct Hw as [->|Hw]; [|specialize (IH Hw); pose proof (F x); lra].
    assert (0 <= total (map f m)). { clear - F. induction m as [|x m IH]; cbn [map]; [cbn; lra|]. rewrite total_cons. pose proof (F x). lra. } lra. }
  induction l as [|x l IH]; intros Hu Hv N; [contradiction|]. cbn [map]. rewrite total_cons.
  destruct Hu as [->|Hu]; destruct Hv as [->|Hv].
  - contradiction.
  - pose proof (one v l Hv). lra.
  - pose proof (one u l Hu). lra.
  - specialize (IH Hu Hv N). pose proof (F x). lra.
Qed.

(** Threshold between the populations: all distances are at most [e]. *)
Lemma within_separated a b e t l : 0 <= e -> two_populations a b e l -> a + e < t <= b -> within t l <= e * e.
Proof.
  intros He (H & (v & Hv & _) & _) Ht. unfold within.
  apply (average_bounds _ 0 (e * e) l v Hv). clear v Hv. intros v Hv.
  assert (B : exists c, c <= v <= c + e /\ c <= class_average t l v <= c + e).
  { unfold class_average. set (m := filter _ l). assert (Im : In v m) by (apply filter_In; split; [exact Hv|apply Bool.eqb_reflx]).
    rewrite <- (map_id m).
    destruct (H v Hv) as [Bv|Bv]; [exists a|exists b]; (split; [exact Bv|]); apply (average_bounds (fun w => w) _ _ m v Im); intros w Hw;
      apply filter_In in Hw as (Hw & Ew); apply Bool.eqb_prop in Ew; unfold Rltb in Ew; unfold within_band in *;
      destruct (Rlt_dec w t), (Rlt_dec v t); try discriminate; destruct (H w Hw); unfold within_band in *; lra. }
  destruct B as (c & B1 & B2). assert (D : - e <= v - class_average t l v <= e) by lra. revert D. generalize (v - class_average t l v). intros d D.
  split; [nra|]. pose proof (Rmult_le_pos (e - d) (e + d) ltac:(lra) ltac:(lra)). nra.
Qed.

Lemma within_mixed t l u v : In u l -> In v l -> u <> v -> Rltb u t = Rltb v t -> (v - u) * (v - u) / 2 <= INR (length l) * within t l.
Proof.
  intros Hu Hv N E. unfold within, average. rewrite map_length. pose proof (length_pos l u Hu).
  replace (INR (length l) * _) with (total (map (fun v => (v - class_average t l v) * (v - class_average t l v)) l)) by (field; lra).
  pose proof (total_two (fun v => (v - class_average t l v) * (v - class_average t l v)) u v l (fun w => Rle_0_sqr _) Hu Hv N) as T.
  cbv beta in T. assert (C : class_average t l u = class_average t l v) by (unfold class_average; rewrite E; reflexivity).
  rewrite C in T. revert T. generalize (class_average t l v). intros c T. pose proof (Rle_0_sqr (u + v - 2 * c)). unfold Rsqr in *. lra.
Qed.

Lemma first_above (f : Z -> R) c n : (0 < n)%Z -> c < f (n - 1)%Z -> exists k, (0 <= k < n)%Z /\ c < f k /\ (k = 0%Z \/ f (k - 1)%Z <= c).
Proof.
  intros Hn Hl. assert (G : forall m, (0 <= m)%Z -> (forall k, (0 <= k < m)%Z -> f k <= c) \/ exists k, (0 <= k < m)%Z /\ c < f k /\ (k = 0%Z \/ f (k - 1)%Z <= c)).
  { apply natlike_ind; [left; intros k Hk; lia|]. intros m Hm [IH|(k & Hk & K)]; [|right; exists k; split; [lia|exact K]].
    destruct (Rlt_le_dec c (f m)) as [L|L].
    - right. exists m. split; [lia|]. split; [exact L|]. destruct (Z.eq_dec m 0); [left; assumption|right; apply IH; lia].
    - left. intros k Hk. destruct (Z.eq_dec k m) as [->|]; [exact L|apply IH; lia]. }
  destruct (G n ltac:(lia)) as [A|A]; [|exact A]. specialize (A (n - 1)%Z ltac:(lia)). lra.
Qed.

Lemma min_exists l (v : R) : In v l -> exists m, is_min m l.
Proof. destruct l as [|u l]; [contradiction|]. intros _. eexists. apply smallest_spec. Qed.
Lemma max_exists l (v : R) : In v l -> exists m, is_max m l.
Proof. destruct l as [|u l]; [contradiction|]. intros _. eexists. apply largest_spec. Qed.

Lemma populations_apart F data a b e : 
  let l := pixels (median_filter F data 10) in
  (3 <= length l)%nat -> 0 <= e -> a + e + 1 <= b -> two_populations a b e l ->
  2 * INR (length l) * (e * e) < (b - a - e) * (b - a - e) ->
  exists t, auto_threshold F data = Ok t /\ separates a b e t l.
Proof.
  intros l Hn He Hb P Hg. pose proof P as (Hall & (ua & Iua & Bua) & (ub & Iub & Bub)).
  destruct (min_exists l ua Iua) as (m & Hm). destruct (max_exists l ub Iub) as (M & HM).
  destruct (auto_threshold_ok F data m M Hm HM) as (t & k & E & Hk & Et & Hopt). fold l in Hk, Et, Hopt. 
  set (n := Z.min (Z.of_nat (length l)) 1000) in *. cbv zeta in Hopt. exists t. split; [exact E|]. clear E.
  assert (N3 : 3 <= INR (length l)) by (replace 3 with (INR 3) by (cbn; lra); apply le_INR; exact Hn).
  assert (n3 : 2 <= IZR (n - 1)) by (apply IZR_le; unfold n; clear - Hn; lia).
  assert (Bm : a <= m <= a + e).
  { destruct Hm as (I & L). split; [destruct (Hall m I) as [B|B]; unfold within_band in *; lra|]. apply Rle_trans with ua; [apply L; exact Iua|apply Bua]. }
  assert (BM : b <= M <= b + e).
  { destruct HM as (I & L). split; [apply Rle_trans with ub; [apply Bub|apply L; exact Iub]|]. destruct (Hall M I) as [B|B]; unfold within_band in *; lra. }
  set (g := b - a - e) in *. assert (G1 : 1 <= g) by (unfold g; lra).
  assert (Eg : e <= g / 2) by nra.
  set (s := (M - (m + 1)) / IZR (n - 1)) in *. 
  assert (Es : s * IZR (n - 1) = M - (m + 1)) by (unfold s; field; lra).
  assert (Sg : s <= g).
  { destruct (Rle_lt_dec s g) as [|C]; [assumption|exfalso]. assert (g * 2 < s * IZR (n - 1)) by nra. unfold g in *. lra. }
  assert (Cand : exists j, (0 <= j < n)%Z /\ a + e < m + 1 + IZR j * s <= b).
  { destruct (first_above (fun j => m + 1 + IZR j * s) (a + e) n) as (j & Hj & L & Hp).
    - unfold n; clear - Hn; lia.
    - cbv beta. replace (IZR (n - 1) * s) with (M - (m + 1)) by lra. lra.
    - exists j. split; [exact Hj|]. split; [exact L|]. destruct Hp as [->|Hp]; [lra|]. rewrite minus_IZR in Hp. unfold g in *. lra. }
  destruct Cand as (j & Hj & Bj). specialize (Hopt j Hj).
  pose proof (within_separated a b e _ l He P Bj) as W.
  assert (NoMix : forall u v, In u l -> In v l -> within_band a (a + e) u -> within_band b (b + e) v -> Rltb u t = Rltb v t -> False).
  { intros u v Iu Iv Bu Bv Eq. unfold within_band in *. assert (Q := within_mixed t l u v Iu Iv ltac:(lra) Eq).
    assert (g * g <= (v - u) * (v - u)) by (unfold g in *; nra). nra. }
  intros v Iv. split; intros Bv.
  - destruct (Rlt_le_dec v t) as [|C]; [assumption|exfalso]. apply (NoMix v ub Iv Iub Bv Bub). unfold Rltb, within_band in *.
    destruct (Rlt_dec v t), (Rlt_dec ub t); try reflexivity; lra.
  - destruct (Rle_lt_dec t v) as [|C]; [assumption|exfalso]. apply (NoMix ua v Iua Iv Bua Bv). unfold Rltb, within_band in *.
    destruct (Rlt_dec ua t), (Rlt_dec v t); try reflexivity; lra.
Qed.

(** ** The first of several best candidates *)
Lemma min_by_first key l best : (forall v, In v l -> key best <= key v) -> min_by key best l = best.
Proof.
  induction l as [|u l IH]; intros H; [reflexivity|]. cbn [min_by]. pose proof (H u (or_introl eq_refl)) as Hu. unfold Rltb.
  destruct (Rlt_dec (key u) (key best)); [lra|]. apply IH. intros v Hv. apply H. right. exact Hv.
Qed.
Lemma linspace_first a b n : (0 < n)%Z -> exists ts, linspace a b n = a :: ts.
Proof.
  intros Hn. unfold linspace, zrange. destruct (Z.to_nat n) as [|k] eqn:E; [lia|]. cbn [seq map]. eexists. f_equal. cbn. lra.
Qed.
Lemma within_pos t l v : In v l -> 0 <= within t l.
Proof.
  intros Hv. unfold within, average. rewrite map_length. pose proof (length_pos l v Hv). apply Rmult_le_pos; [|left; apply Rinv_0_lt_compat; assumption].
  clear. set (g := class_average t l). clearbody g. induction l as [|u l IH]; cbn [map]; [cbn; lra|]. rewrite total_cons. pose proof (Rle_0_sqr (u - g u)). unfold Rsqr in *. lra.
Qed.
Lemma threshold_first F data m M : let l := pixels (median_filter F data 10) in is_min m l -> is_max M l -> within (m + 1) l <= 0 ->
  auto_threshold F data = Ok (m + 1).
Proof.
  intros l Hm HM W. assert (Hne : l <> []) by (intros E; rewrite E in Hm; destruct Hm as ([] & _)).
  destruct (linspace_first (m + 1) M (Z.min (Z.of_nat (length l)) 1000)) as (ts & Ets).
  { clear - Hne. destruct l; [contradiction|]. cbn [length]. lia. }
  unfold auto_threshold. fold l. destruct l as [|v l'] eqn:El; [contradiction|]. rewrite <- El in *.
  pose proof (smallest_spec v l') as S. rewrite <- El in S. rewrite (min_unique _ _ _ S Hm).
  pose proof (largest_spec v l') as L. rewrite <- El in L. rewrite (max_unique _ _ _ L HM). rewrite Ets. f_equal.
  apply min_by_first. intros w _. rewrite !otsu_within by exact Hne. destruct Hm as (Im & _). pose proof (within_pos w l m Im). lra.
Qed.
Lemma two_levels_threshold F data a b : let l := pixels (median_filter F data 10) in a + 1 <= b ->
  (forall v, In v l -> v = a \/ v = b) -> In a l -> auto_threshold F data = Ok (a + 1).
Proof.
  intros l Hab H Ia. destruct (max_exists l a Ia) as (M & HM). apply (threshold_first F data a M).
  - split; [exact Ia|]. intros u Hu. destruct (H u Hu); lra.
  - exact HM.
  - fold l. destruct (in_dec Req_EM_T b l) as [Ib|Nb].
    + replace 0 with (0 * 0) by ring. apply (within_separated a b 0); [lra| |lra]. split; [|split].
      * intros v Hv. unfold within_band. destruct (H v Hv); [left|right]; lra.
      * exists a. split; [exact Ia|]. unfold within_band. lra.
      * exists b. split; [exact Ib|]. unfold within_band. lra.
    + unfold within. apply (average_bounds _ 0 0 l a Ia). intros v Hv.
      assert (Av : forall w, In w l -> w = a) by (intros w Hw; destruct (H w Hw) as [|E]; [assumption|subst w; contradiction]).
      assert (C : a <= class_average (a + 1) l v <= a).
      { unfold class_average. set (m := filter _ l). rewrite <- (map_id m).
        apply (average_bounds (fun w => w) a a m v); [apply filter_In; split; [exact Hv|apply Bool.eqb_reflx]|].
        intros w Hw. apply filter_In in Hw as (Hw & _). rewrite (Av w Hw). lra. }
      rewrite (Av v Hv) in *. nra.
Qed.

(** ** scipy's filter *)
Lemma filter_count (p q : R -> bool) l : (forall v, p v = true -> q v = true) -> (length (filter p l) <= length (filter q l))%nat.
Proof.
  intros H. induction l as [|v l IH]; [cbn; lia|]. cbn [filter]. destruct (p v) eqn:E; [rewrite (H v E); cbn [length]; lia|].
  destruct (q v); cbn [length]; lia.
Qed.
Lemma mostly_filtered lo hi a y x : (5 <= rows a)%Z -> (5 <= cols a)%Z -> (0 <= y < rows a)%Z -> (0 <= x < cols a)%Z ->
  mostly lo hi (around a 10 y x) -> lo <= window_median Rleb a 10 y x <= hi.
Proof.
  intros Hr Hc Hy Hx M. unfold mostly in M.
  destruct (c152_median Rleb Rleb_orders a 10 y x ltac:(lia) ltac:(lia) ltac:(lia) Hy Hx) as (I & B & C).
  set (m := cell (filtered Rleb a 10) y x) in *. change (window_median Rleb a 10 y x) with m.
  assert (L : length (around a 10 y x) = 100%nat) by (unfold around; rewrite block_length, zrange_length; reflexivity).
  set (l := around a 10 y x) in *. change (Z.to_nat (10 * 10 / 2)) with 50%nat in B, C.
  assert (K : forall p : R -> bool, length l = (length (filter p l) + length (filter (fun v => negb (p v)) l))%nat).
  { intros p. clear. induction l as [|v l IH]; [reflexivity|]. cbn [filter length]. destruct (p v); cbn [negb length]; lia. }
  destruct M as (M1 & M2). split.
  - destruct (Rle_lt_dec lo m) as [|D]; [assumption|exfalso]. specialize (K (fun v => Rleb lo v)).
    pose proof (filter_count (fun v => Rleb lo v) (fun u => negb (Rleb u m)) l) as Q.
    assert (H : forall v, Rleb lo v = true -> negb (Rleb v m) = true).
    { intros v Hv. apply Rleb_true in Hv. unfold Rleb. destruct (Rle_dec v m); [lra|reflexivity]. }
    specialize (Q H). lia.
  - destruct (Rle_lt_dec m hi) as [|D]; [assumption|exfalso]. specialize (K (fun v => Rleb v hi)).
    pose proof (filter_count (fun v => Rleb v hi) (fun u => negb (Rleb m u)) l) as Q.
    assert (H : forall v, Rleb v hi = true -> negb (Rleb m v) = true).
    { intros v Hv. apply Rleb_true in Hv. unfold Rleb. destruct (Rle_dec m v); [lra|reflexivity]. }
    specialize (Q H). lia.
Qed.

Lemma in_pixels (a : arr R) v : In v (pixels a) <-> exists y x, (0 <= y < rows a)%Z /\ (0 <= x < cols a)%Z /\ v = cell a y x.
Proof.
  unfold pixels, to_list. rewrite in_concat. split.
  - intros (r & Hr & Hv). apply in_map_iff in Hr as (y & <- & Hy). apply in_map_iff in Hv as (x & <- & Hx).
    apply in_zrange in Hy. apply in_zrange in Hx. exists y, x. split; [exact Hy|]. split; [exact Hx|reflexivity].
  - intros (y & x & Hy & Hx & ->). eexists. split; [apply in_map_iff; exists y; split; [reflexivity|]|apply in_map_iff; exists x; split; [reflexivity|]]; unfold zrange; apply in_map_iff.
    + exists (Z.to_nat y). split; [lia|]. apply in_seq. lia.
    + exists (Z.to_nat x). split; [lia|]. apply in_seq. lia.
Qed.
Lemma pixels_length (a : arr R) : length (pixels a) = (Z.to_nat (rows a) * Z.to_nat (cols a))%nat.
Proof.
  unfold pixels, to_list. rewrite <- (zrange_length (rows a)). induction (zrange (rows a)) as [|y l IH]; [reflexivity|].
  cbn [map concat length]. rewrite app_length, IH, map_length, zrange_length. reflexivity.
Qed.

Section Scipy.
  Context (data : arr R) (Hr : (5 <= rows data)%Z) (Hc : (5 <= cols data)%Z).

  Lemma c154_separates a b e : 0 <= e -> a + e + 1 <= b -> 2 * IZR (rows data * cols data) * (e * e) < (b - a - e) * (b - a - e) ->
    (forall y x, on data y x -> mostly a (a + e) (around data 10 y x) \/ mostly b (b + e) (around data 10 y x)) ->
    (exists y x, on data y x /\ mostly a (a + e) (around data 10 y x)) ->
    (exists y x, on data y x /\ mostly b (b + e) (around data 10 y x)) ->
    exists t, auto_threshold scipy data = Ok t /\
      forall y x, on data y x ->
        (mostly a (a + e) (around data 10 y x) -> cell (filtered Rleb data 10) y x < t) /\
        (mostly b (b + e) (around data 10 y x) -> t <= cell (filtered Rleb data 10) y x).
  Proof.
    intros He Hb Hg Hall (ya & xa & Ia & Ma) (yb & xb & Ib & Mb).
    assert (In_l : forall y x, on data y x -> In (window_median Rleb data 10 y x) (pixels (median_filter scipy data 10))).
    { intros y x (Hy & Hx). apply in_pixels. exists y, x. split; [exact Hy|]. split; [exact Hx|reflexivity]. }
    assert (Len : length (pixels (median_filter scipy data 10)) = Z.to_nat (rows data * cols data)).
    { rewrite pixels_length. cbn [median_filter rows cols]. rewrite Z2Nat.inj_mul by lia. reflexivity. }
    assert (Med : forall lo hi y x, on data y x -> mostly lo hi (around data 10 y x) -> within_band lo hi (window_median Rleb data 10 y x)).
    { intros lo hi y x (Hy & Hx) M. exact (mostly_filtered lo hi data y x Hr Hc Hy Hx M). }
    destruct (populations_apart scipy data a b e) as (t & E & S).
    - rewrite Len. clear - Hr Hc. nia.
    - exact He.
    - exact Hb.
    - split; [|split].
      + intros v Hv. apply in_pixels in Hv as (y & x & Hy & Hx & ->). cbn [median_filter cell].
        destruct (Hall y x (conj Hy Hx)) as [M|M]; [left|right]; exact (Med _ _ y x (conj Hy Hx) M).
      + eexists. split; [exact (In_l ya xa Ia)|exact (Med _ _ ya xa Ia Ma)].
      + eexists. split; [exact (In_l yb xb Ib)|exact (Med _ _ yb xb Ib Mb)].
    - rewrite Len, INR_IZR_INZ, Z2Nat.id by (clear - Hr Hc; nia). exact Hg.
    - exists t. split; [exact E|]. intros y x I. destruct (S _ (In_l y x I)) as (S1 & S2). split; intros M; [apply S1|apply S2]; exact (Med _ _ y x I M).
  Qed.

  Lemma c154_two_levels a b : a + 1 <= b ->
    (forall y x, on data y x -> mostly a a (around data 10 y x) \/ mostly b b (around data 10 y x)) ->
    (exists y x, on data y x /\ mostly a a (around data 10 y x)) -> auto_threshold scipy data = Ok (a + 1).
  Proof.
    intros Hab Hall (ya & xa & (Ia1 & Ia2) & Ma). apply (two_levels_threshold scipy data a b Hab).
    - intros v Hv. apply in_pixels in Hv as (y & x & Hy & Hx & ->). cbn [median_filter cell rows cols] in *. unfold scipy.
      destruct (Hall y x (conj Hy Hx)) as [M|M]; pose proof (mostly_filtered _ _ data y x Hr Hc Hy Hx M); [left|right]; lra.
    - apply in_pixels. exists ya, xa. split; [exact Ia1|]. split; [exact Ia2|]. cbn [median_filter cell]. unfold scipy.
      pose proof (mostly_filtered _ _ data ya xa Hr Hc Ia1 Ia2 Ma). lra.
  Qed.

  (** Signals that nowhere fill half of the surroundings leave no trace. *)
  Lemma c154_small a : (forall y x, on data y x -> mostly a a (around data 10 y x)) -> auto_threshold scipy data = Ok (a + 1).
  Proof.
    intros H. apply (c154_two_levels a (a + 1)); [lra|intros y x I; left; exact (H y x I)|].
    exists 0%Z, 0%Z. assert (I : on data 0 0) by (unfold on; lia). split; [exact I|exact (H 0%Z 0%Z I)].
  Qed.
End Scipy.

(** ** Images of whole numbers: counting by computation *)
Definition zmostly (lo hi : Z) (l : list Z) : bool :=
  (2 * length (filter (fun v => negb (lo <=? v)%Z) l) <=? length l)%nat && (2 * length (filter (fun v => negb (v <=? hi)%Z) l) <? length l)%nat.
Lemma Rleb_IZR u v : Rleb (IZR u) (IZR v) = (u <=? v)%Z.
Proof. unfold Rleb. destruct (Rle_dec (IZR u) (IZR v)) as [H|H]; destruct (Z.leb_spec u v) as [K|K]; try reflexivity; [apply le_IZR in H; lia|exfalso; apply H, IZR_le; lia]. Qed.
Lemma filter_map_length {X Y} (g : X -> Y) p l : length (filter p (map g l)) = length (filter (fun v => p (g v)) l).
Proof. induction l as [|v l IH]; [reflexivity|]. cbn [map filter]. destruct (p (g v)); cbn [length]; congruence. Qed.
Lemma zmostly_ok lo hi l : zmostly lo hi l = true -> mostly (IZR lo) (IZR hi) (map IZR l).
Proof.
  unfold zmostly, mostly. rewrite andb_true_iff, Nat.leb_le, Nat.ltb_lt, map_length, !filter_map_length. intros (H1 & H2).
  split.
  - rewrite (filter_ext_in (fun v => negb (Rleb (IZR lo) (IZR v))) (fun v => negb (lo <=? v)%Z)); [exact H1|]. intros v _. rewrite Rleb_IZR. reflexivity.
  - rewrite (filter_ext_in (fun v => negb (Rleb (IZR v) (IZR hi))) (fun v => negb (v <=? hi)%Z)); [exact H2|]. intros v _. rewrite Rleb_IZR. reflexivity.
Qed.
Lemma around_map (a : arr Z) size y x : around (amap IZR a) size y x = map IZR (around a size y x).
Proof. unfold around. rewrite !flat_map_concat_map, concat_map, map_map. f_equal. apply map_ext. intros i. rewrite map_map. reflexivity. Qed.
Lemma zall (a : arr Z) (P : Z -> Z -> bool) : forallb (fun y => forallb (P y) (zrange (cols a))) (zrange (rows a)) = true ->
  forall y x, on (amap IZR a) y x -> P y x = true.
Proof.
  intros H y x (Hy & Hx). cbn [amap rows cols] in *. rewrite forallb_forall in H.
  assert (I : forall n i, (0 <= i < n)%Z -> In i (zrange n)).
  { intros n i Hi. unfold zrange. apply in_map_iff. exists (Z.to_nat i). split; [lia|]. apply in_seq. lia. }
  specialize (H y (I _ y Hy)). rewrite forallb_forall in H. exact (H x (I _ x Hx)).
Qed.

Lemma c154_lopsided : let data := amap IZR strips in let l := pixels (median_filter scipy data 10) in
  two_populations 0 102 100 l /\ exists t, auto_threshold scipy data = Ok t /\ exists v, In v l /\ within_band 0 (0 + 100) v /\ t <= v.
Proof.
  intros data l. assert (Hr : (5 <= rows data)%Z) by (cbn; lia). assert (Hc : (5 <= cols data)%Z) by (cbn; lia).
  assert (M : forall lo hi y x, on data y x -> zmostly lo hi (around strips 10 y x) = true -> mostly (IZR lo) (IZR hi) (around data 10 y x)).
  { intros lo hi y x _ H. unfold data. rewrite around_map. exact (zmostly_ok lo hi _ H). }
  assert (In_l : forall y x, on data y x -> In (window_median Rleb data 10 y x) l).
  { intros y x (Hy & Hx). apply in_pixels. exists y, x. split; [exact Hy|]. split; [exact Hx|reflexivity]. }
  assert (Med : forall lo hi y x, on data y x -> zmostly lo hi (around strips 10 y x) = true -> IZR lo <= window_median Rleb data 10 y x <= IZR hi).
  { intros lo hi y x I H. destruct (I) as (Hy & Hx). exact (mostly_filtered _ _ data y x Hr Hc Hy Hx (M lo hi y x I H)). }
  assert (O1 : on data 3 3) by (unfold on; cbn; lia). assert (O2 : on data 3 22) by (unfold on; cbn; lia). assert (O3 : on data 3 36) by (unfold on; cbn; lia).
  split; [split; [|split]|].
  - intros v Hv. apply in_pixels in Hv as (y & x & Hy & Hx & ->). cbn [median_filter cell]. change (scipy data 10%Z y x) with (window_median Rleb data 10 y x).
    pose proof (zall strips (fun y x => zmostly 0 100 (around strips 10 y x) || zmostly 102 102 (around strips 10 y x)) ltac:(vm_compute; reflexivity) y x (conj Hy Hx)) as K.
    apply orb_true_iff in K. unfold within_band. destruct K as [K|K]; [left|right]; pose proof (Med _ _ y x (conj Hy Hx) K); lra.
  - exists (window_median Rleb data 10 3 3). split; [apply In_l; exact O1|]. pose proof (Med 0%Z 100%Z 3%Z 3%Z O1 ltac:(vm_compute; reflexivity)). unfold within_band. lra.
  - exists (window_median Rleb data 10 3 36). split; [apply In_l; exact O3|]. pose proof (Med 102%Z 102%Z 3%Z 36%Z O3 ltac:(vm_compute; reflexivity)). unfold within_band. lra.
  - destruct (c154_separates data Hr Hc 0 100 2) as (t & E & S).
    + lra.
    + lra.
    + change (rows data * cols data)%Z with 320%Z. lra.
    + intros y x I. pose proof (zall strips (fun y x => zmostly 0 2 (around strips 10 y x) || zmostly 100 102 (around strips 10 y x)) ltac:(vm_compute; reflexivity) y x I) as K.
      apply orb_true_iff in K. replace (0 + 2) with 2 by lra. replace (100 + 2) with 102 by lra. destruct K as [K|K]; [left|right]; exact (M _ _ y x I K).
    + exists 3%Z, 3%Z. split; [exact O1|]. replace (0 + 2) with 2 by lra. apply (M 0%Z 2%Z); [exact O1|vm_compute; reflexivity].
    + exists 3%Z, 36%Z. split; [exact O3|]. replace (100 + 2) with 102 by lra. apply (M 100%Z 102%Z); [exact O3|vm_compute; reflexivity].
    + exists t. split; [exact E|]. exists (window_median Rleb data 10 3 22). split; [apply In_l; exact O2|].
      split; [pose proof (Med 0%Z 100%Z 3%Z 22%Z O2 ltac:(vm_compute; reflexivity)); unfold within_band; lra|].
      apply (S 3%Z 22%Z O2). replace (100 + 2) with 102 by lra. apply (M 100%Z 102%Z); [exact O2|vm_compute; reflexivity].
Qed.
