(** Normalising signal. *)
From Coq Require Import Reals Lra.
From Verif Require Import Base.Base Base.BaseFacts Base.Num Model.Demosaic Model.Histogram Spec.HistSpec.

(** ** The modal bin *)

Lemma max_count_ge l c : In c l -> c <= max_count l.
Proof. induction l as [|a l IH]; cbn; [tauto|]. intros [->|H]; [|specialize (IH H)]; unfold max_count in *; lia. Qed.
Lemma max_count_in l : l <> [] -> (forall c, In c l -> 0 <= c) -> In (max_count l) l.
Proof.
  intros Hne H0. induction l as [|a l IH]; [contradiction|]. cbn [max_count fold_right].
  destruct l as [|b l].
  - left. pose proof (H0 a (or_introl eq_refl)). cbn. lia.
  - assert (IH' : In (max_count (b :: l)) (b :: l)) by (apply IH; [discriminate|intros c Hc; apply H0; right; exact Hc]).
    change (fold_right Z.max 0 (b :: l)) with (max_count (b :: l)).
    destruct (Z.max_spec a (max_count (b :: l))) as [[_ ->]|[_ ->]]; [right; exact IH'|left; reflexivity].
Qed.

Lemma first_equal_at m l i k : nth_error l k = Some m -> (forall j c, (j < k)%nat -> nth_error l j = Some c -> c <> m) ->
  first_equal m l i = Ok (i + Z.of_nat k).
Proof.
  revert i k. induction l as [|v l IH]; intros i k Hk Hj; [destruct k; discriminate|]. cbn [first_equal].
  destruct k as [|k].
  - injection Hk as ->. rewrite Z.eqb_refl. f_equal. lia.
  - assert (v <> m) by (apply (Hj O v); [lia|reflexivity]).
    replace (v =? m) with false by (symmetry; apply Z.eqb_neq; assumption).
    rewrite (IH (i + 1) k Hk); [f_equal; lia|]. intros j c Hlt Hc. apply (Hj (S j) c); [lia|exact Hc].
Qed.

Lemma modal_index_ok l i : l <> [] -> (forall c, In c l -> 0 <= c) -> first_modal l i -> modal_index l = Ok i.
Proof.
  intros Hne Hpos (m & H0 & Hi & Hmax & Hfirst). unfold modal_index.
  assert (max_count l = m).
  { apply Z.le_antisymm.
    - destruct (In_nth_error _ _ (max_count_in l Hne Hpos)) as (j & Hj). exact (Hmax j _ Hj).
    - apply max_count_ge. apply nth_error_In in Hi. exact Hi. }
  subst m. rewrite (first_equal_at _ l 0 (Z.to_nat i) Hi); [f_equal; lia|].
  intros j c Hj Hc. specialize (Hfirst j c Hj Hc). lia.
Qed.

Lemma first_modal_exists l : l <> [] -> (forall c, In c l -> 0 <= c) ->
  exists i, first_modal l i /\ 0 <= i < Z.of_nat (length l).
Proof.
  intros Hne Hpos. pose proof (max_count_in l Hne Hpos) as Hin.
  assert (G : forall k, (k <= length l)%nat -> (exists i, (i < k)%nat /\ nth_error l i = Some (max_count l) /\
      forall j c, (j < i)%nat -> nth_error l j = Some c -> c < max_count l) \/
      (forall j c, (j < k)%nat -> nth_error l j = Some c -> c < max_count l)).
  { induction k as [|k IH]; intros Hk; [right; intros; lia|]. destruct IH as [(i & Hi & H1 & H2)|H]; [lia| |].
    - left. exists i. repeat split; [lia|exact H1|exact H2].
    - destruct (nth_error l k) as [c|] eqn:E.
      + destruct (Z.eq_dec c (max_count l)) as [->|Hc].
        * left. exists k. repeat split; [lia|exact E|exact H].
        * right. intros j c' Hj Hc'. destruct (Nat.eq_dec j k) as [->|]; [|apply (H j c'); [lia|exact Hc']].
          rewrite E in Hc'. injection Hc' as <-. pose proof (max_count_ge l c (nth_error_In _ _ E)). lia.
      + right. intros j c' Hj Hc'. destruct (Nat.eq_dec j k) as [->|]; [congruence|apply (H j c'); [lia|exact Hc']]. }
  destruct (G (length l) (Nat.le_refl _)) as [(i & Hi & H1 & H2)|H].
  - exists (Z.of_nat i). split; [|lia]. exists (max_count l). rewrite Nat2Z.id. repeat split; [lia|exact H1| |exact H2].
    intros j c Hc. apply max_count_ge. exact (nth_error_In _ _ Hc).
  - exfalso. destruct (In_nth_error _ _ Hin) as (j & Hj).
    assert (j < length l)%nat by (apply nth_error_Some; congruence). specialize (H j _ H0 Hj). lia.
Qed.

(** ** Slices *)

Lemma clip_pos n i : 0 <= i -> clip n i = Z.min n i.
Proof. intros Hi. unfold clip. destruct (Z.ltb_spec i 0); lia. Qed.
Lemma clip_neg n i : i < 0 -> clip n i = Z.min n (Z.max 0 (i + n)).
Proof. intros Hi. unfold clip. destruct (Z.ltb_spec i 0); lia. Qed.

Lemma nth_skip {X} (l : list X) a k : nth_error (skipn a l) k = nth_error l (a + k).
Proof. revert l. induction a as [|a IH]; intros [|x l]; try reflexivity; [destruct k; reflexivity|apply IH]. Qed.
Lemma nth_first {X} (l : list X) n k : (k < n)%nat -> nth_error (firstn n l) k = nth_error l k.
Proof.
  revert l k. induction n as [|n IH]; intros l k Hk; [lia|]. destruct l as [|x l]; [reflexivity|].
  destruct k as [|k]; [reflexivity|]. cbn. apply IH. lia.
Qed.

Lemma pyslice_inside {X} (l : list X) a b : 0 <= a -> a <= b -> b <= Z.of_nat (length l) ->
  length (pyslice l a b) = Z.to_nat (b - a) /\
  forall k, (k < Z.to_nat (b - a))%nat -> nth_error (pyslice l a b) k = nth_error l (Z.to_nat a + k).
Proof.
  intros Ha Hab Hb. unfold pyslice. rewrite !clip_pos by lia. rewrite !Z.min_r by lia. split.
  - rewrite firstn_length, skipn_length. lia.
  - intros k Hk. rewrite nth_first by exact Hk. apply nth_skip.
Qed.
Lemma pyslice_past {X} (l : list X) a b : 0 <= a <= Z.of_nat (length l) -> Z.of_nat (length l) <= b ->
  length (pyslice l a b) = (length l - Z.to_nat a)%nat.
Proof.
  intros Ha Hb. unfold pyslice. rewrite !clip_pos by lia.
  rewrite (Z.min_r _ a), (Z.min_l _ b) by lia.
  rewrite firstn_length, skipn_length. lia.
Qed.
Lemma pyslice_empty {X} (l : list X) a b : clip (Z.of_nat (length l)) b <= clip (Z.of_nat (length l)) a -> pyslice l a b = [].
Proof.
  intros H. unfold pyslice. set (n := Z.of_nat (length l)) in *.
  replace (Z.to_nat (clip n b - clip n a)) with O by lia. reflexivity.
Qed.

Lemma item_ok {X} (l : list X) i : 0 <= i < Z.of_nat (length l) -> exists v, item l i = Ok v /\ nth_error l (Z.to_nat i) = Some v.
Proof.
  intros Hi. unfold item. replace (i <? 0) with false by (symmetry; apply Z.ltb_ge; lia).
  destruct (nth_error l (Z.to_nat i)) as [v|] eqn:E.
  - exists v. split; [|reflexivity].
    replace (- Z.of_nat (length l) <=? i) with true by (symmetry; apply Z.leb_le; lia).
    replace (i <? Z.of_nat (length l)) with true by (symmetry; apply Z.ltb_lt; lia). reflexivity.
  - exfalso. apply nth_error_None in E. lia.
Qed.
Lemma item_last {X} (l : list X) : l <> [] -> exists v, item l (-1) = Ok v.
Proof.
  intros Hl. unfold item. change (-1 <? 0) with true. cbv iota. destruct l as [|x l]; [contradiction|].
  destruct (nth_error (x :: l) (Z.to_nat (-1 + Z.of_nat (length (x :: l))))) as [v|] eqn:E.
  - exists v. replace (- Z.of_nat (length (x :: l)) <=? -1) with true by (symmetry; apply Z.leb_le; cbn; lia).
    replace (-1 <? Z.of_nat (length (x :: l))) with true by (symmetry; apply Z.ltb_lt; lia). reflexivity.
  - exfalso. apply nth_error_None in E. cbn [length] in *. lia.
Qed.

(** ** The three cases *)

Section Signal.
  Variables (fit : fitter) (S_max : list R).
  Let counts := fst (histogram S_max 1000).
  Let edges := snd (histogram S_max 1000).

  Lemma len_counts : length counts = 1000%nat.
  Proof. unfold counts. cbn [histogram fst]. rewrite map_length, length_zrange. reflexivity. Qed.
  Lemma len_edges : length edges = 1001%nat.
  Proof. unfold edges. cbn [histogram snd]. rewrite map_length, length_zrange. reflexivity. Qed.
  Lemma counts_pos c : In c counts -> 0 <= c.
  Proof. unfold counts. cbn [histogram fst]. intros H. apply in_map_iff in H as (i & <- & _). lia. Qed.
  Lemma counts_ne : counts <> [].
  Proof. intros E. pose proof len_counts as L. rewrite E in L. discriminate L. Qed.
  Lemma modal_exists : exists i, first_modal counts i /\ 0 <= i < 1000.
  Proof.
    destruct (first_modal_exists counts counts_ne counts_pos) as (i & Hi & Hb). exists i. split; [exact Hi|].
    rewrite len_counts in Hb. exact Hb.
  Qed.
  Lemma modal_range i : first_modal counts i -> 0 <= i < 1000.
  Proof.
    intros (m & H0 & Hi & _). split; [exact H0|].
    assert (Z.to_nat i < length counts)%nat by (apply nth_error_Some; congruence). rewrite len_counts in *. lia.
  Qed.

  (** The statements up to the windows. *)
  Definition from_windows (xvalues : list R) (yvalues : list Z) : result R :=
    let yvalues_sum := fold_right Z.add 0%Z yvalues in
    let yvalues := map (fun c => (IZR c / IZR yvalues_sum)%R) yvalues in
    let* xvalues :=
      match xvalues with
      | [] => Ok []
      | _ :: _ => let* x1 := item xvalues 1 in
                  let* x0 := item xvalues 0 in
                  Ok (map (fun v => (v + (x1 - x0) / 2)%R) xvalues)
      end in
    let* norm := item yvalues (Z.of_nat (length yvalues) / 2) in
    let* center := item xvalues (Z.of_nat (length xvalues) / 2) in
    let* right_ := item xvalues (Z.of_nat (length xvalues) / 2 + hist_roi / 2) in
    let* center' := item xvalues (Z.of_nat (length xvalues) / 2) in
    let* params := curve_fit fit xvalues yvalues (norm, center, (right_ - center')%R) in
    let '(_, x_0, sigma) := params in
    Ok (x_0 + 4 * sigma)%R.

  Lemma signal_from_windows i : first_modal counts i ->
    normalizing_signal fit S_max = from_windows (pyslice edges (i - 10) (i + 10)) (pyslice counts (i - 10) (i + 10)).
  Proof.
    intros Hi. pose proof (modal_range i Hi) as Hb. unfold normalizing_signal. fold counts edges.
    rewrite (modal_index_ok counts i counts_ne counts_pos Hi). cbn [bind].
    destruct (item_ok edges i) as (v0 & -> & _); [rewrite len_edges; lia|]. cbn [bind].
    destruct (item_ok edges (i + 1)) as (v1 & -> & _); [rewrite len_edges; lia|]. cbn [bind].
    assert (exists v2, item edges (i - 1) = Ok v2) as (v2 & ->).
    { destruct (Z.eq_dec i 0) as [->|].
      - apply item_last. intros E. pose proof len_edges as L. rewrite E in L. discriminate L.
      - destruct (item_ok edges (i - 1)) as (v & Hv & _); [rewrite len_edges; lia|]. exists v. exact Hv. }
    reflexivity.
  Qed.

  Lemma signal_low i : first_modal counts i -> i < 10 -> normalizing_signal fit S_max = Raise IndexError.
  Proof.
    intros Hi Hlt. pose proof (modal_range i Hi) as Hb. rewrite (signal_from_windows i Hi).
    rewrite !pyslice_empty.
    - reflexivity.
    - rewrite len_counts, clip_pos, clip_neg by lia. lia.
    - rewrite len_edges, clip_pos, clip_neg by lia. lia.
  Qed.

  Lemma windows_fit xs ys : (12 <= length xs)%nat -> (2 <= length ys)%nat ->
    exists x0 x1 p, nth_error xs 0 = Some x0 /\ nth_error xs 1 = Some x1 /\
      from_windows xs ys =
        bind (curve_fit fit (map (fun v => (v + (x1 - x0) / 2)%R) xs)
                (map (fun c => (IZR c / IZR (fold_right Z.add 0%Z ys))%R) ys) p)
             (fun '(_, x_0, sigma) => Ok (x_0 + 4 * sigma)%R).
  Proof.
    intros Hx Hy. unfold from_windows. destruct xs as [|x0 [|x1 xs]]; [cbn in Hx; lia|cbn in Hx; lia|].
    set (X := x0 :: x1 :: xs) in *.
    destruct (item_ok X 1) as (v1 & E1 & N1); [lia|]. destruct (item_ok X 0) as (v0 & E0 & N0); [lia|].
    rewrite E1; cbn [bind]. rewrite E0; cbn [bind].
    set (X' := map (fun v => (v + (v1 - v0) / 2)%R) X). assert (LX : length X' = length X) by apply map_length.
    set (Y' := map _ ys). assert (LY : length Y' = length ys) by apply map_length.
    assert (Hd : Z.of_nat (length X) / 2 + 5 < Z.of_nat (length X)).
    { assert (Z.of_nat (length X) / 2 <= Z.of_nat (length X) - 6); [|lia].
      assert (12 <= Z.of_nat (length X)) by lia.
      pose proof (Z.mul_div_le (Z.of_nat (length X)) 2). lia. }
    assert (Hd0 : 0 <= Z.of_nat (length X) / 2) by (apply Z.div_pos; lia).
    destruct (item_ok Y' (Z.of_nat (length Y') / 2)) as (n & En & _).
    { rewrite LY. split; [apply Z.div_pos; lia|]. apply Z.div_lt; lia. }
    rewrite En; cbn [bind].
    destruct (item_ok X' (Z.of_nat (length X') / 2)) as (c & Ec & _); [rewrite LX; lia|].
    destruct (item_ok X' (Z.of_nat (length X') / 2 + hist_roi / 2)) as (r & Er & _).
    { rewrite LX. change (hist_roi / 2) with 5. lia. }
    rewrite Ec; cbn [bind]. rewrite Er; cbn [bind].
    exists v0, v1, (n, c, (r - c)%R). split; [exact N0|]. split; [exact N1|]. reflexivity.
  Qed.

  Lemma signal_high i : first_modal counts i -> 990 < i -> normalizing_signal fit S_max = Raise ValueError.
  Proof.
    intros Hi Hgt. pose proof (modal_range i Hi) as Hb. rewrite (signal_from_windows i Hi).
    assert (LX : length (pyslice edges (i - 10) (i + 10)) = (1001 - Z.to_nat (i - 10))%nat).
    { rewrite pyslice_past; rewrite len_edges; [reflexivity|lia|lia]. }
    assert (LY : length (pyslice counts (i - 10) (i + 10)) = (1000 - Z.to_nat (i - 10))%nat).
    { rewrite pyslice_past; rewrite len_counts; [reflexivity|lia|lia]. }
    destruct (windows_fit (pyslice edges (i - 10) (i + 10)) (pyslice counts (i - 10) (i + 10)))
      as (x0 & x1 & p & _ & _ & ->); [rewrite LX; lia|rewrite LY; lia|].
    unfold curve_fit. rewrite !map_length, LX, LY.
    replace (1001 - Z.to_nat (i - 10) =? 1000 - Z.to_nat (i - 10))%nat with false
      by (symmetry; apply Nat.eqb_neq; lia).
    reflexivity.
  Qed.

  Lemma signal_mid i : first_modal counts i -> 10 <= i <= 990 ->
    exists xs ys p,
      (length xs = 20%nat /\ length ys = 20%nat) /\
      (forall k, (k < 20)%nat -> exists c, nth_error counts (Z.to_nat (i - 10) + k) = Some c /\
         nth_error ys k = Some (IZR c / IZR (fold_right Z.add 0%Z (pyslice counts (i - 10) (i + 10))))%R) /\
      (forall k, (k < 20)%nat -> nth_error xs k =
         Some ((edge S_max 1000 (i - 10 + Z.of_nat k) + edge S_max 1000 (i - 10 + Z.of_nat k + 1)) / 2)%R) /\
      normalizing_signal fit S_max = bind (fit xs ys p) (fun '(_, x_0, sigma) => Ok (x_0 + 4 * sigma)%R).
  Proof.
    intros Hi Hm. rewrite (signal_from_windows i Hi).
    destruct (pyslice_inside edges (i - 10) (i + 10)) as (LX & NX); [lia|lia|rewrite len_edges; lia|].
    destruct (pyslice_inside counts (i - 10) (i + 10)) as (LY & NY); [lia|lia|rewrite len_counts; lia|].
    replace (Z.to_nat (i + 10 - (i - 10))) with 20%nat in * by lia.
    destruct (windows_fit (pyslice edges (i - 10) (i + 10)) (pyslice counts (i - 10) (i + 10)))
      as (x0 & x1 & p & N0 & N1 & ->); [rewrite LX; lia|rewrite LY; lia|].
    assert (NE : forall k, (k < 20)%nat -> nth_error (pyslice edges (i - 10) (i + 10)) k =
                 Some (edge S_max 1000 (i - 10 + Z.of_nat k))).
    { intros k Hk. rewrite NX by exact Hk. unfold edges. cbn [histogram snd]. rewrite nth_error_map.
      replace (Z.to_nat (i - 10) + k)%nat with (Z.to_nat (i - 10 + Z.of_nat k)) by lia.
      rewrite nth_error_zrange by lia. reflexivity. }
    rewrite NE in N0, N1 by lia. injection N0 as <-. injection N1 as <-.
    unfold curve_fit. rewrite !map_length, LX, LY. cbn [Nat.eqb negb].
    do 2 eexists. exists p. split; [split; [rewrite map_length; exact LX|rewrite map_length; exact LY]|].
    split; [|split; [|reflexivity]].
    - intros k Hk. rewrite nth_error_map, NY by exact Hk.
      destruct (nth_error counts (Z.to_nat (i - 10) + k)) as [c|] eqn:E.
      + exists c. split; reflexivity.
      + exfalso. apply nth_error_None in E. rewrite len_counts in E. lia.
    - intros k Hk. rewrite nth_error_map, NE by exact Hk. cbn [option_map]. f_equal.
      unfold edge. destruct (hist_range S_max) as [a b]. rewrite !plus_IZR, !minus_IZR. cbn [Z.of_nat]. lra.
  Qed.
End Signal.

(** ** Where the peak of an image with many equal pixels is *)

Lemma filter_disjoint {X} (p q : X -> bool) (l : list X) :
  (forall v, In v l -> p v = true -> q v = false) -> (length (filter p l) + length (filter q l) <= length l)%nat.
Proof.
  induction l as [|v l IH]; intros Hd; [cbn; lia|]. cbn [filter].
  assert (IH' : (length (filter p l) + length (filter q l) <= length l)%nat) by (apply IH; intros u Hu; apply Hd; right; exact Hu).
  specialize (Hd v (or_introl eq_refl)). destruct (p v); [rewrite Hd by reflexivity; cbn; lia|].
  destruct (q v); cbn; lia.
Qed.
Lemma filter_sub {X} (p q : X -> bool) (l : list X) :
  (forall v, In v l -> p v = true -> q v = true) -> (length (filter p l) <= length (filter q l))%nat.
Proof.
  induction l as [|v l IH]; intros Hd; [cbn; lia|]. cbn [filter].
  assert (IH' : (length (filter p l) <= length (filter q l))%nat) by (apply IH; intros u Hu; apply Hd; right; exact Hu).
  specialize (Hd v (or_introl eq_refl)). destruct (p v); [rewrite Hd by reflexivity; cbn; lia|].
  destruct (q v); cbn; lia.
Qed.

Lemma smallest_spec v l : is_min (smallest v l) (v :: l).
Proof.
  unfold smallest. revert v. induction l as [|u l IH]; intros v; cbn [fold_left].
  - split; [left; reflexivity|]. intros w [->|[]]. lra.
  - destruct (IH (Rmin v u)) as (Hin & Hle). split.
    + destruct Hin as [E|Hin]; [|right; right; exact Hin]. rewrite <- E. unfold Rmin. destruct (Rle_dec v u); [left|right; left]; reflexivity.
    + pose proof (Hle _ (or_introl eq_refl)) as H0. pose proof (Rmin_l v u). pose proof (Rmin_r v u).
      intros w [<-|[<-|Hw]]; [lra|lra|]. apply Hle. right. exact Hw.
Qed.
Lemma largest_spec v l : is_max (largest v l) (v :: l).
Proof.
  unfold largest. revert v. induction l as [|u l IH]; intros v; cbn [fold_left].
  - split; [left; reflexivity|]. intros w [->|[]]. lra.
  - destruct (IH (Rmax v u)) as (Hin & Hle). split.
    + destruct Hin as [E|Hin]; [|right; right; exact Hin]. rewrite <- E. unfold Rmax. destruct (Rle_dec v u); [right; left|left]; reflexivity.
    + pose proof (Hle _ (or_introl eq_refl)) as H0. pose proof (Rmax_l v u). pose proof (Rmax_r v u).
      intros w [<-|[<-|Hw]]; [lra|lra|]. apply Hle. right. exact Hw.
Qed.
Lemma min_unique a b l : is_min a l -> is_min b l -> a = b.
Proof. intros (Ia & La) (Ib & Lb). apply Rle_antisym; [apply La|apply Lb]; assumption. Qed.
Lemma max_unique a b l : is_max a l -> is_max b l -> a = b.
Proof. intros (Ia & La) (Ib & Lb). apply Rle_antisym; [apply Lb|apply La]; assumption. Qed.

Lemma hist_range_ok l a b : is_min a l -> is_max b l -> a <> b -> hist_range l = (a, b).
Proof.
  intros Ha Hb Hne. destruct l as [|v l]; [destruct Ha as ([] & _)|]. cbn [hist_range].
  rewrite (min_unique _ _ _ (smallest_spec v l) Ha), (max_unique _ _ _ (largest_spec v l) Hb).
  unfold Reqb. destruct (Req_EM_T a b); [contradiction|reflexivity].
Qed.

Lemma Rleb_true x y : Rleb x y = true <-> (x <= y)%R.
Proof. unfold Rleb. destruct (Rle_dec x y); split; intros; try assumption; try reflexivity; try discriminate; contradiction. Qed.
Lemma Rltb_true x y : Rltb x y = true <-> (x < y)%R.
Proof. unfold Rltb. destruct (Rlt_dec x y); split; intros; try assumption; try reflexivity; try discriminate; contradiction. Qed.

Section Peaks.
  Variables (l : list R) (a b : R).
  Hypotheses (Ha : is_min a l) (Hb : is_max b l) (Hne : a <> b).
  Let counts := fst (histogram l 1000).

  Lemma a_lt_b : (a < b)%R.
  Proof. destruct Ha as (Ia & La), Hb as (Ib & _). specialize (La b Ib). lra. Qed.
  Lemma edge_ok k : edge l 1000 k = (a + IZR k * ((b - a) / 1000))%R.
  Proof. unfold edge. rewrite (hist_range_ok l a b Ha Hb Hne). reflexivity. Qed.
  Lemma nth_counts i : 0 <= i < 1000 ->
    nth_error counts (Z.to_nat i) = Some (Z.of_nat (length (filter (in_bin l 1000 i) l))).
  Proof. intros Hi. unfold counts. cbn [histogram fst]. rewrite nth_error_map, nth_error_zrange by exact Hi. reflexivity. Qed.

  Lemma dark_modal : Z.of_nat (length l) < 2 * occurrences a l -> first_modal counts 0.
  Proof.
    intros Hocc. exists (Z.of_nat (length (filter (in_bin l 1000 0) l))).
    split; [lia|]. split; [apply (nth_counts 0); lia|]. split; [|intros; lia].
    intros j c Hc. assert (Hj : (j < 1000)%nat).
    { pose proof (len_counts l) as L. fold counts in L. rewrite <- L. apply nth_error_Some. congruence. }
    replace j with (Z.to_nat (Z.of_nat j)) in Hc by lia. rewrite nth_counts in Hc by lia. injection Hc as <-.
    destruct (Nat.eq_dec j 0) as [->|Hj0]; [apply Z.le_refl|].
    unfold occurrences in Hocc. set (eq_a := fun u => if Req_EM_T u a then true else false) in Hocc.
    pose proof a_lt_b as Hlt.
    assert (S1 : (length (filter eq_a l) <= length (filter (in_bin l 1000 0) l))%nat).
    { apply filter_sub. intros v Hv E. unfold eq_a in E. destruct (Req_EM_T v a) as [->|]; [|discriminate].
      unfold in_bin. rewrite !edge_ok. apply andb_true_intro. split; [apply Rleb_true; lra|].
      apply orb_true_intro. left. apply Rltb_true. change (0 + 1) with 1. lra. }
    assert (S2 : (length (filter (in_bin l 1000 (Z.of_nat j)) l) + length (filter eq_a l) <= length l)%nat).
    { apply filter_disjoint. intros v Hv E. unfold in_bin in E. rewrite !edge_ok in E.
      apply andb_prop in E as (E & _). apply Rleb_true in E. unfold eq_a. destruct (Req_EM_T v a) as [->|]; [|reflexivity].
      exfalso. assert (1 <= IZR (Z.of_nat j))%R by (apply (IZR_le 1); lia). nra. }
    lia.
  Qed.

  Lemma bright_modal : Z.of_nat (length l) < 2 * occurrences b l -> first_modal counts 999.
  Proof.
    intros Hocc. exists (Z.of_nat (length (filter (in_bin l 1000 999) l))).
    split; [lia|]. split; [apply (nth_counts 999); lia|].
    assert (G : forall j c, (j < 999)%nat -> nth_error counts j = Some c -> c < Z.of_nat (length (filter (in_bin l 1000 999) l))).
    { intros j c Hj Hc. replace j with (Z.to_nat (Z.of_nat j)) in Hc by lia. rewrite nth_counts in Hc by lia. injection Hc as <-.
      unfold occurrences in Hocc. set (eq_b := fun u => if Req_EM_T u b then true else false) in Hocc.
      pose proof a_lt_b as Hlt.
      assert (S1 : (length (filter eq_b l) <= length (filter (in_bin l 1000 999) l))%nat).
      { apply filter_sub. intros v Hv E. unfold eq_b in E. destruct (Req_EM_T v b) as [->|]; [|discriminate].
        unfold in_bin. rewrite !edge_ok. apply andb_true_intro. split; [apply Rleb_true; lra|].
        apply orb_true_intro. right. apply andb_true_intro. split; [reflexivity|]. apply Rleb_true. lra. }
      assert (S2 : (length (filter (in_bin l 1000 (Z.of_nat j)) l) + length (filter eq_b l) <= length l)%nat).
      { apply filter_disjoint. intros v Hv E. unfold in_bin in E. rewrite !edge_ok in E.
        apply andb_prop in E as (_ & E). apply orb_prop in E as [E|E].
        - apply Rltb_true in E. unfold eq_b. destruct (Req_EM_T v b) as [->|]; [|reflexivity].
          exfalso. assert (IZR (Z.of_nat j + 1) <= 999)%R by (apply IZR_le; lia). nra.
        - apply andb_prop in E as (E & _). apply Z.eqb_eq in E. lia. }
      lia. }
    split; [|intros j c Hj; apply G; lia].
    intros j c Hc. assert (Hj : (j < 1000)%nat).
    { pose proof (len_counts l) as L. fold counts in L. rewrite <- L. apply nth_error_Some. congruence. }
    destruct (Nat.eq_dec j 999) as [->|]; [|specialize (G j c ltac:(lia) Hc); lia].
    change 999%nat with (Z.to_nat 999) in Hc. rewrite nth_counts in Hc by lia. injection Hc as <-. lia.
  Qed.
End Peaks.

Lemma c68_dark fit l a b : is_min a l -> is_max b l -> a <> b -> Z.of_nat (length l) < 2 * occurrences a l ->
  normalizing_signal fit l = Raise IndexError.
Proof. intros Ha Hb Hne Ho. apply (signal_low fit l 0); [apply (dark_modal l a b); assumption|lia]. Qed.
Lemma c68_bright fit l a b : is_min a l -> is_max b l -> a <> b -> Z.of_nat (length l) < 2 * occurrences b l ->
  normalizing_signal fit l = Raise ValueError.
Proof. intros Ha Hb Hne Ho. apply (signal_high fit l 999); [apply (bright_modal l a b); assumption|lia]. Qed.

(** A value taken by more than half of the pixels decides the bin. *)
Lemma majority_modal l a b v i : is_min a l -> is_max b l -> a <> b -> 0 <= i < 999 ->
  (a + IZR i * ((b - a) / 1000) <= v < a + IZR (i + 1) * ((b - a) / 1000))%R ->
  Z.of_nat (length l) < 2 * occurrences v l -> first_modal (fst (histogram l 1000)) i.
Proof.
  intros Ha Hb Hne Hi Hv Hocc. exists (Z.of_nat (length (filter (in_bin l 1000 i) l))).
  split; [lia|]. split; [apply nth_counts; lia|].
  assert (G : forall j c, j <> Z.to_nat i -> nth_error (fst (histogram l 1000)) j = Some c -> c < Z.of_nat (length (filter (in_bin l 1000 i) l))).
  { intros j c Hji Hc.
    assert (Hj : (j < 1000)%nat) by (rewrite <- (len_counts l); apply nth_error_Some; congruence).
    replace j with (Z.to_nat (Z.of_nat j)) in Hc by lia. rewrite nth_counts in Hc by lia. injection Hc as <-.
    unfold occurrences in Hocc. set (eq_v := fun u => if Req_EM_T u v then true else false) in Hocc.
    pose proof (a_lt_b l a b Ha Hb Hne) as Hlt.
    assert (S1 : (length (filter eq_v l) <= length (filter (in_bin l 1000 i) l))%nat).
    { apply filter_sub. intros u Hu E. unfold eq_v in E. destruct (Req_EM_T u v) as [->|]; [|discriminate].
      unfold in_bin. rewrite !(edge_ok l a b Ha Hb Hne). apply andb_true_intro. split; [apply Rleb_true; lra|].
      apply orb_true_intro. left. apply Rltb_true. lra. }
    assert (S2 : (length (filter (in_bin l 1000 (Z.of_nat j)) l) + length (filter eq_v l) <= length l)%nat).
    { apply filter_disjoint. intros u Hu E. unfold in_bin in E. rewrite !(edge_ok l a b Ha Hb Hne) in E.
      apply andb_prop in E as (E1 & E2). apply Rleb_true in E1. unfold eq_v. destruct (Req_EM_T u v) as [->|]; [|reflexivity].
      exfalso. destruct (Z_lt_le_dec (Z.of_nat j) i) as [Hs|Hs].
      - apply orb_prop in E2 as [E2|E2]; [|apply andb_prop in E2 as (E2 & _); apply Z.eqb_eq in E2; lia].
        apply Rltb_true in E2. assert (IZR (Z.of_nat j + 1) <= IZR i)%R by (apply IZR_le; lia). nra.
      - assert (IZR (i + 1) <= IZR (Z.of_nat j))%R by (apply IZR_le; lia). nra. }
    lia. }
  split.
  - intros j c Hc. destruct (Nat.eq_dec j (Z.to_nat i)) as [->|Hji]; [|apply Z.lt_le_incl; exact (G j c Hji Hc)].
    rewrite nth_counts in Hc by lia. injection Hc as <-. apply Z.le_refl.
  - intros j c Hj. apply G. lia.
Qed.

(** ** The image of which the histogram is taken *)
Lemma pixels_same (a b : arr R) : rows a = rows b -> cols a = cols b ->
  (forall y x, 0 <= y < rows b -> 0 <= x < cols b -> cell a y x = cell b y x) -> pixels a = pixels b.
Proof.
  intros Er Ec E. unfold pixels, to_list. rewrite Er, Ec. f_equal. apply map_ext_in. intros y Hy. apply map_ext_in. intros x Hx.
  apply in_zrange in Hy. apply in_zrange in Hx. apply E; assumption.
Qed.
Lemma c68_half_sum fit (q : quad R) (a : arr R) : rows a = rows (q0 q) -> cols a = cols (q0 q) ->
  (forall y x, 0 <= y < rows a -> 0 <= x < cols a ->
     cell a y x = ((cell (q0 q) y x + cell (q1 q) y x + cell (q2 q) y x + cell (q3 q) y x) / 2)%R) ->
  get_malus_normalization fit q = normalizing_signal fit (pixels a).
Proof.
  intros Er Ec E. unfold get_malus_normalization. f_equal. symmetry. apply pixels_same; [exact Er|exact Ec|].
  cbn [rows cols cell]. intros y x Hy Hx. rewrite E by lia. lra.
Qed.
