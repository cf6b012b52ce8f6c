(** Median filter and cleaning of hot pixels. *)
From Coq Require Import Reals Lra Lia Permutation Sorting.Sorted.
From Verif Require Import Base.Base Base.BaseFacts Base.Num Model.Demosaic Model.Stokes Model.ImageObj Model.Cleaning Model.MedianFilter
  Proofs.ObjViews Proofs.ObjMore Spec.ImageSpec Spec.MosaicSpec Spec.MedianSpec.

Section Order.
  Context {A : Type} (leb : A -> A -> bool) (O : orders leb).

  Lemma insert_perm v l : Permutation (v :: l) (insert leb v l).
  Proof.
    induction l as [|u l IH]; cbn [insert]; [reflexivity|]. destruct (leb v u); [reflexivity|].
    rewrite perm_swap. constructor. exact IH.
  Qed.
  Lemma sort_perm l : Permutation l (sort leb l).
  Proof. induction l as [|u l IH]; cbn [sort fold_right]; [reflexivity|]. rewrite <- insert_perm. constructor. exact IH. Qed.

  Lemma insert_sorted v l : StronglySorted (fun a b => leb a b = true) l -> StronglySorted (fun a b => leb a b = true) (insert leb v l).
  Proof.
    destruct O as (T & Tr). induction 1 as [|u l S IH F]; cbn [insert].
    - constructor; constructor.
    - destruct (leb v u) eqn:E.
      + constructor; [constructor; assumption|]. constructor; [exact E|]. rewrite Forall_forall in F |- *. intros w Hw. exact (Tr _ _ _ E (F w Hw)).
      + constructor; [exact IH|]. rewrite Forall_forall in F |- *. intros w Hw.
        apply (Permutation_in w (Permutation_sym (insert_perm v l))) in Hw. destruct Hw as [<-|Hw]; [|exact (F w Hw)].
        destruct (T u v) as [H|H]; [exact H|congruence].
  Qed.
  Lemma sort_sorted l : StronglySorted (fun a b => leb a b = true) (sort leb l).
  Proof. induction l as [|u l IH]; cbn [sort fold_right]; [constructor|]. apply insert_sorted. exact IH. Qed.

  Lemma sorted_app l1 l2 : StronglySorted (fun a b => leb a b = true) (l1 ++ l2) ->
    StronglySorted (fun a b => leb a b = true) l2 /\ forall u v, In u l1 -> In v l2 -> leb u v = true.
  Proof.
    induction l1 as [|w l1 IH]; cbn [app]; intros S; [split; [exact S|intros u v []]|].
    inversion S as [|w' l' S' F]; subst. destruct (IH S') as (S2 & H). split; [exact S2|].
    intros u v [<-|Hu] Hv; [|exact (H u v Hu Hv)]. rewrite Forall_forall in F. apply F, in_or_app. right. exact Hv.
  Qed.

  Lemma filter_none (p : A -> bool) l : (forall u, In u l -> p u = false) -> filter p l = [].
  Proof. induction l as [|u l IH]; intros H; cbn [filter]; [reflexivity|]. rewrite (H u (or_introl eq_refl)). apply IH. intros w Hw. apply H. right. exact Hw. Qed.
  Lemma filter_short (p : A -> bool) l : (length (filter p l) <= length l)%nat.
  Proof. induction l as [|u l IH]; cbn [filter length]; [lia|]. destruct (p u); cbn [length]; lia. Qed.
  Lemma perm_filter (p : A -> bool) l m : Permutation l m -> length (filter p l) = length (filter p m).
  Proof.
    induction 1 as [|u l m H IH|u v l|l m n H1 IH1 H2 IH2]; cbn [filter]; [reflexivity| | |congruence].
    - destruct (p u); cbn [length]; congruence.
    - destruct (p u), (p v); reflexivity.
  Qed.

  Lemma ranked_perm k l m v : Permutation l m -> ranked leb k m v -> ranked leb k l v.
  Proof.
    intros P (I & B & C). split; [exact (Permutation_in v (Permutation_sym P) I)|].
    rewrite !(perm_filter _ _ _ P), (Permutation_length P). split; assumption.
  Qed.

  Lemma sorted_ranked k l d : StronglySorted (fun a b => leb a b = true) l -> (k < length l)%nat -> ranked leb k l (nth k l d).
  Proof.
    intros S Hk. destruct (nth_split l d Hk) as (l1 & l2 & E & E1). set (v := nth k l d) in *.
    rewrite E in S. destruct (sorted_app l1 (v :: l2) S) as (S2 & H). inversion S2 as [|w l' S3 F]; subst w l'.
    rewrite Forall_forall in F. destruct O as (T & Tr). assert (Rv : leb v v = true) by (destruct (T v v); assumption).
    split; [|rewrite E, !filter_app, !app_length; split].
    - apply nth_In. exact Hk.
    - rewrite (filter_none _ (v :: l2)).
      + cbn [length]. pose proof (filter_short (fun u => negb (leb v u)) l1). lia.
      + intros u [<-|Hu]; apply Bool.negb_false_iff; auto.
    - rewrite (filter_none _ l1).
      + cbn [filter]. rewrite Rv. cbn [negb length]. pose proof (filter_short (fun u => negb (leb u v)) l2). lia.
      + intros u Hu. apply Bool.negb_false_iff, H; [exact Hu|left; reflexivity].
  Qed.
  Lemma sort_length l : length (sort leb l) = length l.
  Proof. symmetry. apply Permutation_length, sort_perm. Qed.
  Lemma sort_ranked k l d : (k < length l)%nat -> ranked leb k l (nth k (sort leb l) d).
  Proof. intros Hk. apply (ranked_perm k l _ _ (sort_perm l)). apply sorted_ranked; [apply sort_sorted|rewrite sort_length; exact Hk]. Qed.

  Lemma zrange_length n : length (zrange n) = Z.to_nat n.
  Proof. unfold zrange. rewrite map_length, seq_length. reflexivity. Qed.
  Lemma block_length {B C D} (f : B -> C -> D) l m : length (flat_map (fun i => map (fun j => f i j) m) l) = (length l * length m)%nat.
  Proof. induction l as [|i l IH]; cbn [flat_map length]; [reflexivity|]. rewrite app_length, map_length, IH. reflexivity. Qed.
  Lemma window_length (a : arr A) size y x : 0 < size -> length (window a size y x) = Z.to_nat (size * size).
  Proof. intros H. unfold window. rewrite block_length, zrange_length. rewrite Z2Nat.inj_mul by lia. reflexivity. Qed.

  Lemma reflect_side n i : 0 < n -> - n <= i < 2 * n -> reflect n i = (if i <? 0 then - 1 - i else if i <? n then i else 2 * n - 1 - i).
  Proof.
    intros Hn Hi. unfold reflect. cbv zeta. destruct (Z.ltb_spec i 0) as [H|H].
    - assert (E : i mod (2 * n) = i + 2 * n) by (symmetry; apply (Z.mod_unique i (2 * n) (-1)); lia). rewrite E.
      destruct (Z.ltb_spec (i + 2 * n) n) as [K|K]; lia.
    - assert (E : i mod (2 * n) = i) by (apply Z.mod_small; lia). rewrite E. reflexivity.
  Qed.

  Lemma in_zrange n i : In i (zrange n) -> 0 <= i < n.
  Proof. unfold zrange. rewrite in_map_iff. intros (k & <- & H). apply in_seq in H. lia. Qed.

  Lemma window_around (a : arr A) size y x : 0 < size -> size <= 2 * rows a -> size <= 2 * cols a -> 0 <= y < rows a -> 0 <= x < cols a ->
    window a size y x = around a size y x.
  Proof.
    intros Hs Hr Hc Hy Hx. unfold window, around, mirrored.
    assert (D : size / 2 <= rows a /\ size / 2 <= cols a /\ 0 <= size / 2 /\ size - size / 2 - 1 <= size / 2).
    { clear - Hs Hr Hc. Z.to_euclidean_division_equations. lia. }
    rewrite !flat_map_concat_map. f_equal. apply map_ext_in. intros i Hi. apply map_ext_in. intros j Hj.
    apply in_zrange in Hi. apply in_zrange in Hj. rewrite !reflect_side by (clear - D Hi Hj Hy Hx Hs Hr Hc; lia). reflexivity.
  Qed.

  Lemma c152_median (a : arr A) size y x : 0 < size -> size <= 2 * rows a -> size <= 2 * cols a -> 0 <= y < rows a -> 0 <= x < cols a ->
    ranked leb (Z.to_nat (size * size / 2)) (around a size y x) (cell (filtered leb a size) y x).
  Proof.
    intros Hs Hr Hc Hy Hx. rewrite <- window_around by assumption. cbn [filtered cell]. apply sort_ranked.
    rewrite window_length by exact Hs. assert (1 <= size * size) by nia. apply Z2Nat.inj_lt; [| |]; Z.to_euclidean_division_equations; lia.
  Qed.

  Lemma c152_few (a : arr A) size y x v : 0 < size -> size <= 2 * rows a -> size <= 2 * cols a -> 0 <= y < rows a -> 0 <= x < cols a ->
    (2 * length (filter (fun u => negb (leb u v)) (around a size y x)) < Z.to_nat (size * size))%nat -> leb (cell (filtered leb a size) y x) v = true.
  Proof.
    intros Hs Hr Hc Hy Hx H. destruct (c152_median a size y x Hs Hr Hc Hy Hx) as (I & B & C). set (m := cell (filtered leb a size) y x) in *.
    destruct (leb m v) eqn:E; [reflexivity|exfalso]. destruct O as (T & Tr).
    assert (L : length (around a size y x) = Z.to_nat (size * size)) by (rewrite <- window_around by assumption; apply window_length; exact Hs).
    assert (K : forall l, (length l <= length (filter (fun u => negb (leb u v)) l) + length (filter (fun u => negb (leb m u)) l))%nat).
    { intros l. clear - T Tr E. induction l as [|u l IH]; cbn [filter length]; [lia|].
      destruct (leb u v) eqn:Eu; destruct (leb m u) eqn:Em; cbn [negb length]; try lia. rewrite (Tr m u v Em Eu) in E. discriminate. }
    specialize (K (around a size y x)). rewrite L in K. assert (N : 1 <= size * size) by nia.
    clear - H B K N. assert (Z.to_nat (size * size / 2) = Z.to_nat (size * size) / 2)%nat as Q by (rewrite Z2Nat.inj_div by lia; reflexivity).
    rewrite Q in B. pose proof (Nat.div_mod (Z.to_nat (size * size)) 2 ltac:(lia)) as M. pose proof (Nat.mod_upper_bound (Z.to_nat (size * size)) 2 ltac:(lia)). lia.
  Qed.
End Order.

(** ** Changes of scale *)
Section Scale.
  Context {A B : Type} (leA : A -> A -> bool) (leB : B -> B -> bool) (f : A -> B) (F : forall u v, leB (f u) (f v) = leA u v).
  Lemma insert_map v l : insert leB (f v) (map f l) = map f (insert leA v l).
  Proof. induction l as [|u l IH]; cbn [insert map]; [reflexivity|]. rewrite F. destruct (leA v u); cbn [map]; [reflexivity|]. rewrite IH. reflexivity. Qed.
  Lemma sort_map l : sort leB (map f l) = map f (sort leA l).
  Proof. induction l as [|u l IH]; cbn [sort fold_right map]; [reflexivity|]. fold (sort leB (map f l)). rewrite IH. apply insert_map. Qed.
  Lemma c152_scale (a : arr A) size y x : cell (filtered leB (amap f a) size) y x = f (cell (filtered leA a size) y x).
  Proof.
    cbn [filtered cell]. unfold window_median. change (cell (amap f a) y x) with (f (cell a y x)). rewrite <- (map_nth f), <- sort_map. f_equal. f_equal.
    unfold window. rewrite !flat_map_concat_map, concat_map, !map_map. f_equal. apply map_ext. intros i. rewrite map_map. reflexivity.
  Qed.
End Scale.

(** ** Windows of four pixels *)
Local Open Scope R_scope.
Lemma Rleb_orders : orders Rleb.
Proof.
  split.
  - intros u v. unfold Rleb. destruct (Rle_dec u v); [left; reflexivity|]. destruct (Rle_dec v u); [right; reflexivity|lra].
  - intros u v w. unfold Rleb. destruct (Rle_dec u v); [|discriminate]. destruct (Rle_dec v w); [|discriminate]. destruct (Rle_dec u w); [reflexivity|lra].
Qed.

Ltac cases := unfold Rleb; repeat (match goal with |- context [Rle_dec ?u ?v] => is_var u; is_var v; destruct (Rle_dec u v) end; cbn [insert nth sort fold_right]).
Definition third (a b c d : R) : R := nth 2 (sort Rleb [a; b; c; d]) d.
Lemma third_largest a b c d : a <= d -> b <= d -> c <= d -> third a b c d = largest3 a b c.
Proof. intros H1 H2 H3. unfold third, largest3, Rmax. cbn [sort fold_right insert]. cases; lra. Qed.
Lemma third_middle a b c d : d <= a -> d <= b -> d <= c -> third a b c d = middle3 a b c.
Proof. intros H1 H2 H3. unfold third, middle3, Rmax, Rmin. cbn [sort fold_right insert]. cases; lra. Qed.
Lemma third_pairs a d : third a d a d = Rmax a d /\ third a a d d = Rmax a d /\ third d d d d = d.
Proof. unfold third, Rmax. cbn [sort fold_right insert]. split; [|split]; cases; lra. Qed.
Lemma third_two a b c d m : m <= d -> (m <= a \/ m <= b \/ m <= c) -> m <= third a b c d.
Proof. intros H1 H2. unfold third. cbn [sort fold_right insert]. destruct H2 as [H2|[H2|H2]]; cases; lra. Qed.

Lemma median_four a y x : window_median Rleb a 2 y x =
  third (cell a (reflect (rows a) (y - 1)) (reflect (cols a) (x - 1))) (cell a (reflect (rows a) (y - 1)) (reflect (cols a) x))
        (cell a (reflect (rows a) y) (reflect (cols a) (x - 1))) (cell a (reflect (rows a) y) (reflect (cols a) x)).
Proof.
  unfold window_median, third, window. change (Z.to_nat (2 * 2 / 2)) with 2%nat. change (2 / 2)%Z with 1%Z. change (zrange 2) with [0%Z; 1%Z].
  cbn [flat_map map app]. rewrite !Z.add_0_r. replace (y - 1 + 1)%Z with y by lia. replace (x - 1 + 1)%Z with x by lia.
  apply nth_indep. rewrite sort_length. cbn [length]. lia.
Qed.

(** ** Pixels of images *)
Lemma reflect_in n i : (0 <= i < n)%Z -> reflect n i = i.
Proof. intros H. rewrite reflect_side by lia. destruct (Z.ltb_spec i 0); [lia|]. destruct (Z.ltb_spec i n); [reflexivity|lia]. Qed.
Lemma reflect_before n : (0 < n)%Z -> reflect n (-1) = 0%Z.
Proof. intros H. rewrite reflect_side by lia. reflexivity. Qed.

Lemma sample_here {A} (d : arr A) y x dy dx : sample d (family y x) (y / 2 - dy) (x / 2 - dx) = cell d (y - 2 * dy) (x - 2 * dx).
Proof.
  unfold sample, family. f_equal; Z.to_euclidean_division_equations; lia.
Qed.

Section Pixels.
  Context (d : arr R) (M : mosaic d) (y x : Z) (Hy : (0 <= y < rows d)%Z) (Hx : (0 <= x < cols d)%Z).
  Let m : R := window_median Rleb (family_image d (family y x)) 2 (y / 2) (x / 2).
  Lemma fam_in : (0 <= y / 2 < rows d / 2)%Z /\ (0 <= x / 2 < cols d / 2)%Z.
  Proof. destruct M as (M1 & M2 & M3 & M4). clear - Hy Hx M1 M2 M3 M4. Z.to_euclidean_division_equations. lia. Qed.
  Lemma fam_cell dy dx : cell (family_image d (family y x)) (y / 2 - dy) (x / 2 - dx) = cell d (y - 2 * dy) (x - 2 * dx).
  Proof. apply sample_here. Qed.
  Lemma fam_cell00 : cell (family_image d (family y x)) (y / 2) (x / 2) = cell d y x.
  Proof. pose proof (fam_cell 0 0) as E. rewrite !Z.sub_0_r in E. exact E. Qed.
  Lemma fam_cell10 : cell (family_image d (family y x)) (y / 2 - 1) (x / 2) = above d y x.
  Proof. pose proof (fam_cell 1 0) as E. change (2 * 1)%Z with 2%Z in E. rewrite !Z.sub_0_r in E. exact E. Qed.
  Lemma fam_cell01 : cell (family_image d (family y x)) (y / 2) (x / 2 - 1) = left d y x.
  Proof. pose proof (fam_cell 0 1) as E. change (2 * 1)%Z with 2%Z in E. rewrite !Z.sub_0_r in E. exact E. Qed.
  Lemma fam_cell11 : cell (family_image d (family y x)) (y / 2 - 1) (x / 2 - 1) = corner d y x.
  Proof. exact (fam_cell 1 1). Qed.

  Lemma inside_third : (2 <= y)%Z -> (2 <= x)%Z -> m = third (corner d y x) (above d y x) (left d y x) (cell d y x).
  Proof.
    intros Iy Ix. destruct fam_in as (Fy & Fx). assert (1 <= y / 2 /\ 1 <= x / 2)%Z as (By & Bx) by (clear - Iy Ix; Z.to_euclidean_division_equations; lia).
    unfold m. rewrite median_four. cbn [family_image rows cols]. rewrite !reflect_in by lia.
    change (mkarr (rows d / 2) (cols d / 2) (sample d (family y x))) with (family_image d (family y x)).
    rewrite fam_cell00, fam_cell10, fam_cell01, fam_cell11. reflexivity.
  Qed.
  Lemma top_third : (y < 2)%Z -> (2 <= x)%Z -> m = Rmax (left d y x) (cell d y x).
  Proof.
    intros Iy Ix. destruct fam_in as (Fy & Fx). assert (y / 2 = 0 /\ 1 <= x / 2)%Z as (By & Bx) by (clear - Iy Ix Hy; Z.to_euclidean_division_equations; lia).
    unfold m. rewrite median_four. cbn [family_image rows cols]. rewrite By at 1 2. change (0 - 1)%Z with (-1)%Z. rewrite reflect_before by lia.
    rewrite !reflect_in by lia. rewrite <- By.
    change (mkarr (rows d / 2) (cols d / 2) (sample d (family y x))) with (family_image d (family y x)).
    rewrite fam_cell00, fam_cell01. apply third_pairs.
  Qed.
  Lemma side_third : (2 <= y)%Z -> (x < 2)%Z -> m = Rmax (above d y x) (cell d y x).
  Proof.
    intros Iy Ix. destruct fam_in as (Fy & Fx). assert (x / 2 = 0 /\ 1 <= y / 2)%Z as (Bx & By) by (clear - Iy Ix Hx; Z.to_euclidean_division_equations; lia).
    unfold m. rewrite median_four. cbn [family_image rows cols]. rewrite Bx. change (0 - 1)%Z with (-1)%Z. rewrite reflect_before by lia.
    rewrite !reflect_in by lia. rewrite <- Bx.
    change (mkarr (rows d / 2) (cols d / 2) (sample d (family y x))) with (family_image d (family y x)).
    rewrite fam_cell00, fam_cell10. apply third_pairs.
  Qed.
  Lemma corner_third : (y < 2)%Z -> (x < 2)%Z -> m = cell d y x.
  Proof.
    intros Iy Ix. destruct fam_in as (Fy & Fx). assert (x / 2 = 0 /\ y / 2 = 0)%Z as (Bx & By) by (clear - Iy Ix Hx Hy; Z.to_euclidean_division_equations; lia).
    unfold m. rewrite median_four. cbn [family_image rows cols]. rewrite Bx, By. change (0 - 1)%Z with (-1)%Z. rewrite !reflect_before by lia.
    rewrite !reflect_in by lia. rewrite <- Bx at 2 4 6 8. rewrite <- By at 1 2 3 4.
    change (mkarr (rows d / 2) (cols d / 2) (sample d (family y x))) with (family_image d (family y x)).
    rewrite fam_cell00. exact (proj2 (proj2 (third_pairs 0 _))).
  Qed.
End Pixels.

(** ** Image objects *)
Lemma clean_gen hist h W i mp v w (P : Z -> Z -> R -> Prop) :
  (mosaic (v_data v) -> forall y x, (0 <= y < rows (v_data v))%Z -> (0 <= x < cols (v_data v))%Z -> cell (v_data w) y x = 1 ->
     P y x (window_median Rleb (family_image (v_data v) (family y x)) 2 (y / 2) (x / 2))) ->
  reached hist h -> view_of h i = Some v -> view_of h mp = Some w -> same_shape (v_data w) (v_data v) -> scipy_median W ->
  exists h' k u, exec W (CleanHot i mp) h = (h', Ok (Some k)) /\ view_of h' k = Some u /\
    rows (v_data u) = rows (v_data v) /\ cols (v_data u) = cols (v_data v) /\
    forall y x, (0 <= y < rows (v_data v))%Z -> (0 <= x < cols (v_data v))%Z -> cell (v_data w) y x = 1 -> P y x (cell (v_data u) y x).
Proof.
  intros HP Hr Hv Hw Hs HW. destruct (c72_clean hist h W i mp v w Hr Hv Hw Hs) as (h' & k & u & E & V & R1 & R2 & C).
  exists h', k, u. repeat (split; [assumption|]). intros y x Hy Hx F. rewrite (proj1 (C y x Hy Hx) F), HW. apply HP; try assumption.
  assert (Hi : (i < length (images h))%nat).
  { unfold view_of in Hv. destruct (nth_error (images h) i) eqn:N; [|discriminate]. apply nth_error_Some. congruence. }
  destruct (c55_views hist h i Hr Hi) as (v' & Hv' & M & _). rewrite Hv in Hv'. injection Hv' as <-. exact M.
Qed.

Lemma c152_clean hist h W i mp v w :
  reached hist h -> view_of h i = Some v -> view_of h mp = Some w -> same_shape (v_data w) (v_data v) -> scipy_median W ->
  exists h' k u, exec W (CleanHot i mp) h = (h', Ok (Some k)) /\ view_of h' k = Some u /\
    rows (v_data u) = rows (v_data v) /\ cols (v_data u) = cols (v_data v) /\
    let d := v_data v in
    forall y x, (2 <= y < rows d)%Z -> (2 <= x < cols d)%Z -> cell (v_data w) y x = 1 ->
      (above d y x <= cell d y x -> left d y x <= cell d y x -> corner d y x <= cell d y x ->
         cell (v_data u) y x = largest3 (above d y x) (left d y x) (corner d y x)) /\
      (cell d y x <= above d y x -> cell d y x <= left d y x -> cell d y x <= corner d y x ->
         cell (v_data u) y x = middle3 (above d y x) (left d y x) (corner d y x)).
Proof.
  intros Hr Hv Hw Hs HW.
  destruct (clean_gen hist h W i mp v w (fun y x r => let d := v_data v in (2 <= y)%Z -> (2 <= x)%Z ->
      (above d y x <= cell d y x -> left d y x <= cell d y x -> corner d y x <= cell d y x -> r = largest3 (above d y x) (left d y x) (corner d y x)) /\
      (cell d y x <= above d y x -> cell d y x <= left d y x -> cell d y x <= corner d y x -> r = middle3 (above d y x) (left d y x) (corner d y x))))
    as (h' & k & u & E & V & R1 & R2 & C); try assumption.
  - intros M y x Hy Hx _ d Iy Ix. unfold d. rewrite (inside_third (v_data v) M y x Hy Hx Iy Ix). split; intros A1 A2 A3.
    + rewrite third_largest by assumption. unfold largest3, Rmax.
      generalize (corner (v_data v) y x) (above (v_data v) y x) (left (v_data v) y x). intros a b c. cases; lra.
    + rewrite third_middle by assumption. unfold middle3, Rmax, Rmin. 
      generalize (corner (v_data v) y x) (above (v_data v) y x) (left (v_data v) y x). intros a b c. cases; lra.
  - exists h', k, u. repeat (split; [assumption|]). intros d y x Hy Hx F. apply C; unfold d in *; try assumption; lia.
Qed.

Lemma c152_border hist h W i mp v w :
  reached hist h -> view_of h i = Some v -> view_of h mp = Some w -> same_shape (v_data w) (v_data v) -> scipy_median W ->
  exists h' k u, exec W (CleanHot i mp) h = (h', Ok (Some k)) /\ view_of h' k = Some u /\
    rows (v_data u) = rows (v_data v) /\ cols (v_data u) = cols (v_data v) /\
    let d := v_data v in
    forall y x, (0 <= y < rows d)%Z -> (0 <= x < cols d)%Z -> cell (v_data w) y x = 1 ->
      ((y < 2)%Z -> (x < 2)%Z -> cell (v_data u) y x = cell d y x) /\
      ((y < 2)%Z -> (2 <= x)%Z -> cell (v_data u) y x = Rmax (left d y x) (cell d y x)) /\
      ((2 <= y)%Z -> (x < 2)%Z -> cell (v_data u) y x = Rmax (above d y x) (cell d y x)).
Proof.
  intros Hr Hv Hw Hs HW.
  destruct (clean_gen hist h W i mp v w (fun y x r => let d := v_data v in
      ((y < 2)%Z -> (x < 2)%Z -> r = cell d y x) /\ ((y < 2)%Z -> (2 <= x)%Z -> r = Rmax (left d y x) (cell d y x)) /\
      ((2 <= y)%Z -> (x < 2)%Z -> r = Rmax (above d y x) (cell d y x))))
    as (h' & k & u & E & V & R1 & R2 & C); try assumption.
  - intros M y x Hy Hx _ d. unfold d. split; [|split]; intros A1 A2.
    + exact (corner_third (v_data v) M y x Hy Hx A1 A2).
    + exact (top_third (v_data v) M y x Hy Hx A1 A2).
    + exact (side_third (v_data v) M y x Hy Hx A1 A2).
  - exists h', k, u. repeat (split; [assumption|]). exact C.
Qed.

Lemma c152_pair hist h W i mp v w :
  reached hist h -> view_of h i = Some v -> view_of h mp = Some w -> same_shape (v_data w) (v_data v) -> scipy_median W ->
  exists h' k u, exec W (CleanHot i mp) h = (h', Ok (Some k)) /\ view_of h' k = Some u /\
    rows (v_data u) = rows (v_data v) /\ cols (v_data u) = cols (v_data v) /\
    let d := v_data v in
    forall y x bright, (2 <= y < rows d)%Z -> (2 <= x < cols d)%Z -> cell (v_data w) y x = 1 -> bright <= cell d y x ->
      bright <= above d y x \/ bright <= left d y x \/ bright <= corner d y x -> bright <= cell (v_data u) y x.
Proof.
  intros Hr Hv Hw Hs HW.
  destruct (clean_gen hist h W i mp v w (fun y x r => let d := v_data v in (2 <= y)%Z -> (2 <= x)%Z -> forall bright, bright <= cell d y x ->
      bright <= above d y x \/ bright <= left d y x \/ bright <= corner d y x -> bright <= r))
    as (h' & k & u & E & V & R1 & R2 & C); try assumption.
  - intros M y x Hy Hx _ d Iy Ix bright B1 B2. rewrite (inside_third (v_data v) M y x Hy Hx Iy Ix). apply third_two; [exact B1|]. unfold d in *. tauto.
  - exists h', k, u. repeat (split; [assumption|]). intros d y x bright Hy Hx F B1 B2. apply (C y x); unfold d in *; try assumption; lia.
Qed.

Lemma third_between a b c d lo hi : lo <= a <= hi -> lo <= b <= hi -> lo <= c <= hi -> lo <= d <= hi -> lo <= third a b c d <= hi.
Proof. intros H1 H2 H3 H4. unfold third. cbn [sort fold_right insert]. cases; lra. Qed.

Lemma c152_range hist h W i mp v w lo hi :
  reached hist h -> view_of h i = Some v -> view_of h mp = Some w -> same_shape (v_data w) (v_data v) -> scipy_median W ->
  (forall y x, (0 <= y < rows (v_data v))%Z -> (0 <= x < cols (v_data v))%Z -> lo <= cell (v_data v) y x <= hi) ->
  exists h' k u, exec W (CleanHot i mp) h = (h', Ok (Some k)) /\ view_of h' k = Some u /\
    rows (v_data u) = rows (v_data v) /\ cols (v_data u) = cols (v_data v) /\
    forall y x, (0 <= y < rows (v_data v))%Z -> (0 <= x < cols (v_data v))%Z -> cell (v_data w) y x = 1 -> lo <= cell (v_data u) y x <= hi.
Proof.
  intros Hr Hv Hw Hs HW Hb. apply (clean_gen hist h W i mp v w (fun _ _ r => lo <= r <= hi)); try assumption.
  intros M y x Hy Hx _. destruct (Z.lt_ge_cases y 2) as [Iy|Iy]; destruct (Z.lt_ge_cases x 2) as [Ix|Ix].
  - rewrite (corner_third (v_data v) M y x Hy Hx Iy Ix). apply Hb; assumption.
  - rewrite (top_third (v_data v) M y x Hy Hx Iy Ix). pose proof (Hb y x Hy Hx). pose proof (Hb y (x - 2)%Z Hy ltac:(lia)). unfold left, Rmax. destruct (Rle_dec _ _); lra.
  - rewrite (side_third (v_data v) M y x Hy Hx Iy Ix). pose proof (Hb y x Hy Hx). pose proof (Hb (y - 2)%Z x ltac:(lia) Hx). unfold above, Rmax. destruct (Rle_dec _ _); lra.
  - rewrite (inside_third (v_data v) M y x Hy Hx Iy Ix). apply third_between; apply Hb; lia.
Qed.

(** ** Maps of hot pixels *)
Lemma c152_undetected threshold (a : arr R) y x : 0 <= threshold -> (0 <= y < rows a)%Z -> (0 <= x < cols a)%Z -> (y = 0 \/ x = 0)%Z ->
  (forall y x, 0 <= cell a y x) ->
  cell (hot_map (fun a size y x => window_median Rleb a size y x) threshold a) y x = 0.
Proof.
  intros Ht Hy Hx Hb Hp. unfold hot_map, median_filter. cbn [cell]. set (m := window_median Rleb a 2 y x).
  assert (Hm : cell a y x <= m).
  { unfold m. rewrite median_four. destruct Hb as [->| ->].
    - change (0 - 1)%Z with (-1)%Z. rewrite reflect_before by lia. rewrite !(reflect_in (rows a)) by lia. rewrite (reflect_in (cols a) x) by lia.
      destruct (third_pairs (cell a 0 (reflect (cols a) (x - 1))) (cell a 0 x)) as (-> & _). apply Rmax_r.
    - change (0 - 1)%Z with (-1)%Z. rewrite reflect_before by lia. rewrite !(reflect_in (cols a)) by lia. rewrite (reflect_in (rows a) y) by lia.
      destruct (third_pairs (cell a (reflect (rows a) (y - 1)) 0) (cell a y 0)) as (_ & -> & _). apply Rmax_r. }
  unfold Rltb. destruct (Rlt_dec threshold ((cell a y x - m) / (cell a y x + m))) as [L|L]; [exfalso|reflexivity].
  pose proof (Hp y x) as P. destruct (Req_dec (cell a y x + m) 0) as [Z0|Z0].
  - rewrite Z0 in L. unfold Rdiv in L. replace (cell a y x - m) with 0 in L by lra. lra.
  - assert (0 < / (cell a y x + m)) by (apply Rinv_0_lt_compat; lra). unfold Rdiv in L. nra.
Qed.
