(** Proofs for C95, C96 and C97. *)
From Coq Require Import Reals Lra Lia Permutation String.
From Verif Require Import Base.Base Base.BaseFacts Base.Num Model.Demosaic Model.Stokes Model.Pol Model.Histogram
  Model.Limits Model.Show Spec.MosaicSpec Spec.HistSpec Spec.CleanSpec Spec.LimitSpec Spec.ImageSpec Spec.ShowSpec
  Proofs.HistFacts Proofs.CleanFacts Proofs.LimitFacts Proofs.ObjInv Proofs.ObjMore.
Local Open Scope R_scope.

(** ** Pixels of the four families *)

Lemma pixels_flat (a : arr R) :
  pixels a = flat_map (fun y => map (fun x => cell a y x) (zrange (cols a))) (zrange (rows a)).
Proof. unfold pixels, to_list. rewrite flat_map_concat_map. reflexivity. Qed.

Lemma even_odd_perm {X} (f : Z -> list X) m : (0 <= m)%Z ->
  Permutation (flat_map f (zrange (2 * m)))
    (flat_map (fun Y => f (2 * Y)%Z) (zrange m) ++ flat_map (fun Y => f (2 * Y + 1)%Z) (zrange m)).
Proof.
  intro Hm. pattern m. apply natlike_ind; [| |exact Hm].
  - constructor.
  - intros k Hk IH. unfold Z.succ. replace (2 * (k + 1))%Z with (2 * k + 1 + 1)%Z by lia.
    rewrite !zrange_succ by lia. rewrite !flat_map_app. cbn [flat_map]. rewrite !app_nil_r, IH.
    set (E := flat_map (fun Y => f (2 * Y)%Z) (zrange k)). set (O := flat_map (fun Y => f (2 * Y + 1)%Z) (zrange k)).
    rewrite <- !app_assoc. apply Permutation_app_head. rewrite !app_assoc. apply Permutation_app_tail.
    apply Permutation_app_comm.
Qed.
Lemma even_odd_map {X} (f : Z -> X) m : (0 <= m)%Z ->
  Permutation (map f (zrange (2 * m)))
    (map (fun Y => f (2 * Y)%Z) (zrange m) ++ map (fun Y => f (2 * Y + 1)%Z) (zrange m)).
Proof.
  intro Hm. pose proof (even_odd_perm (fun y => [f y]) m Hm) as P.
  assert (G : forall (g : Z -> X) l, flat_map (fun y => [g y]) l = map g l).
  { intros g l. induction l as [|a l IH]; [reflexivity|]. cbn. rewrite IH. reflexivity. }
  rewrite !G in P. exact P.
Qed.
Lemma flat_map_perm {X Y} (f g : X -> list Y) l : (forall x, Permutation (f x) (g x)) -> Permutation (flat_map f l) (flat_map g l).
Proof. intro E. induction l as [|a l IH]; [constructor|]. cbn. apply Permutation_app; auto. Qed.
Lemma flat_map_app_perm {X Y} (f g : X -> list Y) l :
  Permutation (flat_map (fun x => f x ++ g x) l) (flat_map f l ++ flat_map g l).
Proof.
  induction l as [|a l IH]; [constructor|]. cbn. rewrite IH. rewrite <- !app_assoc. apply Permutation_app_head.
  rewrite !app_assoc. apply Permutation_app_tail. apply Permutation_app_comm.
Qed.

Lemma families_perm (data : arr R) : mosaic data ->
  Permutation (pixels data)
    (pixels (family_image data 0) ++ pixels (family_image data 1) ++
     pixels (family_image data 2) ++ pixels (family_image data 3)).
Proof.
  intros (H1 & H2 & H3 & H4). rewrite !pixels_flat. unfold family_image. cbn [rows cols cell].
  set (h := (rows data / 2)%Z). set (w := (cols data / 2)%Z).
  assert (Er : rows data = (2 * h)%Z) by (subst h; lia). assert (Ec : cols data = (2 * w)%Z) by (subst w; lia).
  assert (Hh : (0 <= h)%Z) by lia. assert (Hw : (0 <= w)%Z) by lia.
  rewrite Er, Ec.
  rewrite (even_odd_perm _ h Hh).
  rewrite (flat_map_perm _ (fun Y => map (fun X => cell data (2 * Y)%Z (2 * X)%Z) (zrange w) ++
                                     map (fun X => cell data (2 * Y)%Z (2 * X + 1)%Z) (zrange w)))
    by (intro Y; apply (even_odd_map (fun x => cell data (2 * Y)%Z x) w Hw)).
  rewrite (flat_map_app_perm _ _ (zrange h)).
  rewrite (flat_map_perm (fun Y => map (fun x => cell data (2 * Y + 1)%Z x) (zrange (2 * w)))
             (fun Y => map (fun X => cell data (2 * Y + 1)%Z (2 * X)%Z) (zrange w) ++
                                     map (fun X => cell data (2 * Y + 1)%Z (2 * X + 1)%Z) (zrange w)))
    by (intro Y; apply (even_odd_map (fun x => cell data (2 * Y + 1)%Z x) w Hw)).
  rewrite (flat_map_app_perm _ _ (zrange h)).
  rewrite <- !app_assoc.
  assert (G : forall a b : Z -> Z -> R, (forall Y X, a Y X = b Y X) ->
    flat_map (fun Y => map (fun X => a Y X) (zrange w)) (zrange h) = flat_map (fun Y => map (fun X => b Y X) (zrange w)) (zrange h)).
  { intros a b E. apply flat_map_ext. intro Y. apply map_ext. intro X. apply E. }
  apply Permutation_app; [rewrite (G (fun Y X => cell data (2 * Y)%Z (2 * X)%Z) (fun Y X => sample data 0 Y X)); [reflexivity|]|
   apply Permutation_app; [rewrite (G (fun Y X => cell data (2 * Y)%Z (2 * X + 1)%Z) (fun Y X => sample data 1 Y X)); [reflexivity|]|
   apply Permutation_app; [rewrite (G (fun Y X => cell data (2 * Y + 1)%Z (2 * X)%Z) (fun Y X => sample data 2 Y X)); [reflexivity|]|
     rewrite (G (fun Y X => cell data (2 * Y + 1)%Z (2 * X + 1)%Z) (fun Y X => sample data 3 Y X)); [reflexivity|]]]];
   intros Y X; unfold sample; f_equal; cbn; lia.
Qed.

(** ** Histograms *)

Lemma count_filter (P : R -> Prop) (f : R -> bool) l :
  (forall v, f v = true <-> P v) -> count P l (length (filter f l)).
Proof.
  intro E. induction l as [|v l IH]; [constructor|]. cbn [filter]. destruct (f v) eqn:F.
  - apply count_yes; [apply E; exact F|exact IH].
  - apply count_no; [rewrite <- E; congruence|exact IH].
Qed.

Lemma nth_edges ab bins i : (0 <= i <= bins)%Z ->
  nth_error (map (edge_of ab bins) (zrange (bins + 1))) (Z.to_nat i) = Some (edge_of ab bins i).
Proof. intro Hi. rewrite nth_error_map, nth_error_zrange by lia. reflexivity. Qed.

Lemma falls_in_spec ab bins i v : (0 <= i < bins)%Z ->
  falls_in ab bins i v = true <-> in_bin_of (map (edge_of ab bins) (zrange (bins + 1))) (Z.to_nat i) v.
Proof.
  intro Hi. unfold falls_in, in_bin_of. rewrite andb_true_iff, orb_true_iff, andb_true_iff, Rltb_true, !Rleb_true, Z.eqb_eq.
  rewrite map_length, length_zrange. split.
  - intros (A & B). exists (edge_of ab bins i), (edge_of ab bins (i + 1)). split; [apply nth_edges; lia|].
    split; [replace (S (Z.to_nat i)) with (Z.to_nat (i + 1)) by lia; apply nth_edges; lia|]. split; [exact A|].
    destruct B as [B|(B & C)]; [left; exact B|]. replace (i + 1)%Z with bins by lia.
    destruct (Rle_lt_or_eq_dec _ _ C); [left; assumption|right; split; [assumption|lia]].
  - intros (lo & hi & A & B & C & D). rewrite nth_edges in A by lia.
    replace (S (Z.to_nat i)) with (Z.to_nat (i + 1)) in B by lia. rewrite nth_edges in B by lia.
    injection A as <-. injection B as <-. split; [exact C|]. destruct D as [D|(D & E)]; [left; exact D|].
    right. split; [lia|]. replace (i + 1)%Z with bins in D by lia. rewrite D. apply Rle_refl.
Qed.


Lemma outer_ok range l : valid_range range ->
  exists ab, outer_edges range l = Ok ab /\ fst ab < snd ab.
Proof.
  unfold outer_edges. destruct range as [(a, b)|]; cbn [valid_range].
  - intro Hab. unfold Rltb. destruct (Rlt_dec b a); [lra|]. unfold Reqb. destruct (Req_EM_T a b) as [->|N].
    + eexists. split; [reflexivity|]. cbn. lra.
    + eexists. split; [reflexivity|]. cbn. lra.
  - intros _. eexists. split; [reflexivity|]. destruct l as [|v l]; [cbn; lra|]. cbn [hist_range].
    unfold Reqb. destruct (Req_EM_T _ _) as [E|N]; cbn [fst snd]; [lra|].
    destruct (smallest_spec v l) as (_ & A), (largest_spec v l) as (_ & B).
    specialize (A v (or_introl eq_refl)). specialize (B v (or_introl eq_refl)). lra.
Qed.

Lemma equal_bins_of ab bins : (1 <= bins)%Z ->
  equal_bins (map (edge_of ab bins) (zrange (bins + 1))) (Z.to_nat bins) (fst ab) (snd ab).
Proof.
  intro Hb. split; [rewrite map_length, length_zrange; lia|]. intros i Hi.
  replace i with (Z.to_nat (Z.of_nat i)) at 1 by lia. rewrite nth_edges by lia. f_equal. unfold edge_of.
  rewrite !INR_IZR_INZ, Z2Nat.id by lia. reflexivity.
Qed.

Lemma counts_ok ab bins l : (1 <= bins)%Z ->
  counts_of l (map (fun i => Z.of_nat (length (filter (falls_in ab bins i) l))) (zrange bins))
    (map (edge_of ab bins) (zrange (bins + 1))).
Proof.
  intro Hb. split; [rewrite !map_length, !length_zrange; lia|]. intros i c E.
  assert (Hi : (i < Z.to_nat bins)%nat).
  { rewrite <- (length_zrange bins), <- (map_length (fun i => Z.of_nat (length (filter (falls_in ab bins i) l)))).
    apply nth_error_Some. congruence. }
  replace i with (Z.to_nat (Z.of_nat i)) in E by lia. rewrite nth_error_map, nth_error_zrange in E by lia.
  cbn [option_map] in E. injection E as <-. eexists. split; [reflexivity|].
  replace i with (Z.to_nat (Z.of_nat i)) at 1 by lia. apply count_filter. intro v. apply falls_in_spec. lia.
Qed.

Lemma np_histogram_ok l bins range : (1 <= bins)%Z -> valid_range range ->
  exists ab, outer_edges range l = Ok ab /\ fst ab < snd ab /\
   np_histogram l bins range =
    Ok (map (fun i => Z.of_nat (length (filter (falls_in ab bins i) l))) (zrange bins),
        map (edge_of ab bins) (zrange (bins + 1))).
Proof.
  intros Hb Hr. destruct (outer_ok range l Hr) as (ab & E & Hab). exists ab. split; [exact E|]. split; [exact Hab|].
  unfold np_histogram. destruct (bins <? 1)%Z eqn:B; [lia|]. rewrite E. reflexivity.
Qed.

(** Each value of the range falls into one bin. *)
Lemma edge_mono ab bins i j : (1 <= bins)%Z -> fst ab < snd ab -> (i <= j)%Z -> edge_of ab bins i <= edge_of ab bins j.
Proof.
  intros Hb Hab Hij. unfold edge_of. apply IZR_le in Hij. apply IZR_le in Hb.
  assert (0 <= (snd ab - fst ab) / IZR bins) by (apply Rmult_le_pos; [lra|apply Rlt_le, Rinv_0_lt_compat; lra]).
  apply Rplus_le_compat_l, Rmult_le_compat_r; assumption.
Qed.
Lemma edge_first ab bins : edge_of ab bins 0 = fst ab.
Proof. unfold edge_of. lra. Qed.
Lemma edge_last ab bins : (1 <= bins)%Z -> edge_of ab bins bins = snd ab.
Proof. intro Hb. unfold edge_of. apply IZR_le in Hb. field. lra. Qed.

Lemma one_bin ab bins v n : (1 <= bins)%Z -> fst ab < snd ab -> (0 <= n < bins)%Z ->
  length (filter (fun i => falls_in ab bins i v) (zrange n)) =
  if Rleb (fst ab) v && Rltb v (edge_of ab bins n) then 1%nat else 0%nat.
Proof.
  intros Hb Hab Hn. destruct Hn as (Hn & Hlt). revert Hlt. pattern n. apply natlike_ind; [| |exact Hn].
  - intros _. rewrite edge_first. cbn. unfold Rleb, Rltb. destruct (Rle_dec (fst ab) v), (Rlt_dec v (fst ab)); try reflexivity. lra.
  - intros k Hk IH Hlt. unfold Z.succ in *. rewrite zrange_succ, filter_app, app_length, IH by lia. cbn [filter].
    unfold falls_in. replace (k =? bins - 1)%Z with false by lia. cbn [andb]. rewrite orb_false_r.
    pose proof (edge_mono ab bins k (k + 1) Hb Hab ltac:(lia)) as M.
    pose proof (edge_mono ab bins 0 k Hb Hab Hk) as M0. rewrite edge_first in M0.
    unfold Rleb, Rltb. destruct (Rle_dec (fst ab) v), (Rlt_dec v (edge_of ab bins k)), (Rle_dec (edge_of ab bins k) v),
      (Rlt_dec v (edge_of ab bins (k + 1))); cbn [andb length Nat.add]; try reflexivity; exfalso; lra.
Qed.
Lemma one_bin_all ab bins v : (1 <= bins)%Z -> fst ab < snd ab ->
  length (filter (fun i => falls_in ab bins i v) (zrange bins)) =
  if Rleb (fst ab) v && Rleb v (snd ab) then 1%nat else 0%nat.
Proof.
  intros Hb Hab. assert (Ez : zrange bins = zrange (bins - 1) ++ [(bins - 1)%Z]) by (rewrite <- zrange_succ by lia; f_equal; lia).
  rewrite Ez, filter_app, app_length, one_bin by (assumption || lia).
  cbn [filter]. unfold falls_in. replace (bins - 1 + 1)%Z with bins by lia. rewrite edge_last, Z.eqb_refl by lia. cbn [andb].
  pose proof (edge_mono ab bins 0 (bins - 1) Hb Hab ltac:(lia)) as M0. rewrite edge_first in M0.
  pose proof (edge_mono ab bins (bins - 1) bins Hb Hab ltac:(lia)) as M. rewrite edge_last in M by lia.
  unfold Rleb, Rltb.
  destruct (Rle_dec (fst ab) v), (Rlt_dec v (edge_of ab bins (bins - 1))), (Rle_dec (edge_of ab bins (bins - 1)) v),
    (Rlt_dec v (snd ab)), (Rle_dec v (snd ab)); cbn [andb orb length Nat.add]; try reflexivity; exfalso; lra.
Qed.

Lemma sum_map_plus {X} (f g : X -> Z) l :
  fold_right Z.add 0%Z (map (fun i => (f i + g i)%Z) l) =
  (fold_right Z.add 0%Z (map f l) + fold_right Z.add 0%Z (map g l))%Z.
Proof. induction l as [|a l IH]; [reflexivity|]. cbn. rewrite IH. lia. Qed.
Lemma sum_bool {X} (p : X -> bool) l :
  fold_right Z.add 0%Z (map (fun i => if p i then 1 else 0)%Z l) = Z.of_nat (length (filter p l)).
Proof. induction l as [|a l IH]; [reflexivity|]. cbn. rewrite IH. destruct (p a); cbn [length]; lia. Qed.
Lemma sum_counts (f : Z -> R -> bool) l s :
  fold_right Z.add 0%Z (map (fun i => Z.of_nat (length (filter (f i) l))) s) =
  fold_right Z.add 0%Z (map (fun v => Z.of_nat (length (filter (fun i => f i v) s))) l).
Proof.
  induction l as [|v l IH]; cbn [map fold_right].
  - induction s as [|i s IHs]; [reflexivity|]. cbn in *. exact IHs.
  - rewrite <- IH, <- sum_bool, <- sum_map_plus. f_equal. apply map_ext. intro i. cbn [filter].
    destruct (f i v); cbn [length]; lia.
Qed.
Lemma sum_counts_inside ab bins l : (1 <= bins)%Z -> fst ab < snd ab ->
  exists n, count (inside (fst ab) (snd ab)) l n /\
  fold_right Z.add 0%Z (map (fun i => Z.of_nat (length (filter (falls_in ab bins i) l))) (zrange bins)) = Z.of_nat n.
Proof.
  intros Hb Hab. exists (length (filter (fun v => Rleb (fst ab) v && Rleb v (snd ab)) l)). split.
  - apply count_filter. intro v. rewrite andb_true_iff, !Rleb_true. reflexivity.
  - rewrite sum_counts, <- sum_bool. f_equal. apply map_ext. intro v. rewrite one_bin_all by assumption.
    destruct (Rleb (fst ab) v && Rleb v (snd ab)); reflexivity.
Qed.

Lemma outer_ends range l ab : (range = None -> l <> []) -> outer_edges range l = Ok ab -> bin_ends l range (fst ab) (snd ab).
Proof.
  intros Hl. unfold outer_edges, bin_ends. destruct range as [(a, b)|].
  - destruct (Rltb b a); [discriminate|]. intro E. injection E as <-. exists a, b. split; [reflexivity|].
    unfold Reqb. destruct (Req_EM_T a b); [right|left]; cbn [fst snd]; auto.
  - destruct l as [|v l]; [exfalso; apply Hl; reflexivity|]. intro E. injection E as <-. cbn [hist_range].
    exists (smallest v l), (largest v l). split; [split; [apply smallest_spec|apply largest_spec]|].
    unfold Reqb. destruct (Req_EM_T _ _); [right|left]; cbn [fst snd]; auto.
Qed.

Lemma c97_total data bins range : (1 <= bins)%Z -> valid_range range ->
  exists counts edges, show_histogram data false bins range = Ok [(counts, edges)] /\
    counts_of (values data) counts edges /\ length counts = Z.to_nat bins /\
    ((range = None -> values data <> []) ->
     exists a b n, bin_ends (values data) range a b /\ equal_bins edges (Z.to_nat bins) a b /\
       count (inside a b) (values data) n /\ total_count counts = Z.of_nat n).
Proof.
  intros Hb Hr. unfold show_histogram. destruct (np_histogram_ok (pixels data) bins range Hb Hr) as (ab & E & Hab & Eh).
  rewrite Eh. cbn [bind]. do 2 eexists. split; [reflexivity|]. split; [apply counts_ok; exact Hb|].
  split; [rewrite map_length, length_zrange; reflexivity|]. intro Hn.
  destruct (sum_counts_inside ab bins (pixels data) Hb Hab) as (n & Hc & Hs).
  exists (fst ab), (snd ab), n. split; [exact (outer_ends range (pixels data) ab Hn E)|]. split; [apply equal_bins_of; exact Hb|].
  split; [exact Hc|exact Hs].
Qed.

Lemma c97_all data bins : (1 <= bins)%Z -> values data <> [] ->
  exists counts edges, show_histogram data false bins None = Ok [(counts, edges)] /\
    total_count counts = Z.of_nat (length (values data)).
Proof.
  intros Hb Hn. destruct (c97_total data bins None Hb I) as (counts & edges & E & _ & _ & G). exists counts, edges. split; [exact E|].
  destruct (G (fun _ => Hn)) as (a & b & n & (lo & hi & (Hlo & Hhi) & Hab) & _ & Hc & ->). f_equal.
  apply (count_fun _ _ _ _ Hc). apply count_all. apply Forall_forall. intros v Hv. unfold inside.
  destruct Hlo as (_ & Hlo), Hhi as (_ & Hhi). specialize (Hlo v Hv). specialize (Hhi v Hv). lra.
Qed.

Lemma filter_perm {X} (f : X -> bool) l l' : Permutation l l' -> length (filter f l) = length (filter f l').
Proof.
  induction 1 as [|x l l' P IH|x y l|l l' l'' P IH P' IH']; cbn; try congruence.
  - destruct (f x); cbn; congruence.
  - destruct (f x), (f y); reflexivity.
Qed.

Lemma c97_families data bins a b : (1 <= bins)%Z -> a <= b -> mosaic data ->
  exists total n0 n1 n2 n3 edges,
    show_histogram data true bins (Some (a, b)) = Ok [(total, edges); (n0, edges); (n1, edges); (n2, edges); (n3, edges)] /\
    counts_of (values data) total edges /\
    counts_of (values (family_image data 0)) n0 edges /\ counts_of (values (family_image data 1)) n1 edges /\
    counts_of (values (family_image data 2)) n2 edges /\ counts_of (values (family_image data 3)) n3 edges /\
    forall i t, nth_error total i = Some t -> exists c0 c1 c2 c3,
      nth_error n0 i = Some c0 /\ nth_error n1 i = Some c1 /\ nth_error n2 i = Some c2 /\ nth_error n3 i = Some c3 /\
      t = (c0 + c1 + c2 + c3)%Z.
Proof.
  intros Hb Hab Hm. unfold show_histogram.
  destruct (np_histogram_ok (pixels data) bins (Some (a, b)) Hb Hab) as (ab & E & Hlt & Eh). rewrite Eh. cbn [bind].
  destruct (split_ok_mosaic data Hm) as (q & Eq). rewrite Eq. rewrite (split_families data q Hm Eq). cbn [bind q0 q1 q2 q3].
  assert (G : forall l, np_histogram l bins (Some (a, b)) =
    Ok (map (fun i => Z.of_nat (length (filter (falls_in ab bins i) l))) (zrange bins), map (edge_of ab bins) (zrange (bins + 1)))).
  { intro l. unfold np_histogram. destruct (bins <? 1)%Z eqn:B; [lia|]. cbn [outer_edges] in E |- *. rewrite E. reflexivity. }
  rewrite !G. cbn [bind]. do 6 eexists. split; [reflexivity|].
  do 5 (split; [apply counts_ok; exact Hb|]).
  intros i t Et. rewrite !nth_error_map in *. destruct (nth_error (zrange bins) i) as [k|]; [|discriminate].
  cbn [option_map] in *. injection Et as <-. do 4 eexists. do 4 (split; [reflexivity|]).
  rewrite (filter_perm _ _ _ (families_perm data Hm)), !filter_app, !app_length. lia.
Qed.

Lemma c97_odd data bins range : (1 <= bins)%Z -> valid_range range ->
  rows data mod 2 <> 0%Z \/ cols data mod 2 <> 0%Z ->
  show_histogram data true bins range = Raise ValueError.
Proof.
  intros Hb Hr Ho. unfold show_histogram. destruct (np_histogram_ok (pixels data) bins range Hb Hr) as (ab & E & Hlt & Eh).
  rewrite Eh. cbn [bind]. unfold split_polarizations.
  destruct (negb (rows data mod 2 =? 0)%Z || negb (cols data mod 2 =? 0)%Z) eqn:X; [reflexivity|]. lia.
Qed.

Ltac Rcases := repeat match goal with
  | |- context [Rle_dec ?a ?b] => destruct (Rle_dec a b); [try (exfalso; lra)|try (exfalso; lra)]; cbn [andb orb filter length]
  | |- context [Rlt_dec ?a ?b] => destruct (Rlt_dec a b); [try (exfalso; lra)|try (exfalso; lra)]; cbn [andb orb filter length]
  end.
Lemma edges2 a b : edge_of (a, b) 2 0 = a /\ edge_of (a, b) 2 1 = (a + b) / 2 /\ edge_of (a, b) 2 2 = b.
Proof. unfold edge_of. cbn [fst snd]. repeat split; field. Qed.
Lemma hist2 a b l : outer_edges None l = Ok (a, b) -> np_histogram l 2 None =
  Ok ([Z.of_nat (length (filter (fun v => Rleb a v && (Rltb v ((a + b) / 2) || (false && Rleb v b))) l));
       Z.of_nat (length (filter (fun v => Rleb ((a + b) / 2) v && (Rltb v b || (true && Rleb v b))) l))], [a; (a + b) / 2; b]).
Proof.
  intro E. unfold np_histogram. change (2 <? 1)%Z with false. cbv iota. rewrite E. cbn [bind].
  change (zrange 2) with [0; 1]%Z. change (zrange (2 + 1)) with [0; 1; 2]%Z. cbn [map].
  unfold falls_in. change (0 + 1)%Z with 1%Z. change (1 + 1)%Z with 2%Z. change (2 - 1)%Z with 1%Z.
  destruct (edges2 a b) as (-> & -> & ->). reflexivity.
Qed.
Lemma const_edges v : outer_edges None [v] = Ok (v - 1 / 2, v + 1 / 2).
Proof.
  cbn [outer_edges hist_range]. unfold smallest, largest. cbn [fold_left]. unfold Reqb. destruct (Req_EM_T v v); [reflexivity|contradiction].
Qed.
Lemma const_hist v : np_histogram [v] 2 None = Ok ([0; 1]%Z, [v - 1 / 2; (v - 1 / 2 + (v + 1 / 2)) / 2; v + 1 / 2]).
Proof.
  rewrite (hist2 _ _ _ (const_edges v)). cbn [filter]. unfold Rleb, Rltb. Rcases; reflexivity.
Qed.
Lemma two_hist : np_histogram [0; 0; 1; 1] 2 None = Ok ([2; 2]%Z, [0; (0 + 1) / 2; 1]).
Proof.
  rewrite (hist2 0 1).
  - cbn [filter]. unfold Rleb, Rltb. Rcases; reflexivity.
  - cbn [outer_edges]. f_equal. apply hist_range_ok; [split|split|lra]; cbn; try (intros v [<-|[<-|[<-|[<-|[]]]]]; lra); auto.
Qed.
Lemma c97_default_differs : exists e e0 e1 e2 e3,
  show_histogram two_values true 2 None =
    Ok [([2; 2]%Z, e); ([0; 1]%Z, e0); ([0; 1]%Z, e1); ([0; 1]%Z, e2); ([0; 1]%Z, e3)] /\ e <> e0.
Proof.
  unfold show_histogram. change (pixels two_values) with [0; 0; 1; 1]. rewrite two_hist. cbn [bind].
  change (split_polarizations two_values) with (Ok (mkquad (stride2 two_values 0 0) (stride2 two_values 0 1)
    (stride2 two_values 1 0) (stride2 two_values 1 1))). cbn [bind q0 q1 q2 q3].
  change (pixels (stride2 two_values 0 0)) with [0]. change (pixels (stride2 two_values 0 1)) with [0].
  change (pixels (stride2 two_values 1 0)) with [1]. change (pixels (stride2 two_values 1 1)) with [1].
  rewrite !const_hist. cbn [bind]. do 5 eexists. split; [reflexivity|].
  intro E. injection E. intros. lra.
Qed.

(** ** Panels *)

Lemma ratio_ok data : cols data <> 0%Z -> exists r, data_ratio data = Ok r.
Proof. intro H0. unfold data_ratio. destruct (cols data =? 0)%Z eqn:E; [lia|eauto]. Qed.
Lemma ratio_zero data : cols data = 0%Z -> data_ratio data = Raise ZeroDivisionError.
Proof. intro H0. unfold data_ratio. rewrite H0. reflexivity. Qed.

Lemma key_of_found d i k : key_of d i = Ok k -> In (k, i) d.
Proof.
  induction d as [|(k', v) d IH]; cbn [key_of]; [discriminate|]. destruct (v =? i)%Z eqn:E.
  - intro X. injection X as <-. apply Z.eqb_eq in E. subst. left. reflexivity.
  - intro X. right. auto.
Qed.
Lemma key_of_total d i : (exists k, In (k, i) d) -> exists k, key_of d i = Ok k.
Proof.
  induction d as [|(k', v) d IH]; cbn [key_of]; intros (k & Hk); [destruct Hk|]. destruct (v =? i)%Z eqn:E; [eauto|].
  destruct Hk as [Hk|Hk]; [injection Hk as <- <-; lia|]. apply IH. eauto.
Qed.
Lemma key_of_missing d i : (forall k, ~ In (k, i) d) -> key_of d i = Raise ValueError.
Proof.
  intro H0. induction d as [|(k', v) d IH]; cbn [key_of]; [reflexivity|]. destruct (v =? i)%Z eqn:E.
  - exfalso. apply (H0 k'). apply Z.eqb_eq in E. subst. left. reflexivity.
  - apply IH. intros k Hk. apply (H0 k). right. exact Hk.
Qed.

Lemma mean_limits_ok a : values a <> [] -> mean_limits (values a) (mean_minus_std a 1) (mean_plus_std a 1).
Proof. intro Hn. destruct (limits_mean a 1 Hn) as (-> & ->). unfold mean_limits. rewrite !Rmult_1_l. auto. Qed.

Lemma demo_panel_ok q d i : (exists k, In (k, i) d) -> values (qnth q i) <> [] ->
  exists p, demo_panel (Some q) d None None i = Ok p /\ p_image p = qnth q i /\ In (p_title p, i) d /\
    mean_limits (values (qnth q i)) (p_vmin p) (p_vmax p).
Proof.
  intros Hk Hn. destruct (key_of_total d i Hk) as (k & E). unfold demo_panel. cbn [bind]. rewrite E. cbn [bind].
  eexists. split; [reflexivity|]. split; [reflexivity|]. split; [apply key_of_found; exact E|apply mean_limits_ok; exact Hn].
Qed.

Lemma c95_panels data q d : cols data <> 0%Z ->
  (forall i, (0 <= i < 4)%Z -> (exists k, In (k, i) d) /\ values (qnth q i) <> []) ->
  exists panels, show_demo_images data (Some q) d None None = Ok panels /\ length panels = 4%nat /\
    forall i p, nth_error panels i = Some p ->
      p_image p = qnth q (Z.of_nat i) /\ In (p_title p, Z.of_nat i) d /\
      mean_limits (values (p_image p)) (p_vmin p) (p_vmax p).
Proof.
  intros Hc Hq. unfold show_demo_images. destruct (ratio_ok data Hc) as (r & ->). cbn [bind].
  destruct (Hq 0%Z ltac:(lia)) as (K0 & V0), (Hq 1%Z ltac:(lia)) as (K1 & V1), (Hq 2%Z ltac:(lia)) as (K2 & V2), (Hq 3%Z ltac:(lia)) as (K3 & V3).
  destruct (demo_panel_ok q d 0 K0 V0) as (a & -> & A1 & A2 & A3). destruct (demo_panel_ok q d 1 K1 V1) as (b & -> & B1 & B2 & B3).
  destruct (demo_panel_ok q d 2 K2 V2) as (c & -> & C1 & C2 & C3). destruct (demo_panel_ok q d 3 K3 V3) as (e & -> & E1 & E2 & E3).
  cbn [bind]. eexists. split; [reflexivity|]. split; [reflexivity|]. intros i p Hp.
  destruct i as [|[|[|[|i]]]]; cbn [nth_error] in Hp; [injection Hp as <-..|destruct i; discriminate];
    [rewrite A1|rewrite B1|rewrite C1|rewrite E1]; auto.
Qed.

Lemma c95_limits data q d vmin vmax : cols data <> 0%Z -> vmin <> None \/ vmax <> None ->
  show_demo_images data (Some q) d vmin vmax = Raise UnboundLocalError.
Proof.
  intros Hc Hl. unfold show_demo_images. destruct (ratio_ok data Hc) as (r & ->). cbn [bind]. unfold demo_panel at 1. cbn [bind].
  destruct vmin as [lo|]; [reflexivity|]. cbn [bind]. destruct vmax as [hi|]; [reflexivity|]. destruct Hl; contradiction.
Qed.

Lemma c95_not_demosaiced data d vmin vmax : cols data <> 0%Z -> show_demo_images data None d vmin vmax = Raise TypeError.
Proof. intros Hc. unfold show_demo_images. destruct (ratio_ok data Hc) as (r & ->). reflexivity. Qed.

Lemma c95_unnamed data q d i : cols data <> 0%Z -> (0 <= i < 4)%Z -> (forall k, ~ In (k, i) d) ->
  show_demo_images data (Some q) d None None = Raise ValueError.
Proof.
  intros Hc Hi Hk. unfold show_demo_images. destruct (ratio_ok data Hc) as (r & ->). cbn [bind].
  assert (X : forall j, (exists p, demo_panel (Some q) d None None j = Ok p) \/ demo_panel (Some q) d None None j = Raise ValueError).
  { intro j. unfold demo_panel. cbn [bind]. destruct (key_of d j) as [k|e|] eqn:E; cbn [bind]; [left; eauto| |].
    - right. clear -E. induction d as [|(k', v) d IH]; cbn [key_of] in E; [congruence|]. destruct (v =? j)%Z; [discriminate|auto].
    - exfalso. clear -E. induction d as [|(k', v) d IH]; cbn [key_of] in E; [discriminate|]. destruct (v =? j)%Z; [discriminate|auto]. }
  assert (Y : demo_panel (Some q) d None None i = Raise ValueError).
  { unfold demo_panel. cbn [bind]. rewrite (key_of_missing d i Hk). reflexivity. }
  destruct (X 0%Z) as [(a & E0)|E0]; rewrite E0; [|reflexivity].
  destruct (X 1%Z) as [(b & E1)|E1]; rewrite E1; [|reflexivity].
  destruct (X 2%Z) as [(c & E2)|E2]; rewrite E2; [|reflexivity].
  destruct (X 3%Z) as [(e & E3)|E3]; rewrite E3; [|reflexivity].
  exfalso. assert (i = 0 \/ i = 1 \/ i = 2 \/ i = 3)%Z as [->|[->|[->| ->]]] by lia; congruence.
Qed.

Lemma c96_show data vmin vmax : cols data <> 0%Z -> values data <> [] ->
  exists p lo hi, show data vmin vmax = Ok p /\ p_image p = data /\ p_vmin p = Some lo /\ p_vmax p = Some hi /\
    match vmin with Some v => lo = v | None => is_min lo (values data) end /\
    match vmax with Some v => hi = v | None => is_max hi (values data) end.
Proof.
  intros Hc Hn. unfold show. destruct (ratio_ok data Hc) as (r & ->). cbn [bind]. unfold np_min, np_max, values, pixels in *.
  destruct (concat (to_list data)) as [|v l]; [contradiction|].
  exists (mkpanel data (Some (match vmin with Some v => v | None => smallest v l end))
                       (Some (match vmax with Some v => v | None => largest v l end)) tt),
    (match vmin with Some v => v | None => smallest v l end), (match vmax with Some v => v | None => largest v l end).
  split; [destruct vmin, vmax; reflexivity|]. do 3 (split; [reflexivity|]).
  split; [destruct vmin; [reflexivity|apply smallest_spec]|destruct vmax; [reflexivity|apply largest_spec]].
Qed.

Lemma c96_empty data vmin vmax : cols data <> 0%Z -> values data = [] -> vmin = None \/ vmax = None ->
  show data vmin vmax = Raise ValueError.
Proof.
  intros Hc Hn Hl. unfold show. destruct (ratio_ok data Hc) as (r & ->). cbn [bind]. unfold np_min, np_max, values, pixels in *.
  rewrite Hn. destruct vmin; [|reflexivity]. destruct vmax; [|reflexivity]. destruct Hl; discriminate.
Qed.
Lemma c96_no_columns data s name vmin vmax d demos : cols data = 0%Z ->
  show data vmin vmax = Raise ZeroDivisionError /\ show_pol_params data s = Raise ZeroDivisionError /\
  show_single_pol_images data d = Raise ZeroDivisionError /\ show_demo_images data demos d vmin vmax = Raise ZeroDivisionError /\
  (In name ["I"; "Q"; "U"; "pB"; "AoLP"; "DoLP"]%string -> show_pol_param data s name vmin vmax = Raise ZeroDivisionError).
Proof.
  intro Hc. unfold show, show_pol_params, show_single_pol_images, show_demo_images, show_pol_param. rewrite (ratio_zero data Hc).
  do 4 (split; [reflexivity|]). intro Hin. repeat destruct Hin as [<-|Hin]; reflexivity || destruct Hin.
Qed.

Lemma stats_limits {T} a (t : T) : values a <> [] -> mean_limits (values a) (p_vmin (stats_panel a t)) (p_vmax (stats_panel a t)).
Proof.
  intro Hn. pose proof (mean_limits_ok a Hn) as M. unfold mean_minus_std, mean_plus_std in M. unfold stats_panel. cbn [p_vmin p_vmax].
  destruct (array_mean a), (array_std a); cbn [lift2] in *; try (destruct M; discriminate).
  destruct M as (A & B). rewrite Rmult_1_l in A, B. split; assumption.
Qed.

Lemma c96_params data s : cols data <> 0%Z ->
  exists panels, show_pol_params data s = Ok panels /\
    map p_title panels = ["I"; "Q"; "U"; "pB"; "AoLP"; "DoLP"]%string /\
    map p_image panels = [sI s; sQ s; sU s; pB s; AoLP s; DoLP s] /\
    (forall p, In p panels -> values (p_image p) <> [] -> mean_limits (values (p_image p)) (p_vmin p) (p_vmax p)) /\
    (exists first, show_with_pol_params data s = Ok (first, panels) /\ p_image first = data /\
       (values data <> [] -> mean_limits (values data) (p_vmin first) (p_vmax first))) /\
    forall p, In p panels -> values (p_image p) <> [] -> show_pol_param data s (p_title p) None None = Ok p.
Proof.
  intro Hc. unfold show_with_pol_params, show_pol_params, show_pol_param. destruct (ratio_ok data Hc) as (r & ->). cbn [bind].
  eexists. split; [reflexivity|]. split; [reflexivity|]. split; [reflexivity|]. split.
  - intros p Hp. apply in_map_iff in Hp as ((n & a) & <- & _). intro Hn. apply stats_limits. exact Hn.
  - split.
    + eexists. split; [reflexivity|]. split; [reflexivity|]. intro Hn. apply stats_limits. exact Hn.
    + intros p Hp. apply in_map_iff in Hp as ((n & a) & <- & Hin). cbn [fst snd]. intro Hn.
      pose proof (stats_limits a n Hn) as (A & B). cbn [stats_panel p_vmin p_vmax p_title p_image] in *.
      pose proof (mean_limits_ok a Hn) as (C & D).
      assert (E : getattr (polparam_list s) n = Ok a).
      { cbn [polparam_list In] in Hin. repeat destruct Hin as [Hin|Hin]; try (injection Hin as <- <-; reflexivity). destruct Hin. }
      rewrite E. cbn [bind]. unfold stats_panel. rewrite A, B, C, D. reflexivity.
Qed.

Lemma c96_param data s name a vmin vmax : cols data <> 0%Z -> In (name, a) (polparam_list s) ->
  exists p, show_pol_param data s name (Some vmin) (Some vmax) = Ok p /\ p_image p = a /\
    p_vmin p = Some vmin /\ p_vmax p = Some vmax /\ p_title p = name.
Proof.
  intros Hc Hin. unfold show_pol_param. destruct (ratio_ok data Hc) as (r & ->).
  assert (E : getattr (polparam_list s) name = Ok a).
  { cbn [polparam_list In] in Hin. repeat destruct Hin as [Hin|Hin]; try (injection Hin as <- <-; reflexivity). destruct Hin. }
  rewrite E. cbn [bind]. eexists. split; [reflexivity|]. repeat split.
Qed.

Lemma dict_get_in d k v : NoDup (map fst d) -> In (k, v) d -> dict_get d k = Ok v.
Proof.
  induction d as [|(k', v') d IH]; intros Hd Hin; [destruct Hin|]. cbn [map fst dict_get] in *. inversion Hd as [|? ? N D]; subst.
  destruct Hin as [E|Hin]; [injection E as -> ->; rewrite Z.eqb_refl; reflexivity|].
  destruct (k =? k')%Z eqn:E; [|auto]. apply Z.eqb_eq in E. subst. exfalso. apply N. apply (in_map fst _ _ Hin).
Qed.

Lemma oriented_ok data d k i : mosaic data -> NoDup (map fst d) -> In (k, i) d -> (0 <= i < 4)%Z ->
  oriented data d k = Ok (family_image data i).
Proof.
  intros Hm Hd Hin Hi. unfold oriented. destruct (split_ok_mosaic data Hm) as (q & Eq). rewrite Eq. cbn [bind].
  rewrite (dict_get_in d k i Hd Hin). cbn [bind]. unfold quad_get.
  replace (norm_idx 4 i) with (Some i) by (unfold norm_idx; destruct (0 <=? i)%Z eqn:A; [|lia]; destruct (i <? 4)%Z eqn:B; [reflexivity|lia]).
  rewrite (split_families data q Hm Eq), qnth_families by exact Hi. reflexivity.
Qed.
Lemma c96_single data d ar : cols data <> 0%Z -> mosaic data -> describes d ar ->
  show_single_pol_images data d = Ok [(family_image data (p0 ar), 0%Z); (family_image data (p45 ar), 45%Z);
    (family_image data (p90 ar), 90%Z); (family_image data (pm45 ar), (-45)%Z)].
Proof.
  intros Hc Hm ((A0 & A1 & A2 & A3 & _) & Hd & I0 & I45 & Im45 & I90). unfold show_single_pol_images.
  destruct (ratio_ok data Hc) as (r & ->). cbn [bind].
  rewrite (oriented_ok data d 0 _ Hm Hd I0 A0), (oriented_ok data d 45 _ Hm Hd I45 A1), (oriented_ok data d 90 _ Hm Hd I90 A3),
    (oriented_ok data d (-45) _ Hm Hd Im45 A2). reflexivity.
Qed.
