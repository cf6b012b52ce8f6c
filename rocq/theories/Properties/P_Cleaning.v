(** Properties C69, C73, C78, C79: thresholds, hot pixels and outliers. *)
From Coq Require Import Reals Lra.
From Verif Require Import Base.Base Base.Num Model.Histogram Model.Cleaning Spec.MosaicSpec Spec.HistSpec Spec.CleanSpec
  Proofs.CleanFacts.
Local Open Scope R_scope.

(** ** C69.  The threshold is a candidate with the least within-class variance. *)
Theorem C69_threshold F data a b :
  let l := pixels (median_filter F data 10) in
  let n := Z.min (Z.of_nat (length l)) 1000 in
  let candidate k := a + 1 + IZR k * ((b - (a + 1)) / IZR (n - 1)) in
  is_min a l -> is_max b l ->
  exists t k, auto_threshold F data = Ok t /\ (0 <= k < n)%Z /\ t = candidate k /\
    forall j, (0 <= j < n)%Z -> within t l <= within (candidate j) l.
Proof. exact (auto_threshold_ok F data a b). Qed.
Print Assumptions C69_threshold.

Theorem C69_empty F data : pixels (median_filter F data 10) = [] -> auto_threshold F data = Raise ValueError.
Proof. exact (auto_threshold_empty F data). Qed.
Print Assumptions C69_empty.

(** Candidates start one unit above the minimum: of data that span less than one unit at most the
    maximum reaches the threshold. *)
Theorem C69_narrow_range F data a b :
  let l := pixels (median_filter F data 10) in
  is_min a l -> is_max b l -> b < a + 1 ->
  exists t, auto_threshold F data = Ok t /\ forall v, In v l -> v <= t.
Proof. exact (narrow_threshold F data a b). Qed.
Print Assumptions C69_narrow_range.

(** Two populations, filter without effect. *)
Definition two_levels : arr R := mkarr 2 3 (fun y _ => if (y =? 0)%Z then 0 else 10).
Example C69_case : let l := pixels (median_filter (fun a _ => cell a) two_levels 10) in is_min 0 l /\ is_max 10 l.
Proof.
  cbv zeta. change (pixels (median_filter (fun a _ => cell a) two_levels 10)) with [0; 0; 0; 10; 10; 10].
  split; (split; [cbn; tauto|]); intros u Hu; cbn in Hu; decompose [or] Hu; subst; lra || contradiction.
Qed.

(** ** C73.  No map is ever returned: the method called does not exist. *)
Theorem C73_hot_pixels_refuted F data threshold : mosaic data -> get_hot_pixels F data threshold = Raise AttributeError.
Proof. exact (hot_raises F data threshold). Qed.
Print Assumptions C73_hot_pixels_refuted.

(** The map it would store is zero for non-negative pixels and thresholds of 1 or more (default 100). *)
Theorem C73_default_threshold_refuted F threshold a y x :
  1 <= threshold -> 0 <= cell a y x -> 0 <= F a 2%Z y x -> cell (hot_map F threshold a) y x = 0.
Proof. exact (hot_map_zero F threshold a y x). Qed.
Print Assumptions C73_default_threshold_refuted.

Example C73_case : mosaic (mkarr 2 4 (fun y x => IZR (y + x))) /\ cell (hot_map (fun _ _ _ _ => 0) (1 / 2) (full 1 1 7)) 0 0 = 1.
Proof.
  split; [repeat split; cbn; lia|]. unfold hot_map, median_filter, full. cbn [cell rows cols].
  unfold Rltb. destruct (Rlt_dec (1 / 2) ((7 - 0) / (7 + 0))) as [|N]; [reflexivity|]. exfalso. apply N.
  replace ((7 - 0) / (7 + 0)) with 1 by field. lra.
Qed.

(** ** C78.  An isolated outlier is never removed. *)
Theorem C78_outlier_refuted n p c v neighbours :
  (p < n)%nat -> (2 <= neighbours)%Z -> remove_outliers_simple (spike n p c v) neighbours = spike n p c v.
Proof. exact (remove_spike n p c v neighbours). Qed.
Print Assumptions C78_outlier_refuted.

Example C78_case : spike 9 4 1 100 = [1; 1; 1; 1; 100; 1; 1; 1; 1].
Proof. reflexivity. Qed.

(** ** C79.  Rejection keeps exactly the values within m median deviations ... *)
Theorem C79_rejection l m med mdev :
  median l = Some med -> median (map (fun v => Rabs (v - med)) l) = Some mdev -> 0 < mdev ->
  reject_outliers l m = filter (fun v => if Rlt_dec (Rabs (v - med)) (m * mdev) then true else false) l.
Proof. exact (reject_spread l m med mdev). Qed.
Print Assumptions C79_rejection.

(** ... but everything when more than half of the values agree. *)
Theorem C79_majority_refuted c l m : majority c l -> 0 < m -> reject_outliers l m = l.
Proof. exact (reject_majority c l m). Qed.
Print Assumptions C79_majority_refuted.

Theorem C79_median c l : majority c l -> median l = Some c.
Proof. exact (majority_median c l). Qed.
Print Assumptions C79_median.

Example C79_case : majority 1 (spike 9 4 1 100) /\ median [3; 1; 2] = Some 2 /\
  median (map (fun v => Rabs (v - 2)) [3; 1; 2]) = Some 1.
Proof.
  split; [|split].
  - unfold majority, occurrences. change (spike 9 4 1 100) with [1; 1; 1; 1; 100; 1; 1; 1; 1]. cbn [filter].
    destruct (Req_EM_T 1 1); [|lra]. destruct (Req_EM_T 100 1); [lra|]. cbn. lia.
  - assert (Hle : forall a b, a <= b -> Rleb a b = true) by (intros a b Hab; unfold Rleb; destruct (Rle_dec a b); [reflexivity|contradiction]).
    assert (Hgt : forall a b, b < a -> Rleb a b = false) by (intros a b Hab; unfold Rleb; destruct (Rle_dec a b); [lra|reflexivity]).
    assert (Es : sort_reals [3; 1; 2] = [1; 2; 3]).
    { cbn. rewrite (Hle 1 2) by lra. cbn. rewrite (Hgt 3 1), (Hgt 3 2) by lra. reflexivity. }
    unfold median. rewrite Es. reflexivity.
  - replace (map (fun v => Rabs (v - 2)) [3; 1; 2]) with [1; 1; 0].
    + apply C79_median. unfold majority, occurrences. cbn [filter]. destruct (Req_EM_T 1 1); [|lra]. destruct (Req_EM_T 0 1); [lra|]. cbn. lia.
    + cbn [map]. rewrite (Rabs_pos_eq (3 - 2)), (Rabs_left (1 - 2)), (Rabs_pos_eq (2 - 2)) by lra. f_equal; [lra|]. f_equal; [lra|]. f_equal. lra.
Qed.
