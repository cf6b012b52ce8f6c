(** Change of units (C128). *)
From Coq Require Import Reals Lra Lia.
From Verif Require Import Base.Base Base.BaseFacts Base.Num Model.Histogram Model.Cleaning Model.Limits Spec.HistSpec Spec.CleanSpec Spec.UnitSpec
  Proofs.CleanFacts.
Local Open Scope R_scope.

Section Units.
  Variables s z : R.
  Hypothesis Hs : 0 < s.
  Let g := unit_change s z.

  Lemma g_lt u v : Rltb (g u) (g v) = Rltb u v.
  Proof using Hs.
    unfold Rltb, g, unit_change. destruct (Rlt_dec u v) as [H|H], (Rlt_dec (s * u + z) (s * v + z)) as [K|K]; try reflexivity; exfalso.
    - apply K. apply Rplus_lt_compat_r, Rmult_lt_compat_l; assumption.
    - apply H. apply Rmult_lt_reg_l with s; [exact Hs|lra].
  Qed.
  Lemma g_le u v : Rleb (g u) (g v) = Rleb u v.
  Proof using Hs.
    unfold Rleb, g, unit_change. destruct (Rle_dec u v) as [H|H], (Rle_dec (s * u + z) (s * v + z)) as [K|K]; try reflexivity; exfalso.
    - apply K. apply Rplus_le_compat_r, Rmult_le_compat_l; [lra|assumption].
    - apply H. apply Rmult_le_reg_l with s; [exact Hs|lra].
  Qed.
  Lemma g_diff u v : g u - g v = s * (u - v).
  Proof using. unfold g, unit_change. ring. Qed.
  Lemma g_abs u v : Rabs (g u - g v) = s * Rabs (u - v).
  Proof using Hs. rewrite g_diff, Rabs_mult, (Rabs_pos_eq s) by lra. reflexivity. Qed.

  (** ** Sorting and medians *)
  Lemma insert_map v l : insert_real (g v) (map g l) = map g (insert_real v l).
  Proof using Hs. induction l as [|u l IH]; [reflexivity|]. cbn [map insert_real]. rewrite g_le. destruct (Rleb v u); [reflexivity|]. cbn [map]. rewrite IH. reflexivity. Qed.
  Lemma sort_map l : sort_reals (map g l) = map g (sort_reals l).
  Proof using Hs. induction l as [|v l IH]; [reflexivity|]. unfold sort_reals in *. cbn [map fold_right]. rewrite IH. apply insert_map. Qed.
  Lemma insert_length v l : length (insert_real v l) = S (length l).
  Proof using. induction l as [|u l IH]; [reflexivity|]. cbn [insert_real]. destruct (Rleb v u); cbn [length]; [reflexivity|]. rewrite IH. reflexivity. Qed.
  Lemma sort_length l : length (sort_reals l) = length l.
  Proof using. induction l as [|v l IH]; [reflexivity|]. unfold sort_reals in *. cbn [fold_right length]. rewrite insert_length, IH. reflexivity. Qed.
  Lemma nth_g k l : (k < length l)%nat -> nth k (map g l) 0 = g (nth k l 0).
  Proof using. intros Hk. rewrite (nth_indep _ 0 (g 0)) by (rewrite map_length; exact Hk). apply map_nth. Qed.
  Lemma median_map l : median (map g l) = option_map g (median l).
  Proof using Hs.
    destruct l as [|v l]; [reflexivity|]. remember (v :: l) as l' eqn:El.
    assert (E : forall m, m <> [] -> median m = Some (if Nat.even (length m) then (nth (length m / 2 - 1) (sort_reals m) 0 + nth (length m / 2) (sort_reals m) 0) / 2
      else nth (length m / 2) (sort_reals m) 0)).
    { intros m Hm. unfold median. destruct m; [contradiction|]. destruct (Nat.even _); reflexivity. }
    rewrite !E by (rewrite El; discriminate). rewrite map_length, sort_map. cbn [option_map].
    assert (L : (0 < length l')%nat) by (rewrite El; cbn; lia). pose proof (Nat.div_lt (length l') 2 L ltac:(lia)).
    rewrite !nth_g by (rewrite sort_length; lia). f_equal. destruct (Nat.even (length l')); [|reflexivity]. unfold g, unit_change. field.
  Qed.
End Units.

Section Cuts.
  Variables s z : R.
  Hypothesis Hs : 0 < s.
  Let g := unit_change s z.

  Lemma spread_map m l : median (map (fun v => Rabs (v - g m)) (map g l)) = option_map (fun d => s * d) (median (map (fun v => Rabs (v - m)) l)).
  Proof using Hs.
    rewrite map_map. transitivity (median (map (unit_change s 0) (map (fun v => Rabs (v - m)) l))).
    - f_equal. rewrite map_map. apply map_ext. intros v. unfold g. rewrite (g_abs s z Hs). unfold unit_change. ring.
    - rewrite (median_map s 0 Hs). destruct (median (map (fun v => Rabs (v - m)) l)) as [d|]; [|reflexivity]. cbn [option_map]. unfold unit_change. rewrite Rplus_0_r. reflexivity.
  Qed.

  Lemma filter_map (P Q : R -> bool) l : (forall v, P (g v) = Q v) -> filter P (map g l) = map g (filter Q l).
  Proof using. intros E. induction l as [|v l IH]; [reflexivity|]. cbn [map filter]. rewrite E, IH. destruct (Q v); reflexivity. Qed.

  Lemma c128_rejected l m : reject_outliers (map g l) m = map g (reject_outliers l m).
  Proof using Hs.
    unfold reject_outliers. unfold g at 1. rewrite (median_map s z Hs). destruct (median l) as [med|]; [|reflexivity]. cbn [option_map].
    change (unit_change s z med) with (g med). rewrite spread_map. destruct (median (map (fun v => Rabs (v - med)) l)) as [d|]; [|reflexivity]. cbn [option_map].
    apply filter_map. intros v. f_equal. unfold g. rewrite (g_abs s z Hs). unfold Reqb.
    destruct (Req_EM_T (s * d) 0) as [E|N], (Req_EM_T d 0) as [E'|N']; try reflexivity.
    - apply Rmult_integral in E. lra.
    - rewrite E', Rmult_0_r in N. lra.
    - field. split; lra.
  Qed.

  Lemma firstn_g k (l : list R) : firstn k (map g l) = map g (firstn k l).
  Proof using. apply firstn_map. Qed.
  Lemma skipn_g k (l : list R) : skipn k (map g l) = map g (skipn k l).
  Proof using. apply skipn_map. Qed.
  Lemma pyslice_g l a b : pyslice (map g l) a b = map g (pyslice l a b).
  Proof using. unfold pyslice. rewrite map_length, skipn_g, firstn_g. reflexivity. Qed.

  Lemma step_map n i l : (0 <= i)%Z -> (0 <= n)%Z -> (i + n < Z.of_nat (length l))%Z -> step_outlier n i (map g l) = map g (step_outlier n i l).
  Proof using Hs.
    intros Hi Hn Hl. unfold step_outlier. rewrite pyslice_g. unfold g at 1. rewrite (median_map s z Hs). destruct (median (pyslice l (i - n) (i + n))) as [m|]; [|reflexivity].
    cbn [option_map]. change (unit_change s z m) with (g m). rewrite spread_map. destruct (median (map (fun v => Rabs (v - m)) (pyslice l (i - n) (i + n)))) as [d|]; [|reflexivity].
    cbn [option_map]. assert (Ng : nth (Z.to_nat (i + n)) (map g l) 0 = g (nth (Z.to_nat (i + n)) l 0)) by (apply nth_g; lia). rewrite !Ng.
    replace (g m - 3 * (s * d)) with (g (m - 3 * d)) by (unfold g, unit_change; ring).
    replace (g m + 3 * (s * d)) with (g (m + 3 * d)) by (unfold g, unit_change; ring).
    assert (Gl : forall u v, Rltb (g u) (g v) = Rltb u v) by (exact (g_lt s z Hs)). rewrite !Gl.
    destruct (_ || _); [|reflexivity]. rewrite map_app, firstn_g. cbn [map]. rewrite skipn_g. reflexivity.
  Qed.
  Lemma step_length n i l : (0 <= i)%Z -> (0 <= n)%Z -> (i + n < Z.of_nat (length l))%Z -> length (step_outlier n i l) = length l.
  Proof using.
    clear g Hs s z. intros Hi Hn Hl. unfold step_outlier. destruct (median _) as [m|]; [|reflexivity]. destruct (median _) as [d|]; [|reflexivity].
    destruct (_ || _); [|reflexivity]. rewrite app_length, firstn_length. cbn [length]. rewrite skipn_length. lia.
  Qed.
  Lemma c128_replaced l n : (0 <= n)%Z -> remove_outliers_simple (map g l) n = map g (remove_outliers_simple l n).
  Proof using Hs.
    intros Hn. unfold remove_outliers_simple. rewrite pyslice_g, map_length.
    assert (In' : forall i, In i (zrange (Z.of_nat (length (pyslice l n (- n))))) -> (0 <= i)%Z /\ (i + n < Z.of_nat (length l))%Z).
    { intros i Hi. apply in_zrange in Hi. unfold pyslice in Hi. rewrite firstn_length, skipn_length in Hi. unfold clip in Hi.
      destruct (Z.ltb_spec n 0); [lia|]. destruct (Z.ltb_spec (- n) 0); lia. }
    revert In'. generalize (zrange (Z.of_nat (length (pyslice l n (- n))))) as is. intros is. revert l.
    induction is as [|i is IH]; intros l H; [reflexivity|]. cbn [fold_left]. destruct (H i (or_introl eq_refl)) as (H1 & H2).
    rewrite step_map by assumption. apply IH. intros j Hj. rewrite step_length by assumption. apply H. right. exact Hj.
  Qed.

  (** ** Means and limits *)
  Lemma total_g l : total (map g l) = s * total l + INR (length l) * z.
  Proof using.
    induction l as [|v l IH]; [unfold total; cbn; lra|]. cbn [map length]. rewrite !total_cons, IH, S_INR. unfold g, unit_change. ring.
  Qed.
  Lemma mean_map l : l <> [] -> mean (map g l) = g (mean l).
  Proof using.
    intros N. unfold mean, sum. rewrite !fold_plus, map_length, total_g. assert (L : INR (length l) <> 0) by (apply not_0_INR; destruct l; [contradiction|discriminate]).
    unfold g, unit_change. field. exact L.
  Qed.
  Lemma mean_scale c l : mean (map (fun v => c * v) l) = c * mean l.
  Proof using.
    clear. unfold mean, sum. rewrite !fold_plus, map_length. replace (total (map (fun v => c * v) l)) with (c * total l).
    - unfold Rdiv. ring.
    - induction l as [|v l IH]; [unfold total; cbn; ring|]. cbn [map]. rewrite !total_cons, <- IH. ring.
  Qed.
  Lemma var_map l : l <> [] -> var (map g l) = s * s * var l.
  Proof using.
    intros N. unfold var. rewrite mean_map by exact N. rewrite map_map.
    rewrite <- mean_scale, map_map. f_equal. apply map_ext. intros v. unfold g. rewrite g_diff. ring.
  Qed.
  Lemma pixels_map a : pixels (amap g a) = map g (pixels a).
  Proof using.
    unfold pixels, to_list. cbn [amap rows cols cell]. rewrite concat_map, map_map. f_equal. apply map_ext. intros y. rewrite map_map. reflexivity.
  Qed.
  Lemma array_mean_g a : array_mean (amap g a) = option_map g (array_mean a).
  Proof using. unfold array_mean. rewrite pixels_map. destruct (pixels a) as [|v l] eqn:E; [reflexivity|]. cbn [map option_map]. f_equal. apply (mean_map (v :: l)). discriminate. Qed.
  Lemma array_std_g a : array_std (amap g a) = option_map (fun d => s * d) (array_std a).
  Proof using Hs.
    unfold array_std. rewrite pixels_map. destruct (pixels a) as [|v l] eqn:E; [reflexivity|]. cbn [map option_map]. f_equal. change (g v :: map g l) with (map g (v :: l)).
    rewrite var_map by discriminate. rewrite sqrt_mult_alt by (apply Rle_0_sqr). rewrite sqrt_square by lra. reflexivity.
  Qed.
  Lemma median_std_g a : median_std (amap g a) = option_map (fun d => s * d) (median_std a).
  Proof using Hs.
    unfold median_std. rewrite pixels_map. unfold g at 1. rewrite (median_map s z Hs). destruct (median (pixels a)) as [m|]; [|reflexivity]. cbn [option_map].
    replace (pixels (amap (fun v => Rabs (v - unit_change s z m)) (amap g a))) with (map (fun v => Rabs (v - g m)) (map g (pixels a))).
    - rewrite spread_map. do 2 f_equal. unfold pixels, to_list. cbn [amap rows cols cell]. rewrite concat_map, map_map. f_equal. apply map_ext. intros y. rewrite map_map. reflexivity.
    - unfold pixels, to_list. cbn [amap rows cols cell]. rewrite !concat_map, !map_map. f_equal. apply map_ext. intros y. rewrite !map_map. reflexivity.
  Qed.
  Lemma lift2_g k u v : lift2 (fun m d => m + k * d) (option_map g u) (option_map (fun d => s * d) v) = option_map g (lift2 (fun m d => m + k * d) u v).
  Proof using. destruct u as [u|], v as [v|]; try reflexivity. cbn [lift2 option_map]. f_equal. unfold g, unit_change. ring. Qed.
  Lemma lift2_g' k u v : lift2 (fun m d => m - k * d) (option_map g u) (option_map (fun d => s * d) v) = option_map g (lift2 (fun m d => m - k * d) u v).
  Proof using. destruct u as [u|], v as [v|]; try reflexivity. cbn [lift2 option_map]. f_equal. unfold g, unit_change. ring. Qed.

  Lemma c128_limits a k :
    mean_minus_std (amap g a) k = option_map g (mean_minus_std a k) /\ mean_plus_std (amap g a) k = option_map g (mean_plus_std a k) /\
    median_minus_std (amap g a) k = option_map g (median_minus_std a k) /\ median_plus_std (amap g a) k = option_map g (median_plus_std a k).
  Proof using Hs.
    unfold mean_minus_std, mean_plus_std, median_minus_std, median_plus_std. rewrite array_mean_g, array_std_g, median_std_g, pixels_map. unfold g at 5 7.
    rewrite !(median_map s z Hs). split; [apply lift2_g'|]. split; [apply lift2_g|]. split; [apply lift2_g'|apply lift2_g].
  Qed.

  (** ** Otsu's threshold *)
  Lemma otsu_g l t : otsu_intraclass_variance (map g l) (g t) = s * s * otsu_intraclass_variance l t.
  Proof using Hs.
    unfold otsu_intraclass_variance, contribution.
    rewrite (filter_map _ (fun v => Rleb t v)) by (intros v; apply (g_le s z Hs)). rewrite (filter_map _ (fun v => Rltb v t)) by (intros v; apply (g_lt s z Hs)).
    assert (E : forall m, match map g m with [] => 0 | _ :: _ => INR (length (map g m)) / INR (length (map g l)) * var (map g m) end =
      s * s * match m with [] => 0 | _ :: _ => INR (length m) / INR (length l) * var m end).
    { intros m. rewrite !map_length. destruct m as [|v m]; [cbn; ring|]. rewrite var_map by discriminate. cbn [map]. ring. }
    rewrite !E. ring.
  Qed.
  Lemma min_by_g key key' ts t : (forall t, key' (g t) = s * s * key t) -> min_by key' (g t) (map g ts) = g (min_by key t ts).
  Proof using Hs.
    intros E. assert (S2 : 0 < s * s) by (apply Rmult_lt_0_compat; exact Hs). revert t. induction ts as [|u ts IH]; intros t; [reflexivity|]. cbn [map min_by]. rewrite !E.
    replace (Rltb (s * s * key u) (s * s * key t)) with (Rltb (key u) (key t)).
    - destruct (Rltb (key u) (key t)); apply IH.
    - symmetry. pose proof (g_lt (s * s) 0 S2 (key u) (key t)) as L. unfold unit_change in L. rewrite !Rplus_0_r in L. exact L.
  Qed.
  Lemma linspace_g a b n : linspace (g a) (g b) n = map g (linspace a b n).
  Proof using. unfold linspace. rewrite map_map. apply map_ext. intros k. unfold g, unit_change. unfold Rdiv. ring. Qed.
  Lemma smallest_g v l : smallest (g v) (map g l) = g (smallest v l).
  Proof using Hs.
    unfold smallest. revert v. induction l as [|u l IH]; intros v; [reflexivity|]. cbn [map fold_left]. rewrite <- IH. f_equal.
    pose proof (g_le s z Hs v u) as L. unfold Rleb in L. unfold Rmin. fold g in L. destruct (Rle_dec (g v) (g u)), (Rle_dec v u); try reflexivity; discriminate L.
  Qed.
  Lemma largest_g v l : largest (g v) (map g l) = g (largest v l).
  Proof using Hs.
    unfold largest. revert v. induction l as [|u l IH]; intros v; [reflexivity|]. cbn [map fold_left]. rewrite <- IH. f_equal.
    pose proof (g_le s z Hs v u) as L. unfold Rleb in L. unfold Rmax. fold g in L. destruct (Rle_dec (g v) (g u)), (Rle_dec v u); try reflexivity; discriminate L.
  Qed.
  Lemma filtered_g F data size : unitless F -> pixels (median_filter F (amap g data) size) = map g (pixels (median_filter F data size)).
  Proof using Hs.
    intros HF. unfold pixels, to_list, median_filter. cbn [amap rows cols cell]. rewrite concat_map, map_map. f_equal. apply map_ext. intros y. rewrite map_map. apply map_ext. intros x.
    apply HF, Hs.
  Qed.
End Cuts.

Lemma c128_offset F data z : unitless F -> auto_threshold F (amap (unit_change 1 z) data) = on_ok (unit_change 1 z) (auto_threshold F data).
Proof.
  intros HF. unfold auto_threshold. rewrite (filtered_g 1 z Rlt_0_1) by exact HF. destruct (pixels (median_filter F data 10)) as [|v l] eqn:E; [reflexivity|]. cbn [map].
  rewrite (smallest_g 1 z Rlt_0_1), (largest_g 1 z Rlt_0_1).
  replace (unit_change 1 z (smallest v l) + 1) with (unit_change 1 z (smallest v l + 1)) by (unfold unit_change; ring). rewrite linspace_g.
  cbn [length]. rewrite map_length. destruct (linspace (smallest v l + 1) (largest v l) _) as [|t ts]; [reflexivity|]. cbn [map on_ok]. f_equal.
  apply (min_by_g 1 z Rlt_0_1). intros u. apply (otsu_g 1 z Rlt_0_1 (v :: l) u).
Qed.

Lemma c128_scaled F data a b v scale :
  let l := pixels (median_filter F data 10) in
  unitless F -> is_min a l -> is_max b l -> In v l -> v < b -> 0 < scale -> scale * (b - a) < 1 ->
  exists t, auto_threshold F (amap (unit_change scale 0) data) = Ok t /\ unit_change scale 0 v < t.
Proof.
  intros l HF (Ia & Ha) (Ib & Hb) Iv Hv Hs Hr. pose proof (filtered_g scale 0 Hs F data 10 HF) as E. fold l in E.
  assert (M : forall u w, u <= w -> unit_change scale 0 u <= unit_change scale 0 w).
  { intros u w H. unfold unit_change. apply Rplus_le_compat_r, Rmult_le_compat_l; lra. }
  destruct (narrow_threshold F (amap (unit_change scale 0) data) (unit_change scale 0 a) (unit_change scale 0 b)) as (t & Et & Ht).
  - rewrite E. split; [apply in_map, Ia|]. intros u Hu. apply in_map_iff in Hu as (w & <- & Hw). apply M, Ha, Hw.
  - rewrite E. split; [apply in_map, Ib|]. intros u Hu. apply in_map_iff in Hu as (w & <- & Hw). apply M, Hb, Hw.
  - unfold unit_change. lra.
  - exists t. split; [exact Et|]. apply Rlt_le_trans with (unit_change scale 0 b).
    + unfold unit_change. apply Rplus_lt_compat_r, Rmult_lt_compat_l; assumption.
    + apply Ht. rewrite E. apply in_map, Ib.
Qed.
