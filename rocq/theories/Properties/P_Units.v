(** C128: cuts and limits follow a change of units. *)
From Coq Require Import Reals Lra.
From Verif Require Import Base.Base Base.Num Model.Histogram Model.Cleaning Model.Limits Spec.HistSpec Spec.CleanSpec Spec.UnitSpec Proofs.UnitFacts Proofs.CleanFacts.
Local Open Scope R_scope.

(** Full statement: in other units (scale and zero changed), the same values are rejected, replaced or cut. *)
Theorem C128_rejected scale zero l m : 0 < scale ->
  reject_outliers (map (unit_change scale zero) l) m = map (unit_change scale zero) (reject_outliers l m).
Proof. exact (fun H => c128_rejected scale zero H l m). Qed.
Print Assumptions C128_rejected.

Theorem C128_replaced scale zero l neighbours : 0 < scale -> (0 <= neighbours)%Z ->
  remove_outliers_simple (map (unit_change scale zero) l) neighbours = map (unit_change scale zero) (remove_outliers_simple l neighbours).
Proof. exact (fun H => c128_replaced scale zero H l neighbours). Qed.
Print Assumptions C128_replaced.

Theorem C128_limits scale zero a n : 0 < scale ->
  let a' := amap (unit_change scale zero) a in let in_new := option_map (unit_change scale zero) in
  mean_minus_std a' n = in_new (mean_minus_std a n) /\ mean_plus_std a' n = in_new (mean_plus_std a n) /\
  median_minus_std a' n = in_new (median_minus_std a n) /\ median_plus_std a' n = in_new (median_plus_std a n).
Proof. exact (fun H => c128_limits scale zero H a n). Qed.
Print Assumptions C128_limits.

(** Otsu's threshold moves with the zero ... *)
Theorem C128_offset_partial F data zero : unitless F ->
  auto_threshold F (amap (unit_change 1 zero) data) = on_ok (unit_change 1 zero) (auto_threshold F data).
Proof. exact (c128_offset F data zero). Qed.
Print Assumptions C128_offset_partial.

(** ... but not with the scale: in units so large that the image spans less than one, every pixel but the brightest is
    below it. *)
Theorem C128_scaled_refuted F data a b v scale :
  let l := pixels (median_filter F data 10) in
  unitless F -> is_min a l -> is_max b l -> In v l -> v < b -> 0 < scale -> scale * (b - a) < 1 ->
  exists t, auto_threshold F (amap (unit_change scale 0) data) = Ok t /\ unit_change scale 0 v < t.
Proof. exact (c128_scaled F data a b v scale). Qed.
Print Assumptions C128_scaled_refuted.

(** Background 0 and signals 8 and 10: the signal 8 is above the threshold in these units and below it in units of 20. *)
Definition signals : arr R := mkarr 1 3 (fun _ x => if (x =? 0)%Z then 0 else if (x =? 1)%Z then 8 else 10).
Example C128_case :
  let F : filter_oracle := fun a _ => cell a in unitless F /\
  (exists t, auto_threshold F signals = Ok t /\ 0 < t <= 8) /\
  (exists t, auto_threshold F (amap (unit_change (1 / 20) 0) signals) = Ok t /\ unit_change (1 / 20) 0 8 < t).
Proof.
  intros F. assert (U : unitless F) by (intros s z a size y x _; reflexivity). split; [exact U|].
  assert (El : pixels (median_filter F signals 10) = [0; 8; 10]) by reflexivity.
  assert (Mi : is_min 0 [0; 8; 10]) by (split; [cbn; tauto|intros u Hu; cbn in Hu; decompose [or] Hu; subst; lra || contradiction]).
  assert (Ma : is_max 10 [0; 8; 10]) by (split; [cbn; tauto|intros u Hu; cbn in Hu; decompose [or] Hu; subst; lra || contradiction]).
  split.
  - destruct (auto_threshold_ok F signals 0 10) as (t & k & Et & Hk & Tk & Hb); rewrite ?El; [exact Mi|exact Ma|]. rewrite El in Hk, Tk, Hb. cbn [length] in Hk, Tk, Hb.
    change (Z.min (Z.of_nat 3) 1000) with 3%Z in Hk, Tk, Hb. exists t. split; [exact Et|].
    assert (k = 0 \/ k = 1 \/ k = 2)%Z as [-> |[-> | ->]] by lia; [rewrite Tk; cbn; lra|rewrite Tk; cbn; lra|]. exfalso. specialize (Hb 0%Z ltac:(lia)).
    rewrite Tk in Hb. replace (0 + 1 + IZR 0 * ((10 - (0 + 1)) / IZR (3 - 1))) with 1 in Hb by (cbn; lra).
    replace (0 + 1 + IZR 2 * ((10 - (0 + 1)) / IZR (3 - 1))) with 10 in Hb by (cbn; lra).
    assert (Yes : forall u t, u < t -> Rltb u t = true) by (intros u w H; unfold Rltb; destruct (Rlt_dec u w); [reflexivity|lra]).
    assert (No : forall u t, t <= u -> Rltb u t = false) by (intros u w H; unfold Rltb; destruct (Rlt_dec u w); [lra|reflexivity]).
    unfold CleanSpec.within, class_average, average, total in Hb. cbn [map filter] in Hb.
    rewrite (Yes 0 10), (Yes 8 10), (No 10 10), (Yes 0 1), (No 8 1), (No 10 1) in Hb by lra. cbn in Hb. lra.
  - apply (C128_scaled_refuted F signals 0 10 8 (1 / 20)); rewrite ?El; [exact U|exact Mi|exact Ma|cbn; tauto|lra|lra|lra].
Qed.
