(** The IFOV correction and the superpixel calibration in binary64. *)
From Coq Require Import ZArith Reals Lra Lia Floats.SpecFloat.
From Flocq Require Import Core Relative BinarySingleNaN.
From Verif Require Import Base.Base Base.Num Base.BaseFacts Model.Demosaic Model.Ifov Model.Demodulate
  Spec.AngleSpec Spec.MosaicSpec Spec.DemodSpec Spec.FloatSpec Spec.ChenSpec Spec.IfovSpec
  Proofs.FloatFacts Proofs.MosaicFacts Proofs.ChenFacts Proofs.ExactFacts Proofs.RoundFacts Proofs.RoundImages Proofs.RoundDemod Proofs.RelFacts Proofs.FourFacts.
Local Open Scope R_scope.

#[local] Existing Instance Hprec.
#[local] Existing Instance Hmax.
#[local] Existing Instance fexp64_valid.
#[local] Existing Instance fexp64_mono.

Lemma power2' n : powerRZ 2 n = bpow radix2 n.
Proof. symmetry. exact (bpow_powerRZ radix2 n). Qed.

(** Which pixels are read *)
Lemma inner y x : ((y <? 2) || (x <? 2))%bool%Z = false -> (2 <= y)%Z /\ (2 <= x)%Z.
Proof. intros H. apply Bool.orb_false_iff in H as (H1 & H2). apply Z.ltb_ge in H1, H2. split; assumption. Qed.
Lemma smoothed_inner f y x : (2 <= y)%Z -> (2 <= x)%Z ->
  smoothed f y x = (f (y - 2)%Z (x - 2)%Z + f (y - 2)%Z x + f y (x - 2)%Z + f y x) / 4.
Proof. intros Hy Hx. unfold smoothed. destruct (Z.ltb_spec y 2); [lia|]. destruct (Z.ltb_spec x 2); [lia|]. reflexivity. Qed.

(** ** Without rounding *)
Lemma fx_smoothed b k (f : Z -> Z -> b64) (g : Z -> Z -> R) h w y x :
  (forall y x, (0 <= y < h)%Z -> (0 <= x < w)%Z -> fx b k (f y x) (g y x)) -> (4 * b < 2 ^ 53)%Z -> (0 <= b)%Z -> (0 <= k)%Z -> (k + 2 <= 1000)%Z ->
  (0 <= y < h)%Z -> (0 <= x < w)%Z ->
  is_value (if ((y <? 2) || (x <? 2))%bool%Z then n0 else nquart *! (((f (y - 2)%Z (x - 2)%Z +! f (y - 2)%Z x) +! f y (x - 2)%Z) +! f y x)) (smoothed g y x).
Proof.
  intros F Hb H0 Hk Hk' Hy Hx. unfold smoothed. destruct ((y <? 2) || (x <? 2))%bool%Z eqn:B; [exact (fx_value _ _ _ _ (zero_fx 0 ltac:(lia)))|].
  apply inner in B as (By & Bx).
  pose proof (fx_sum4 b k _ _ _ _ _ _ _ _ (F (y - 2)%Z (x - 2)%Z ltac:(lia) ltac:(lia)) (F (y - 2)%Z x ltac:(lia) ltac:(lia)) (F y (x - 2)%Z ltac:(lia) ltac:(lia)) (F y x ltac:(lia) ltac:(lia)) Hb H0) as S4.
  pose proof (fx_mul 1 (4 * b) 2 k _ _ _ _ quart_fx S4 ltac:(lia) ltac:(lia)) as S5. apply fx_value in S5.
  replace ((g (y - 2)%Z (x - 2)%Z + g (y - 2)%Z x + g y (x - 2)%Z + g y x) / 4) with (1 / 4 * (g (y - 2)%Z (x - 2)%Z + g (y - 2)%Z x + g y (x - 2)%Z + g y x)) by field.
  exact S5.
Qed.
Lemma c144_counts (d : arr b64) n : counts n d -> (0 <= n)%Z -> (4 * n < 2 ^ 53)%Z -> mosaic d ->
  exists r, ifov_jitcorrect d (rows d) (cols d) = Ok r /\ rows r = rows d /\ cols r = cols d /\
    forall y x, (0 <= y < rows d)%Z -> (0 <= x < cols d)%Z -> is_value (cell r y x) (smoothed (cell (values d)) y x).
Proof.
  intros Hc H0 Hn Hm. destruct (ifov_spec d Hm) as (r & E & R & C & V). exists r. split; [exact E|]. split; [exact R|]. split; [exact C|].
  intros y x Hy Hx. rewrite V by assumption. destruct (counts_fimg n d ltac:(lia) Hc) as (_ & _ & F).
  apply (fx_smoothed n 0 (cell d) (cell (values d)) (rows d) (cols d)); [exact F|exact Hn|exact H0|lia|lia|exact Hy|exact Hx].
Qed.
Lemma c144_equal (d : arr b64) y x c : mosaic d -> (2 <= y < rows d)%Z -> (2 <= x < cols d)%Z -> Rabs c <= powerRZ 2 1000 ->
  is_value (cell d (y - 2) (x - 2)) c -> is_value (cell d (y - 2) x) c -> is_value (cell d y (x - 2)) c -> is_value (cell d y x) c ->
  exists r, ifov_jitcorrect d (rows d) (cols d) = Ok r /\ is_value (cell r y x) c.
Proof.
  intros Hm Hy Hx Hc V1 V2 V3 V4. destruct (ifov_spec d Hm) as (r & E & _ & _ & V). exists r. split; [exact E|]. rewrite V by lia.
  destruct (Z.ltb_spec y 2); [lia|]. destruct (Z.ltb_spec x 2); [lia|]. cbn [orb]. apply mean_same; try assumption.
  rewrite power2' in Hc. apply Rle_trans with (4 * bpow radix2 1000); [lra|]. change 4 with (bpow radix2 2). rewrite <- bpow_plus. apply bpow_le. lia.
Qed.

(** ** With rounding *)
Lemma near_smoothed n e t (f : Z -> Z -> b64) (g a : Z -> Z -> R) h w y x : 0 <= e ->
  (forall y x, (0 <= y < h)%Z -> (0 <= x < w)%Z -> near n e (f y x) (g y x) (a y x) /\ a y x <= t) -> (n <= 900)%nat -> 8 * t + 100 * e <= huge ->
  (0 <= y < h)%Z -> (0 <= x < w)%Z ->
  near (n + 4) (44 * e + eta) (if ((y <? 2) || (x <? 2))%bool%Z then n0 else nquart *! (((f (y - 2)%Z (x - 2)%Z +! f (y - 2)%Z x) +! f y (x - 2)%Z) +! f y x)) (smoothed g y x) (smoothed a y x).
Proof.
  intros E0 F Hn Ht Hy Hx. pose proof (bpow_gt_0 radix2 (-1075)) as Eta. unfold smoothed. destruct ((y <? 2) || (x <? 2))%bool%Z eqn:B.
  - eapply near_weaken; [exact (near_exact _ _ (fx_value _ _ _ _ (zero_fx 0 ltac:(lia))))|lia|lra|rewrite Rabs_R0; lra].
  - apply inner in B as (By & Bx).
    destruct (F (y - 2)%Z (x - 2)%Z ltac:(lia) ltac:(lia)) as (N1 & T1). destruct (F (y - 2)%Z x ltac:(lia) ltac:(lia)) as (N2 & T2).
    destruct (F y (x - 2)%Z ltac:(lia) ltac:(lia)) as (N3 & T3). destruct (F y x ltac:(lia) ltac:(lia)) as (N4 & T4).
    pose proof (near_sum4 n e _ _ _ _ _ _ _ _ _ _ _ _ t N1 N2 N3 N4 T1 T2 T3 T4 (few (n + 4) ltac:(lia)) ltac:(lra)) as S1.
    destruct (near_const _ _ _ _ _ nquart (1 / 4) (4 * t) S1 quart_value ltac:(lra) ltac:(lra) (small_growth (n + 3) 1 (few (n + 3 + 1) ltac:(lia))) ltac:(lra)) as (S2 & _).
    replace ((g (y - 2)%Z (x - 2)%Z + g (y - 2)%Z x + g y (x - 2)%Z + g y x) / 4) with (1 / 4 * (g (y - 2)%Z (x - 2)%Z + g (y - 2)%Z x + g y (x - 2)%Z + g y x)) by field.
    eapply near_weaken; [exact S2|lia|lra|lra].
Qed.
Lemma c144_ifov (d : arr b64) t : bounded t d -> 0 <= t <= powerRZ 2 1000 -> mosaic d ->
  exists r, ifov_jitcorrect d (rows d) (cols d) = Ok r /\ rows r = rows d /\ cols r = cols d /\
    forall y x, (0 <= y < rows d)%Z -> (0 <= x < cols d)%Z ->
      off_by (powerRZ 2 (-50) * smoothed (cell (absolute d)) y x + powerRZ 2 (-1075)) (cell r y x) (smoothed (cell (values d)) y x).
Proof.
  intros Hd Ht Hm. rewrite power2' in Ht. destruct (ifov_spec d Hm) as (r & E & R & C & V). exists r. split; [exact E|]. split; [exact R|]. split; [exact C|].
  intros y x Hy Hx. rewrite V by assumption. destruct (bounded_nimg t d Hd) as (_ & _ & _ & _ & F).
  assert (T : 8 * t + 100 * 0 <= huge).
  { apply Rle_trans with (8 * bpow radix2 1000); [lra|]. change 8 with (bpow radix2 3). rewrite <- bpow_plus. apply bpow_le. lia. }
  pose proof (near_smoothed 0 0 t (cell d) (cell (values d)) (cell (absolute d)) (rows d) (cols d) y x ltac:(lra) F ltac:(lia) T Hy Hx) as N.
  pose proof N as (_ & B & _). pose proof (Rabs_pos (smoothed (cell (values d)) y x)) as B0.
  destruct (near_off _ _ _ _ _ N) as (O1 & O2 & O3). split; [exact O1|]. split; [exact O2|]. apply Rle_trans with (1 := O3). rewrite !power2'.
  assert (G : (1 + u) ^ (0 + 4) - 1 <= bpow radix2 (-50)).
  { apply Rle_trans with (1 := growth_bound 4 (few 4 ltac:(lia))). replace (INR 4) with 4 by (cbn; lra).
    replace (bpow radix2 (-50)) with (8 * u) by (change 8 with (bpow radix2 3); rewrite <- bpow_plus; reflexivity). lra. }
  pose proof (Rmult_le_compat_r (smoothed (cell (absolute d)) y x) _ _ ltac:(lra) G). lra.
Qed.

(** ** Superpixels *)
Lemma family_in y x : (0 <= family y x < 4)%Z.
Proof. unfold family. pose proof (Z.mod_pos_bound y 2 ltac:(lia)). pose proof (Z.mod_pos_bound x 2 ltac:(lia)). lia. Qed.
Lemma corrected_row (C : Z -> Z -> arr b64) (dij data : arr b64) y x :
  corrected (fun k l Y X => cell (C k l) (2 * Y) (2 * X)) dij data y x =
  row_product (matrix_at C y x) (fun l => sample data l (y / 2) (x / 2) -! sample dij l (y / 2) (x / 2)) (family y x).
Proof. reflexivity. Qed.
Lemma c144_calibration (C : Z -> Z -> arr b64) (dij data : arr b64) t K :
  mosaic data -> rows dij = rows data -> cols dij = cols data -> bounded t data -> bounded t dij ->
  entries (fun _ _ v => is_binary64 v /\ finite64 v /\ Rabs (fval v) <= K) C (rows data) (cols data) ->
  0 <= t <= powerRZ 2 900 -> 0 <= K -> K * t <= powerRZ 2 900 ->
  exists r, chen_calibration C dij data = Ok r /\ rows r = rows data /\ cols r = cols data /\
    forall y x, (0 <= y < rows data)%Z -> (0 <= x < cols data)%Z ->
      off_by (powerRZ 2 (-48) * smoothed (size_corrected C dij data) y x + powerRZ 2 (-1065)) (cell r y x) (smoothed (exact_corrected C dij data) y x).
Proof.
  intros Hm Er Ec Hd Ho HC Ht HK HKt. rewrite power2' in Ht, HKt. destruct (chen_spec C dij data Hm Er Ec) as (r & E & R & Cc & V). cbv zeta in V.
  exists r. split; [exact E|]. split; [exact R|]. split; [exact Cc|].
  intros y x Hy Hx. rewrite V by assumption. clear V E R Cc r.
  assert (Mv : mosaic (values data)) by exact Hm.
  assert (Mo : mosaic (values dij)) by (unfold mosaic in *; change (rows (values dij)) with (rows dij); change (cols (values dij)) with (cols dij); rewrite Er, Ec; exact Hm).
  pose proof (bpow_gt_0 radix2 (-1075)) as Eta0.
  assert (H900 : 100 * bpow radix2 900 <= huge).
  { pose proof (bpow_gt_0 radix2 900). apply Rle_trans with (128 * bpow radix2 900); [lra|]. change 128 with (bpow radix2 7). rewrite <- bpow_plus. apply bpow_le. lia. }
  assert (H900' : 2 * bpow radix2 900 <= bpow radix2 1000) by (change 2 with (bpow radix2 1); rewrite <- bpow_plus; apply bpow_le; lia).
  assert (Eta : eta <= 1) by (apply (bpow_le radix2 (-1075) 0); lia).
  assert (H1 : 1 <= bpow radix2 900) by (apply (bpow_le radix2 0); lia).
  assert (P : forall y x, (0 <= y < rows data)%Z -> (0 <= x < cols data)%Z ->
    near 5 (22 * eta) (corrected (fun k l Y X => cell (C k l) (2 * Y) (2 * X)) dij data y x) (exact_corrected C dij data y x) (size_corrected C dij data y x) /\
    size_corrected C dij data y x <= 8 * (K * t)).
  { clear y x Hy Hx. intros y x Hy Hx. rewrite corrected_row. pose proof Hm as (_ & _ & M1 & M2).
    pose proof (half_in _ _ M1 Hy) as HY. pose proof (half_in _ _ M2 Hx) as HX.
    assert (D : forall l, (0 <= l < 4)%Z ->
      near 1 0 (sample data l (y / 2) (x / 2) -! sample dij l (y / 2) (x / 2)) (sample (values data) l (y / 2) (x / 2) - sample (values dij) l (y / 2) (x / 2))
        (sample (absolute data) l (y / 2) (x / 2) + sample (absolute dij) l (y / 2) (x / 2)) /\
      sample (absolute data) l (y / 2) (x / 2) + sample (absolute dij) l (y / 2) (x / 2) <= 2 * t).
    { intros l Hl.
      destruct (sample_near 0 0 t data (values data) (absolute data) l (y / 2) (x / 2) (bounded_nimg t data Hd) Mv Hl HY HX) as (S1 & S2).
      assert (HY' : (0 <= y / 2 < rows (values dij) / 2)%Z) by (change (rows (values dij)) with (rows dij); rewrite Er; exact HY).
      assert (HX' : (0 <= x / 2 < cols (values dij) / 2)%Z) by (change (cols (values dij)) with (cols dij); rewrite Ec; exact HX).
      destruct (sample_near 0 0 t dij (values dij) (absolute dij) l (y / 2) (x / 2) (bounded_nimg t dij Ho) Mo Hl HY' HX') as (S3 & S4).
      split; [|lra]. eapply near_weaken; [exact (near_sub 0 0 0 _ _ _ _ _ _ S1 S3 ltac:(cbn [pow]; lra))|lia|lra|lra]. }
    assert (HM : forall l, (0 <= l < 4)%Z -> is_value (matrix_at C y x (family y x) l) (fval (matrix_at C y x (family y x) l)) /\ Rabs (fval (matrix_at C y x (family y x) l)) <= K).
    { intros l Hl. destruct (HC (family y x) l y x (family_in y x) Hl Hy Hx) as (A1 & A2 & A3). split; [split; [exact A1|split; [exact A2|reflexivity]]|exact A3]. }
    split.
    - eapply near_weaken; [apply (row_near 1 0 (2 * t) K); [exact HK|lra|exact HM|exact D|lra|lra|lra|apply (few 6); lia]|lia|lra|apply Rle_refl].
    - unfold size_corrected, abs_row, row_product. cbn [nadd nmul Num_R].
      assert (Q : forall l, (0 <= l < 4)%Z -> Rabs (fval (matrix_at C y x (family y x) l)) * (sample (absolute data) l (y / 2) (x / 2) + sample (absolute dij) l (y / 2) (x / 2)) <= K * (2 * t)).
      { intros l Hl. destruct (D l Hl) as ((_ & B & _) & A). destruct (HM l Hl) as (_ & A'). apply Rmult_le_compat; [apply Rabs_pos| |exact A'|exact A].
        apply Rle_trans with (2 := B). apply Rabs_pos. }
      pose proof (Q 0%Z ltac:(lia)). pose proof (Q 1%Z ltac:(lia)). pose proof (Q 2%Z ltac:(lia)). pose proof (Q 3%Z ltac:(lia)). lra. }
  assert (T : 8 * (8 * (K * t)) + 100 * (22 * eta) <= huge).
  { assert (T' : 10000 * bpow radix2 900 <= huge); [|lra].
    apply Rle_trans with (16384 * bpow radix2 900); [lra|]. change 16384 with (bpow radix2 14). rewrite <- bpow_plus. apply bpow_le. lia. }
  pose proof (near_smoothed 5 (22 * eta) (8 * (K * t)) _ _ _ (rows data) (cols data) y x ltac:(lra) P ltac:(lia) T Hy Hx) as N.
  pose proof N as (_ & B & _). pose proof (Rabs_pos (smoothed (exact_corrected C dij data) y x)) as B0.
  destruct (near_off _ _ _ _ _ N) as (O1 & O2 & O3). split; [exact O1|]. split; [exact O2|]. apply Rle_trans with (1 := O3). rewrite !power2'.
  assert (G : (1 + u) ^ (5 + 4) - 1 <= bpow radix2 (-48)).
  { apply Rle_trans with (1 := growth_bound 9 (few 9 ltac:(lia))). replace (INR 9) with 9 by (cbn; lra).
    replace (bpow radix2 (-48)) with (32 * u) by (change 32 with (bpow radix2 5); rewrite <- bpow_plus; reflexivity). pose proof u_half. lra. }
  pose proof (Rmult_le_compat_r (smoothed (size_corrected C dij data) y x) _ _ ltac:(lra) G).
  replace (bpow radix2 (-1065)) with (1024 * eta) by (change 1024 with (bpow radix2 10); rewrite <- bpow_plus; reflexivity). lra.
Qed.

(** Matrices of few digits *)
Lemma c144_exact_calibration (C : Z -> Z -> arr b64) (dij data : arr b64) n p big :
  mosaic data -> rows dij = rows data -> cols dij = cols data -> counts n data -> counts n dij ->
  entries (fun _ _ v => fixed_point p big v) C (rows data) (cols data) ->
  (0 <= n)%Z -> (0 <= big)%Z -> (32 * big * n < 2 ^ 53)%Z -> (0 <= p <= 900)%Z -> (big < 2 ^ 53)%Z -> (2 * n < 2 ^ 53)%Z ->
  exists r, chen_calibration C dij data = Ok r /\ rows r = rows data /\ cols r = cols data /\
    forall y x, (0 <= y < rows data)%Z -> (0 <= x < cols data)%Z -> is_value (cell r y x) (smoothed (exact_corrected C dij data) y x).
Proof.
  intros Hm Er Ec Hd Ho HC Hn Hb Hs Hp Hb' Hn'. destruct (chen_spec C dij data Hm Er Ec) as (r & E & R & Cc & V). cbv zeta in V.
  exists r. split; [exact E|]. split; [exact R|]. split; [exact Cc|].
  intros y x Hy Hx. rewrite V by assumption. clear V E R Cc r.
  assert (Mo : mosaic (values dij)) by (unfold mosaic in *; change (rows (values dij)) with (rows dij); change (cols (values dij)) with (cols dij); rewrite Er, Ec; exact Hm).
  pose proof (counts_fimg n data ltac:(lia) Hd) as Fd. pose proof (counts_fimg n dij ltac:(lia) Ho) as Fo.
  assert (Bn : (0 <= big * n)%Z) by (apply Z.mul_nonneg_nonneg; assumption).
  apply (fx_smoothed (4 * (big * (n + n))) (p + 0) _ _ (rows data) (cols data)); [|lia|lia|lia|lia|exact Hy|exact Hx].
  clear y x Hy Hx. intros y x Hy Hx. rewrite corrected_row. pose proof Hm as (_ & _ & M1 & M2).
  pose proof (half_in _ _ M1 Hy) as HY. pose proof (half_in _ _ M2 Hx) as HX.
  assert (HY' : (0 <= y / 2 < rows (values dij) / 2)%Z) by (change (rows (values dij)) with (rows dij); rewrite Er; exact HY).
  assert (HX' : (0 <= x / 2 < cols (values dij) / 2)%Z) by (change (cols (values dij)) with (cols dij); rewrite Ec; exact HX).
  assert (Q : forall l, (0 <= l < 4)%Z -> fx (big * (n + n)) (p + 0) (matrix_at C y x (family y x) l *! (sample data l (y / 2) (x / 2) -! sample dij l (y / 2) (x / 2)))
    (fval (matrix_at C y x (family y x) l) * (sample (values data) l (y / 2) (x / 2) - sample (values dij) l (y / 2) (x / 2)))).
  { intros l Hl. apply fx_mul; [|apply fx_sub; [apply sample_fx; assumption|apply sample_fx; assumption|lia]|lia|lia].
    destruct (HC (family y x) l y x (family_in y x) Hl Hy Hx) as (m & B & Vm). exists m. rewrite (value_val _ _ Vm). split; [exact Vm|]. split; [unfold fixed; rewrite power2'; reflexivity|]. lia. }
  exact (fx_sum4 _ _ _ _ _ _ _ _ _ _ (Q 0%Z ltac:(lia)) (Q 1%Z ltac:(lia)) (Q 2%Z ltac:(lia)) (Q 3%Z ltac:(lia)) ltac:(lia) ltac:(lia)).
Qed.

(** Identity matrices and no offsets *)
Lemma add_zero x y r s : is_value x r -> is_value y s -> Rabs (r + s) <= huge -> s = 0 \/ r = 0 -> is_value (x +! y) (r + s).
Proof.
  intros Vx Vy Hb Hz. assert (E : rnd (r + s) = r + s).
  { apply round_generic; [typeclasses eauto|]. destruct Hz as [-> | ->]; [rewrite Rplus_0_r; eapply value_fmt; eassumption|rewrite Rplus_0_l; eapply value_fmt; eassumption]. }
  rewrite <- E. apply add_value; [exact Vx|exact Vy|]. apply rnd_huge, Hb.
Qed.
Lemma mul_unit c x k r : is_value c k -> is_value x r -> k = 1 \/ k = 0 -> Rabs r <= huge -> is_value (c *! x) (k * r).
Proof.
  intros Vc Vx Hk Hb. assert (E : rnd (k * r) = k * r).
  { apply round_generic; [typeclasses eauto|]. destruct Hk as [-> | ->]; [rewrite Rmult_1_l; eapply value_fmt; eassumption|rewrite Rmult_0_l; apply generic_format_0]. }
  rewrite <- E. apply mul_value; [exact Vc|exact Vx|]. apply rnd_huge. pose proof (bpow_gt_0 radix2 1023).
  destruct Hk as [-> | ->]; [rewrite Rmult_1_l; exact Hb|rewrite Rmult_0_l, Rabs_R0; lra].
Qed.
Lemma pick_row (m : Z -> b64) (v : Z -> b64) (r : Z -> R) i : (0 <= i < 4)%Z ->
  (forall l, (0 <= l < 4)%Z -> is_value (m l) (if (i =? l)%Z then 1 else 0)) -> (forall l, (0 <= l < 4)%Z -> is_value (v l) (r l) /\ Rabs (r l) <= huge) ->
  is_value (((m 0%Z *! v 0%Z +! m 1%Z *! v 1%Z) +! m 2%Z *! v 2%Z) +! m 3%Z *! v 3%Z) (r i).
Proof.
  intros Hi Hm Hv.
  assert (P : forall l, (0 <= l < 4)%Z -> is_value (m l *! v l) (if (i =? l)%Z then r l else 0)).
  { intros l Hl. destruct (Hv l Hl) as (V & B). pose proof (mul_unit _ _ _ _ (Hm l Hl) V) as Q.
    destruct (i =? l)%Z; [rewrite Rmult_1_l in Q; apply Q; [left; reflexivity|exact B]|rewrite Rmult_0_l in Q; apply Q; [right; reflexivity|exact B]]. }
  destruct (Hv i Hi) as (_ & B). pose proof (bpow_gt_0 radix2 1023) as H0.
  pose proof (P 0%Z ltac:(lia)) as P0. pose proof (P 1%Z ltac:(lia)) as P1. pose proof (P 2%Z ltac:(lia)) as P2. pose proof (P 3%Z ltac:(lia)) as P3.
  assert (I : i = 0%Z \/ i = 1%Z \/ i = 2%Z \/ i = 3%Z) by lia.
  assert (Z0 : Rabs 0 <= huge) by (rewrite Rabs_R0; lra).
  assert (A : forall x y r s, is_value x r -> is_value y s -> (s = 0 /\ Rabs r <= huge) \/ (r = 0 /\ Rabs s <= huge) -> is_value (x +! y) (r + s)).
  { intros x y a b Vx Vy [(-> & Hh)|(-> & Hh)]; (apply add_zero; [exact Vx|exact Vy|rewrite ?Rplus_0_r, ?Rplus_0_l; exact Hh|]); [left; reflexivity|right; reflexivity]. }
  destruct I as [->|[->|[->| ->]]]; cbn [Z.eqb Pos.eqb] in P0, P1, P2, P3.
  - replace (r 0%Z) with (r 0%Z + 0 + 0 + 0) by ring.
    apply A; [apply A; [apply A; [exact P0|exact P1|]|exact P2|]|exact P3|]; left; (split; [reflexivity|rewrite ?Rplus_0_r; exact B]).
  - replace (r 1%Z) with (0 + r 1%Z + 0 + 0) by ring.
    apply A; [apply A; [apply A; [exact P0|exact P1|]|exact P2|]|exact P3|]; [right|left|left]; (split; [reflexivity|rewrite ?Rplus_0_r, ?Rplus_0_l; exact B]).
  - replace (r 2%Z) with (0 + 0 + r 2%Z + 0) by ring.
    apply A; [apply A; [apply A; [exact P0|exact P1|]|exact P2|]|exact P3|]; [left; split; [reflexivity|exact Z0]|right|left]; (split; [ring|rewrite ?Rplus_0_r, ?Rplus_0_l; exact B]).
  - replace (r 3%Z) with (0 + 0 + 0 + r 3%Z) by ring.
    apply A; [apply A; [apply A; [exact P0|exact P1|]|exact P2|]|exact P3|]; [left; split; [reflexivity|exact Z0]|left; split; [reflexivity|rewrite Rplus_0_r; exact Z0]|right]; (split; [ring|rewrite ?Rplus_0_r, ?Rplus_0_l; exact B]).
Qed.

Lemma mean_depends x y z w x' y' z' w' a b c e : is_value x a -> is_value y b -> is_value z c -> is_value w e ->
  is_value x' a -> is_value y' b -> is_value z' c -> is_value w' e -> Rabs a <= bpow radix2 1000 -> Rabs b <= bpow radix2 1000 -> Rabs c <= bpow radix2 1000 -> Rabs e <= bpow radix2 1000 ->
  is_value (nquart *! (((x +! y) +! z) +! w)) (fval (nquart *! (((x' +! y') +! z') +! w'))).
Proof.
  intros Vx Vy Vz Vw Vx' Vy' Vz' Vw' Ha Hb Hc He.
  assert (K : forall v, Rabs v <= 100 * bpow radix2 1000 -> Rabs v <= huge).
  { intros v Hv. apply Rle_trans with (1 := Hv). pose proof (bpow_gt_0 radix2 1000). apply Rle_trans with (128 * bpow radix2 1000); [lra|]. change 128 with (bpow radix2 7). rewrite <- bpow_plus. apply bpow_le. lia. }
  assert (D : forall v, generic_format radix2 fexp64 (rnd v)) by (intros v; apply generic_format_round; typeclasses eauto).
  assert (S : forall v k, Rabs v <= bpow radix2 k -> (0 <= k <= 1010)%Z -> Rabs (rnd v) <= bpow radix2 k).
  { intros v k Hv Hk. apply abs_round_le_generic; [typeclasses eauto|typeclasses eauto| |exact Hv]. apply generic_format_bpow. rewrite fexp_max. lia. }
  assert (T : forall v w k, Rabs v <= bpow radix2 k -> Rabs w <= bpow radix2 k -> Rabs (v + w) <= bpow radix2 (k + 1)).
  { intros v v' k H1 H2. apply Rle_trans with (1 := Rabs_triang v v'). rewrite bpow_plus. change (bpow radix2 1) with 2. lra. }
  assert (U : forall k l, (k <= l)%Z -> bpow radix2 k <= bpow radix2 l) by (intros; apply bpow_le; assumption).
  assert (A1 : Rabs (a + b) <= bpow radix2 1001) by (apply (T a b 1000%Z); assumption).
  pose proof (S _ 1001%Z A1 ltac:(lia)) as B1.
  assert (A2 : Rabs (rnd (a + b) + c) <= bpow radix2 1002) by (apply (T _ c 1001%Z); [exact B1|apply Rle_trans with (1 := Hc), U; lia]).
  pose proof (S _ 1002%Z A2 ltac:(lia)) as B2.
  assert (A3 : Rabs (rnd (rnd (a + b) + c) + e) <= bpow radix2 1003) by (apply (T _ e 1002%Z); [exact B2|apply Rle_trans with (1 := He), U; lia]).
  pose proof (S _ 1003%Z A3 ltac:(lia)) as B3.
  assert (A4 : Rabs (1 / 4 * rnd (rnd (rnd (a + b) + c) + e)) <= bpow radix2 1003).
  { rewrite Rabs_mult, abs_quart. pose proof (Rabs_pos (rnd (rnd (rnd (a + b) + c) + e))). lra. }
  assert (H : forall v k, Rabs v <= bpow radix2 k -> (k <= 1010)%Z -> Rabs v <= huge) by (intros v k H1 H2; apply Rle_trans with (1 := H1), U; lia).
  assert (G : forall x y z w, is_value x a -> is_value y b -> is_value z c -> is_value w e ->
    is_value (nquart *! (((x +! y) +! z) +! w)) (rnd (1 / 4 * rnd (rnd (rnd (a + b) + c) + e)))).
  { intros p q s o V1 V2 V3 V4. apply mul_value; [exact quart_value|apply add_value; [apply add_value; [apply add_value; [exact V1|exact V2|]|exact V3|]|exact V4|]|]; apply rnd_huge;
      (eapply H; [eassumption|lia]). }
  pose proof (G _ _ _ _ Vx' Vy' Vz' Vw') as G2. rewrite (value_val _ _ G2). apply G; assumption.
Qed.
Lemma c144_identity (C : Z -> Z -> arr b64) (dij data : arr b64) t :
  mosaic data -> rows dij = rows data -> cols dij = cols data -> bounded t data -> 0 <= t <= powerRZ 2 1000 ->
  entries (fun k l v => is_value v (if (k =? l)%Z then 1 else 0)) C (rows data) (cols data) ->
  (forall y x, (0 <= y < rows data)%Z -> (0 <= x < cols data)%Z -> is_value (cell dij y x) 0) ->
  exists r i, chen_calibration C dij data = Ok r /\ ifov_jitcorrect data (rows data) (cols data) = Ok i /\
    forall y x, (0 <= y < rows data)%Z -> (0 <= x < cols data)%Z -> is_value (cell r y x) (fval (cell i y x)).
Proof.
  intros Hm Er Ec Hd Ht HC Ho. rewrite power2' in Ht. destruct (chen_spec C dij data Hm Er Ec) as (r & E & R & Cc & V). cbv zeta in V.
  destruct (ifov_spec data Hm) as (i & E' & R' & Cc' & V'). exists r, i. split; [exact E|]. split; [exact E'|].
  assert (H1000 : bpow radix2 1000 <= huge) by (apply bpow_le; lia).
  assert (P : forall y x, (0 <= y < rows data)%Z -> (0 <= x < cols data)%Z ->
    is_value (corrected (fun k l Y X => cell (C k l) (2 * Y) (2 * X)) dij data y x) (fval (cell data y x))).
  { intros y x Hy Hx. pose proof Hm as (_ & _ & M1 & M2). pose proof (Z.div_mod (rows data) 2 ltac:(lia)). pose proof (Z.div_mod (cols data) 2 ltac:(lia)).
    pose proof (half_in _ _ M1 Hy) as HY. pose proof (half_in _ _ M2 Hx) as HX. unfold corrected. cbv zeta.
    assert (Es : cell data y x = sample data (family y x) (y / 2) (x / 2)).
    { unfold sample, family. pose proof (Z.mod_pos_bound y 2 ltac:(lia)). pose proof (Z.mod_pos_bound x 2 ltac:(lia)).
      assert (Q1 : ((2 * (y mod 2) + x mod 2) / 2 = y mod 2)%Z) by (Z.to_euclidean_division_equations; lia).
      assert (Q2 : ((2 * (y mod 2) + x mod 2) mod 2 = x mod 2)%Z) by (Z.to_euclidean_division_equations; lia).
      rewrite Q1, Q2, <- !Z.div_mod by lia. reflexivity. }
    rewrite Es. apply (pick_row (fun l => cell (C (family y x) l) (2 * (y / 2)) (2 * (x / 2))) (fun l => sample data l (y / 2) (x / 2) -! sample dij l (y / 2) (x / 2)) (fun l => fval (sample data l (y / 2) (x / 2))) (family y x) (family_in y x)).
    - intros l Hl. exact (HC (family y x) l y x (family_in y x) Hl Hy Hx).
    - intros l Hl. assert (I1 : (0 <= 2 * (y / 2) + l / 2 < rows data)%Z) by (assert (0 <= l / 2 < 2)%Z by (split; [apply Z.div_pos; lia|apply Z.div_lt_upper_bound; lia]); lia).
      assert (I2 : (0 <= 2 * (x / 2) + l mod 2 < cols data)%Z) by (pose proof (Z.mod_pos_bound l 2 ltac:(lia)); lia).
      destruct (Hd _ _ I1 I2) as (D1 & D2 & D3). pose proof (Ho _ _ I1 I2) as O1. split; [|unfold sample; lra].
      assert (Vd : is_value (sample data l (y / 2) (x / 2)) (fval (sample data l (y / 2) (x / 2)))) by (split; [exact D1|split; [exact D2|reflexivity]]).
      assert (Er0 : rnd (fval (sample data l (y / 2) (x / 2)) - 0) = fval (sample data l (y / 2) (x / 2))) by (rewrite Rminus_0_r; apply round_generic; [typeclasses eauto|exact (value_fmt _ _ Vd)]).
      rewrite <- Er0. apply sub_value; [exact Vd|exact O1|]. apply rnd_huge. rewrite Rminus_0_r. unfold sample. lra. }
  intros y x Hy Hx. rewrite V, V' by assumption. destruct ((y <? 2) || (x <? 2))%bool%Z eqn:B; [exact (fx_value _ _ _ _ (zero_fx 0 ltac:(lia)))|].
  apply inner in B as (By & Bx).
  assert (Vv : forall y x, (0 <= y < rows data)%Z -> (0 <= x < cols data)%Z -> is_value (cell data y x) (fval (cell data y x)) /\ Rabs (fval (cell data y x)) <= bpow radix2 1000).
  { intros a b Ha Hb. destruct (Hd a b Ha Hb) as (D1 & D2 & D3). split; [split; [exact D1|split; [exact D2|reflexivity]]|lra]. }
  eapply mean_depends; first [apply P; lia|apply Vv; lia].
Qed.
