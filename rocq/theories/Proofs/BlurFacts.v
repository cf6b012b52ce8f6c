(** Stokes parameters of demosaiced images interpolate those of the raw image; averaging and
    binning do not raise the degree of linear polarization. *)
From Coq Require Import Reals Lra Lia.
From Verif Require Import Base.Base Base.Num Model.Demosaic Model.Rebin Model.Stokes Model.Pol Model.FileInit
  Spec.SumSpec Spec.MosaicSpec Spec.StokesSpec Spec.Terminates Spec.CleanSpec Spec.FilesSpec Spec.BlurSpec
  Proofs.SumFacts Proofs.MosaicFacts Proofs.DemosaicFacts Proofs.MosaicProps Proofs.StokesFacts Proofs.StokesProps
  Proofs.PolFacts Proofs.FilesFacts.
Local Open Scope R_scope.

(** ** Vectors *)
Definition norm (q u : R) : R := sqrt (q * q + u * u).

Lemma norm_add a b c d : norm (a + c) (b + d) <= norm a b + norm c d.
Proof.
  unfold norm. pose proof (sqrt_pos (a * a + b * b)) as A0. pose proof (sqrt_pos (c * c + d * d)) as C0.
  rewrite <- (sqrt_square (sqrt (a * a + b * b) + sqrt (c * c + d * d))) by lra.
  apply sqrt_le_1_alt. pose proof (sqrt_cauchy a b c d) as S. unfold Rsqr in S.
  assert (Ha : sqrt (a * a + b * b) * sqrt (a * a + b * b) = a * a + b * b)
    by (apply sqrt_def; pose proof (Rle_0_sqr a); pose proof (Rle_0_sqr b); unfold Rsqr in *; lra).
  assert (Hc : sqrt (c * c + d * d) * sqrt (c * c + d * d) = c * c + d * d)
    by (apply sqrt_def; pose proof (Rle_0_sqr c); pose proof (Rle_0_sqr d); unfold Rsqr in *; lra).
  lra.
Qed.

Lemma norm_scale c q u : 0 <= c -> norm (c * q) (c * u) = c * norm q u.
Proof.
  intros Hc. unfold norm. replace (c * q * (c * q) + c * u * (c * u)) with ((c * c) * (q * q + u * u)) by ring.
  rewrite sqrt_mult_alt by (pose proof (Rle_0_sqr c); unfold Rsqr in *; lra). rewrite sqrt_square by exact Hc. reflexivity.
Qed.

Lemma norm_0 : norm 0 0 = 0.
Proof. unfold norm. replace (0 * 0 + 0 * 0) with 0 by ring. apply sqrt_0. Qed.

Lemma norm_total {A} (l : list A) fq fu :
  norm (total (map fq l)) (total (map fu l)) <= total (map (fun a => norm (fq a) (fu a)) l).
Proof.
  unfold total. induction l as [|a l IH]; cbn [map fold_right]; [rewrite norm_0; lra|].
  eapply Rle_trans; [apply norm_add|]. lra.
Qed.

Lemma total_le {A} (l : list A) f g : (forall a, In a l -> f a <= g a) -> total (map f l) <= total (map g l).
Proof.
  unfold total. induction l as [|a l IH]; cbn [map fold_right]; intros H; [lra|].
  pose proof (H a (or_introl eq_refl)). pose proof (IH (fun b Hb => H b (or_intror Hb))). lra.
Qed.
Lemma total_scale {A} (l : list A) c f : total (map (fun a => c * f a) l) = c * total (map f l).
Proof. unfold total. induction l as [|a l IH]; cbn [map fold_right]; [lra|rewrite IH; lra]. Qed.
Lemma total_plus {A} (l : list A) f g : total (map (fun a => f a + g a) l) = total (map f l) + total (map g l).
Proof. unfold total. induction l as [|a l IH]; cbn [map fold_right]; [lra|rewrite IH; lra]. Qed.
Lemma total_minus {A} (l : list A) f g : total (map (fun a => f a - g a) l) = total (map f l) - total (map g l).
Proof. unfold total. induction l as [|a l IH]; cbn [map fold_right]; [lra|rewrite IH; lra]. Qed.
Lemma total_nonneg {A} (l : list A) f : (forall a, In a l -> 0 <= f a) -> 0 <= total (map f l).
Proof.
  intros H. replace 0 with (total (map (fun _ : A => 0) l)) by (unfold total; induction l; cbn; [|rewrite IHl by (intros; apply H; right; assumption)]; lra).
  apply total_le, H.
Qed.

Lemma rsum_total n f : rsum n f = total (map f (zrange n)).
Proof. reflexivity. Qed.

Lemma norm_rsum2 h w fq fu : norm (rsum2 h w fq) (rsum2 h w fu) <= rsum2 h w (fun y x => norm (fq y x) (fu y x)).
Proof.
  unfold rsum2. rewrite !rsum_total. eapply Rle_trans; [apply norm_total|]. apply total_le. intros y _.
  rewrite !rsum_total. apply norm_total.
Qed.
Lemma rsum2_le h w f g : (forall y x, (0 <= y < h)%Z -> (0 <= x < w)%Z -> f y x <= g y x) -> rsum2 h w f <= rsum2 h w g.
Proof. intros H. apply rsum_le. intros y Hy. apply rsum_le. intros x Hx. auto. Qed.
Lemma rsum2_minus h w f g : rsum2 h w (fun y x => f y x - g y x) = rsum2 h w f - rsum2 h w g.
Proof.
  transitivity (rsum2 h w (fun y x => f y x + (-1) * g y x)); [apply rsum2_ext; intros; lra|].
  rewrite rsum2_plus, rsum2_scal. lra.
Qed.

Lemma rsum_nonneg2 h w f : (forall y x, (0 <= y < h)%Z -> (0 <= x < w)%Z -> 0 <= f y x) -> 0 <= rsum2 h w f.
Proof.
  intros H. replace 0 with (rsum2 h w (fun _ _ => 0)) by (unfold rsum2; rewrite (rsum_ext h _ (fun _ => 0)) by (intros; apply rsum_zero); apply rsum_zero).
  apply rsum2_le, H.
Qed.

(** ** The degree of polarization *)
Definition degree (i p : R) : R := if negb (Reqb i 0) then p / i else 0.
Lemma degree_le i p M : 0 <= i -> 0 <= M -> p <= M * i -> degree i p <= M.
Proof.
  intros Hi HM H. unfold degree. destruct (Reqb i 0) eqn:E; cbn [negb]; [exact HM|].
  assert (i <> 0) by (intros C; rewrite C in E; apply Bool.not_true_iff_false in E; apply E; apply Reqb_true; reflexivity).
  apply (Rmult_le_reg_r i); [lra|]. unfold Rdiv. rewrite Rmult_assoc, Rinv_l, Rmult_1_r by assumption. exact H.
Qed.
Lemma degree_bound i p M : 0 <= i -> (i = 0 -> p = 0) -> degree i p <= M -> p <= M * i.
Proof.
  intros Hi Hz H. unfold degree in H. destruct (Reqb i 0) eqn:E; cbn [negb] in H.
  - apply Reqb_true in E. rewrite (Hz E), E. lra.
  - assert (N : i <> 0) by (intros C; rewrite C in E; apply Bool.not_true_iff_false in E; apply E; apply Reqb_true; reflexivity).
    apply (Rmult_le_compat_r i) in H; [|exact Hi]. unfold Rdiv in H. rewrite Rmult_assoc, Rinv_l, Rmult_1_r in H by exact N. exact H.
Qed.

Lemma pB_at (s : stokes R) y x : cell (pB s) y x = norm (cell (sQ s) y x) (cell (sU s) y x).
Proof. reflexivity. Qed.
Lemma DoLP_at (s : stokes R) y x : cell (DoLP s) y x = degree (cell (sI s) y x) (cell (pB s) y x).
Proof. reflexivity. Qed.

(** ** Stokes parameters of a superpixel *)
Definition four (f : Z -> R) : R := 1 / 2 * (f 0%Z + f 1%Z + f 2%Z + f 3%Z).

Lemma raw_stokes dic a (d : arr R) :
  describes dic a -> mosaic d ->
  exists s, data_stokes dic d = Ok s /\
    stokes_is s (rows d / 2) (cols d / 2) (fun y x => four (fun k => sample d k y x))
      (fun y x => sample d (p0 a) y x - sample d (p90 a) y x)
      (fun y x => sample d (p45 a) y x - sample d (pm45 a) y x).
Proof. intros Hd Hm. exact (data_stokes_spec dic a d Hd Hm). Qed.

Lemma arrangement_range dic a : describes dic a ->
  (0 <= p0 a < 4)%Z /\ (0 <= p45 a < 4)%Z /\ (0 <= pm45 a < 4)%Z /\ (0 <= p90 a < 4)%Z.
Proof. intros ((R0 & R45 & Rm45 & R90 & _) & _). auto. Qed.

Lemma sample_inside (d : arr R) k Y X : mosaic d -> (0 <= k < 4)%Z -> (0 <= Y < rows d / 2)%Z -> (0 <= X < cols d / 2)%Z ->
  (0 <= 2 * Y + k / 2 < rows d)%Z /\ (0 <= 2 * X + k mod 2 < cols d)%Z.
Proof.
  intros (Hr & Hc & Er & Ec) Hk HY HX.
  pose proof (Z.div_mod (rows d) 2 ltac:(lia)). pose proof (Z.div_mod (cols d) 2 ltac:(lia)).
  pose proof (Z.div_mod k 2 ltac:(lia)). pose proof (Z.mod_pos_bound k 2 ltac:(lia)). lia.
Qed.

Lemma samples_nonneg (d : arr R) k Y X : mosaic d -> nonnegative d -> (0 <= k < 4)%Z ->
  (0 <= Y < rows d / 2)%Z -> (0 <= X < cols d / 2)%Z -> 0 <= sample d k Y X.
Proof. intros Hm Hn Hk HY HX. destruct (sample_inside d k Y X Hm Hk HY HX). apply Hn; assumption. Qed.

Lemma four_zero f k : (forall j, (0 <= j < 4)%Z -> 0 <= f j) -> four f = 0 -> (0 <= k < 4)%Z -> f k = 0.
Proof.
  intros Hf E Hk. unfold four in E.
  pose proof (Hf 0%Z ltac:(lia)). pose proof (Hf 1%Z ltac:(lia)). pose proof (Hf 2%Z ltac:(lia)). pose proof (Hf 3%Z ltac:(lia)).
  assert (C : (k = 0 \/ k = 1 \/ k = 2 \/ k = 3)%Z) by lia. destruct C as [ -> |[ -> |[ -> | -> ]]]; lra.
Qed.

(** Of an image of counts: intensity not negative, and no polarized light without light. *)
Lemma raw_bounds dic a (d : arr R) s Y X M :
  describes dic a -> mosaic d -> nonnegative d -> data_stokes dic d = Ok s ->
  (0 <= Y < rows d / 2)%Z -> (0 <= X < cols d / 2)%Z ->
  cell (DoLP s) Y X <= M -> 0 <= cell (sI s) Y X /\ cell (pB s) Y X <= M * cell (sI s) Y X.
Proof.
  intros Hd Hm Hn Es HY HX HD. destruct (raw_stokes dic a d Hd Hm) as (s' & Es' & _ & _ & _ & Hc).
  rewrite Es in Es'. injection Es' as <-. destruct (Hc Y X HY HX) as (EI & EQ & EU).
  assert (N : forall k, (0 <= k < 4)%Z -> 0 <= sample d k Y X) by (intros k Hk; apply samples_nonneg; assumption).
  assert (I0 : 0 <= cell (sI s) Y X).
  { rewrite EI. unfold four. pose proof (N 0%Z ltac:(lia)). pose proof (N 1%Z ltac:(lia)). pose proof (N 2%Z ltac:(lia)).
    pose proof (N 3%Z ltac:(lia)). lra. }
  split; [exact I0|]. apply degree_bound; [exact I0| |exact HD].
  intros Z. rewrite EI in Z. destruct (arrangement_range dic a Hd) as (R0 & R45 & Rm & R90).
  rewrite pB_at, EQ, EU, !(four_zero _ _ N Z) by assumption.
  rewrite Rminus_0_r. apply norm_0.
Qed.

(** ** Demosaicing *)
Lemma interpolated_stretched (d : arr R) k y x :
  interpolated d k y x = stretched (rows d / 2) (cols d / 2) (sample d k) y x.
Proof.
  unfold interpolated, stretched. cbn [nadd nmul nhalf nquart Num_R].
  destruct (y mod 2 =? 0)%Z, (x mod 2 =? 0)%Z; lra.
Qed.

Lemma stretched_ext h w f g y x :
  (0 <= y < 2 * h)%Z -> (0 <= x < 2 * w)%Z ->
  (forall Y X, (0 <= Y < h)%Z -> (0 <= X < w)%Z -> f Y X = g Y X) -> stretched h w f y x = stretched h w g y x.
Proof.
  intros Hy Hx H. unfold stretched, next.
  pose proof (Z.div_mod y 2 ltac:(lia)). pose proof (Z.mod_pos_bound y 2 ltac:(lia)).
  pose proof (Z.div_mod x 2 ltac:(lia)). pose proof (Z.mod_pos_bound x 2 ltac:(lia)).
  destruct (y mod 2 =? 0)%Z, (x mod 2 =? 0)%Z; rewrite !H by lia; reflexivity.
Qed.

(** The corners used at a pixel. *)
Lemma stretched_corners h w y x :
  (0 <= y < 2 * h)%Z -> (0 <= x < 2 * w)%Z ->
  exists Y Y' X X', ((0 <= Y < h)%Z /\ (0 <= Y' < h)%Z /\ (0 <= X < w)%Z /\ (0 <= X' < w)%Z) /\
    forall f, stretched h w f y x = (f Y X + f Y' X + f Y X' + f Y' X') / 4.
Proof.
  intros Hy Hx. unfold stretched, next.
  pose proof (Z.div_mod y 2 ltac:(lia)). pose proof (Z.mod_pos_bound y 2 ltac:(lia)).
  pose proof (Z.div_mod x 2 ltac:(lia)). pose proof (Z.mod_pos_bound x 2 ltac:(lia)).
  do 4 eexists. split; [|intros f; reflexivity].
  destruct (y mod 2 =? 0)%Z, (x mod 2 =? 0)%Z; lia.
Qed.

Lemma c106_adjacent dic a (d : arr R) :
  describes dic a -> mosaic d ->
  exists s q t, data_stokes dic d = Ok s /\ demosaic d "adjacent" = Ok q /\ theo_stokes dic q = Ok t /\
    stokes_is t (rows d) (cols d) (stretched (rows d / 2) (cols d / 2) (cell (sI s)))
      (stretched (rows d / 2) (cols d / 2) (cell (sQ s))) (stretched (rows d / 2) (cols d / 2) (cell (sU s))).
Proof.
  intros Hd Hm. destruct (raw_stokes dic a d Hd Hm) as (s & Es & _ & _ & _ & Hs).
  destruct (demosaic_adjacent_spec d Hm) as (q & Eq & Hq).
  destruct (theo_stokes_spec dic a q (rows d) (cols d) Hd) as (t & Et & HI & HQ & HU & Ht).
  { intros k Hk. destruct (Hq k Hk) as (R1 & C1 & _). auto. }
  exists s, q, t. repeat (split; [assumption|]). intros y x Hy Hx.
  destruct Hm as (Hr & Hc & Er & Ec).
  assert (Hy2 : (0 <= y < 2 * (rows d / 2))%Z) by (pose proof (Z.div_mod (rows d) 2 ltac:(lia)); lia).
  assert (Hx2 : (0 <= x < 2 * (cols d / 2))%Z) by (pose proof (Z.div_mod (cols d) 2 ltac:(lia)); lia).
  rewrite (stretched_ext _ _ (cell (sI s)) (fun Y X => four (fun k => sample d k Y X)) y x Hy2 Hx2)
    by (intros Y X HY HX; apply (Hs Y X HY HX)).
  rewrite (stretched_ext _ _ (cell (sQ s)) (fun Y X => sample d (p0 a) Y X - sample d (p90 a) Y X) y x Hy2 Hx2)
    by (intros Y X HY HX; apply (Hs Y X HY HX)).
  rewrite (stretched_ext _ _ (cell (sU s)) (fun Y X => sample d (p45 a) Y X - sample d (pm45 a) Y X) y x Hy2 Hx2)
    by (intros Y X HY HX; apply (Hs Y X HY HX)).
  destruct (stretched_corners _ _ y x Hy2 Hx2) as (Y & Y' & X & X' & _ & Hst).
  destruct (Ht y x Hy Hx) as (EI & EQ & EU). destruct (arrangement_range dic a Hd) as (R0 & R45 & Rm & R90).
  assert (E : forall k, (0 <= k < 4)%Z -> cell (qnth q k) y x =
     (sample d k Y X + sample d k Y' X + sample d k Y X' + sample d k Y' X') / 4).
  { intros k Hk. destruct (Hq k Hk) as (_ & _ & Hcell). rewrite (Hcell y x Hy Hx), interpolated_stretched. apply Hst. }
  rewrite EI, EQ, EU, !E by (assumption || lia). rewrite !Hst. unfold four. cbn [nhalf nadd nmul nsub Num_R].
  split; [lra|split; lra].
Qed.

Lemma c106_mean dic a (d : arr R) :
  describes dic a -> mosaic d ->
  exists s q t, data_stokes dic d = Ok s /\ demosaic d "mean" = Ok q /\ theo_stokes dic q = Ok t /\
    stokes_is t (rows d) (cols d) (fun y x => cell (sI s) (y / 2) (x / 2) / 4)
      (fun y x => cell (sQ s) (y / 2) (x / 2) / 4) (fun y x => cell (sU s) (y / 2) (x / 2) / 4) /\
    forall y x, (0 <= y < rows d)%Z -> (0 <= x < cols d)%Z ->
      cell (DoLP t) y x = cell (DoLP s) (y / 2) (x / 2) /\ cell (AoLP t) y x = cell (AoLP s) (y / 2) (x / 2) /\
      cell (pB t) y x = cell (pB s) (y / 2) (x / 2) / 4.
Proof.
  intros Hd Hm. destruct (raw_stokes dic a d Hd Hm) as (s & Es & _ & _ & _ & Hs).
  destruct (demosaic_mean_spec d Hm) as (q & Eq & Hq).
  destruct (theo_stokes_spec dic a q (rows d) (cols d) Hd) as (t & Et & HI & HQ & HU & Ht).
  { intros k Hk. destruct (Hq k Hk) as (R1 & C1 & _). auto. }
  assert (Hcells : forall y x, (0 <= y < rows d)%Z -> (0 <= x < cols d)%Z ->
    cell (sI t) y x = cell (sI s) (y / 2) (x / 2) / 4 /\ cell (sQ t) y x = cell (sQ s) (y / 2) (x / 2) / 4 /\
    cell (sU t) y x = cell (sU s) (y / 2) (x / 2) / 4).
  { intros y x Hy Hx. destruct Hm as (Hr & Hc & Er & Ec).
    assert (HY : (0 <= y / 2 < rows d / 2)%Z)
      by (pose proof (Z.div_mod (rows d) 2 ltac:(lia)); split; [apply Z.div_pos; lia|apply Z.div_lt_upper_bound; lia]).
    assert (HX : (0 <= x / 2 < cols d / 2)%Z)
      by (pose proof (Z.div_mod (cols d) 2 ltac:(lia)); split; [apply Z.div_pos; lia|apply Z.div_lt_upper_bound; lia]).
    destruct (Hs _ _ HY HX) as (FI & FQ & FU). rewrite FI, FQ, FU.
    destruct (Ht y x Hy Hx) as (EI & EQ & EU). destruct (arrangement_range dic a Hd) as (R0 & R45 & Rm & R90).
    assert (E : forall k, (0 <= k < 4)%Z -> cell (qnth q k) y x = sample d k (y / 2) (x / 2) / 4).
    { intros k Hk. destruct (Hq k Hk) as (_ & _ & Hcell). rewrite (Hcell y x Hy Hx). cbn [nquart nmul Num_R]. lra. }
    rewrite EI, EQ, EU, !E by (assumption || lia). unfold four. cbn [nhalf nadd nmul nsub Num_R].
    split; [lra|split; lra]. }
  exists s, q, t. repeat (split; [assumption|]). split; [repeat (split; [assumption|]); exact Hcells|].
  intros y x Hy Hx. destruct (Hcells y x Hy Hx) as (EI & EQ & EU).
  assert (P : cell (pB t) y x = cell (pB s) (y / 2) (x / 2) / 4).
  { rewrite !pB_at, EQ, EU. unfold Rdiv. rewrite !(Rmult_comm _ (/ 4)). apply norm_scale. lra. }
  split; [|split; [|exact P]].
  - rewrite !DoLP_at, P, EI. unfold degree. set (i := cell (sI s) _ _). set (p := cell (pB s) _ _).
    destruct (Req_EM_T i 0) as [E|E].
    + rewrite (proj2 (Reqb_true i 0) E). rewrite (proj2 (Reqb_true (i / 4) 0)) by lra. reflexivity.
    + assert (F : Reqb i 0 = false) by (apply Bool.not_true_iff_false; rewrite Reqb_true; exact E).
      assert (F4 : Reqb (i / 4) 0 = false) by (apply Bool.not_true_iff_false; rewrite Reqb_true; lra).
      rewrite F, F4. cbn [negb]. field. exact E.
  - unfold AoLP. cbn [cell amap2]. rewrite EQ, EU, !Rmult_1_l. f_equal. unfold Rdiv. rewrite !(Rmult_comm _ (/ 4)).
    apply atan2_scale. lra.
Qed.

(** ** No more polarized than the parts *)
Lemma c107_demosaic dic a (d : arr R) s q t M :
  describes dic a -> mosaic d -> nonnegative d -> data_stokes dic d = Ok s ->
  demosaic d "adjacent" = Ok q -> theo_stokes dic q = Ok t -> 0 <= M ->
  (forall Y X, (0 <= Y < rows d / 2)%Z -> (0 <= X < cols d / 2)%Z -> cell (DoLP s) Y X <= M) ->
  forall y x, (0 <= y < rows d)%Z -> (0 <= x < cols d)%Z ->
    cell (pB t) y x <= stretched (rows d / 2) (cols d / 2) (cell (pB s)) y x /\ cell (DoLP t) y x <= M.
Proof.
  intros Hd Hm Hn Es Eq Et HM HD y x Hy Hx.
  destruct (c106_adjacent dic a d Hd Hm) as (s' & q' & t' & Es' & Eq' & Et' & _ & _ & _ & Ht).
  rewrite Es in Es'. injection Es' as <-. rewrite Eq in Eq'. injection Eq' as <-. rewrite Et in Et'. injection Et' as <-.
  destruct Hm as (Hr & Hc & Er & Ec).
  assert (Hy2 : (0 <= y < 2 * (rows d / 2))%Z) by (pose proof (Z.div_mod (rows d) 2 ltac:(lia)); lia).
  assert (Hx2 : (0 <= x < 2 * (cols d / 2))%Z) by (pose proof (Z.div_mod (cols d) 2 ltac:(lia)); lia).
  destruct (Ht y x Hy Hx) as (EI & EQ & EU).
  destruct (stretched_corners _ _ y x Hy2 Hx2) as (Y & Y' & X & X' & (HY & HY' & HX & HX') & Hst).
  rewrite Hst in EI, EQ, EU |- *.
  assert (P : cell (pB t) y x <= (cell (pB s) Y X + cell (pB s) Y' X + cell (pB s) Y X' + cell (pB s) Y' X') / 4).
  { rewrite !pB_at, EQ, EU. unfold Rdiv. rewrite !(Rmult_comm _ (/ 4)). rewrite norm_scale by lra.
    apply Rmult_le_compat_l; [lra|]. eapply Rle_trans; [apply norm_add|]. apply Rplus_le_compat_r.
    eapply Rle_trans; [apply norm_add|]. apply Rplus_le_compat_r. apply norm_add. }
  split; [exact P|]. rewrite DoLP_at.
  assert (B : forall Y X, (0 <= Y < rows d / 2)%Z -> (0 <= X < cols d / 2)%Z ->
    0 <= cell (sI s) Y X /\ cell (pB s) Y X <= M * cell (sI s) Y X).
  { intros y' x' Hy' Hx'. apply (raw_bounds dic a d s y' x' M); auto. split; auto. }
  pose proof (B Y X HY HX). pose proof (B Y' X HY' HX). pose proof (B Y X' HY HX'). pose proof (B Y' X' HY' HX').
  apply degree_le; rewrite ?EI; lra.
Qed.

Lemma c107_rebin dic a (d : arr R) b M :
  describes dic a -> mosaic d -> nonnegative d -> (1 <= b)%Z ->
  exists s r t, data_stokes dic d = Ok s /\ evaluates (fun fuel => micropolarray_rebin fuel d b) r /\ data_stokes dic r = Ok t /\
    forall Y X, (0 <= Y < rows r / 2)%Z -> (0 <= X < cols r / 2)%Z ->
      cell (pB t) Y X <= rsum2 b b (fun y x => cell (pB s) (b * Y + y) (b * X + x)) /\
      (0 <= M -> (forall y x, (0 <= y < b)%Z -> (0 <= x < b)%Z -> cell (DoLP s) (b * Y + y) (b * X + x) <= M) ->
       cell (DoLP t) Y X <= M).
Proof.
  intros Hd Hm Hn Hb. destruct (raw_stokes dic a d Hd Hm) as (s & Es & _ & _ & _ & Hs).
  destruct (returns_evaluates _ _ (c04_rebin d b Hm Hb)) as (r & Ev & _).
  destruct (evaluates_at _ _ (Z.to_nat (Z.max (rows d) (cols d))) Ev) as (fuel & Hf & E).
  destruct (mosaic_rebin d r b fuel Hm Hb Hf E) as (Hmr & Rr & Cr & Hsam).
  destruct (raw_stokes dic a r Hd Hmr) as (t & Et & _ & _ & _ & Ht).
  exists s, r, t. repeat (split; [assumption|]). intros Y X HY HX.
  assert (In : forall y x, (0 <= y < b)%Z -> (0 <= x < b)%Z ->
    (0 <= b * Y + y < rows d / 2)%Z /\ (0 <= b * X + x < cols d / 2)%Z).
  { intros y x Hy Hx. rewrite Rr in HY. rewrite Cr in HX.
    rewrite (Z.mul_comm 2), Z.div_mul in HY by lia. rewrite (Z.mul_comm 2), Z.div_mul in HX by lia.
    rewrite <- Z.div_div in HY by lia. rewrite <- Z.div_div in HX by lia.
    pose proof (Z.mul_div_le (rows d / 2) b ltac:(lia)). pose proof (Z.mul_div_le (cols d / 2) b ltac:(lia)).
    clear - HY HX H H0 Hy Hx Hb. nia. }
  destruct (Ht Y X HY HX) as (EI & EQ & EU). destruct (arrangement_range dic a Hd) as (R0 & R45 & Rm & R90).
  assert (FI : cell (sI t) Y X = rsum2 b b (fun y x => cell (sI s) (b * Y + y) (b * X + x))).
  { rewrite EI. unfold four. rewrite !Hsam by (assumption || lia).
    transitivity (rsum2 b b (fun y x => 1 / 2 * (((sample d 0 (b * Y + y) (b * X + x) + sample d 1 (b * Y + y) (b * X + x)) +
      sample d 2 (b * Y + y) (b * X + x)) + sample d 3 (b * Y + y) (b * X + x)))).
    - rewrite rsum2_scal, !rsum2_plus. reflexivity.
    - apply rsum2_ext. intros y x Hy Hx. destruct (In y x Hy Hx). symmetry. apply Hs; assumption. }
  assert (FQ : cell (sQ t) Y X = rsum2 b b (fun y x => cell (sQ s) (b * Y + y) (b * X + x))).
  { rewrite EQ, !Hsam by assumption. rewrite <- rsum2_minus. apply rsum2_ext. intros y x Hy Hx. destruct (In y x Hy Hx).
    symmetry. apply Hs; assumption. }
  assert (FU : cell (sU t) Y X = rsum2 b b (fun y x => cell (sU s) (b * Y + y) (b * X + x))).
  { rewrite EU, !Hsam by assumption. rewrite <- rsum2_minus. apply rsum2_ext. intros y x Hy Hx. destruct (In y x Hy Hx).
    symmetry. apply Hs; assumption. }
  assert (P : cell (pB t) Y X <= rsum2 b b (fun y x => cell (pB s) (b * Y + y) (b * X + x))).
  { rewrite pB_at, FQ, FU. apply norm_rsum2. }
  split; [exact P|]. intros HM HD.
  assert (B : forall y x, (0 <= y < b)%Z -> (0 <= x < b)%Z ->
    0 <= cell (sI s) (b * Y + y) (b * X + x) /\ cell (pB s) (b * Y + y) (b * X + x) <= M * cell (sI s) (b * Y + y) (b * X + x)).
  { intros y x Hy Hx. destruct (In y x Hy Hx). apply (raw_bounds dic a d s _ _ M); auto. }
  rewrite DoLP_at. apply degree_le; [| exact HM|].
  - rewrite FI. apply rsum_nonneg2. intros y x Hy Hx. apply B; assumption.
  - rewrite FI, <- rsum2_scal. eapply Rle_trans; [exact P|]. apply rsum2_le. intros y x Hy Hx. apply B; assumption.
Qed.

Lemma c107_files (rd : reader R) dic a names (avg : bool) height width content head time st M :
  describes dic a -> series rd names height width content head time -> (2 <= length names)%nat ->
  (forall name, In name names -> mosaic (content name) /\ nonnegative (content name) /\
     data_stokes dic (content name) = Ok (st name)) ->
  let share := if avg then / INR (length names) else 1 in
  exists im t, image_from_list rd names avg = Ok im /\ data_stokes dic (l_data im) = Ok t /\
    forall Y X, (0 <= Y < height / 2)%Z -> (0 <= X < width / 2)%Z ->
      cell (pB t) Y X <= share * total (map (fun name => cell (pB (st name)) Y X) names) /\
      (0 <= M -> (forall name, In name names -> cell (DoLP (st name)) Y X <= M) -> cell (DoLP t) Y X <= M).
Proof.
  intros Hd Hser Hlen Hall. cbv zeta. set (share := if avg then / INR (length names) else 1).
  destruct (c51_data rd names avg height width content head time Hser Hlen) as (im & Eim & Rim & Cim & Hcell).
  assert (N0 : 0 < INR (length names)) by (apply lt_0_INR; lia).
  assert (S0 : 0 <= share) by (unfold share; destruct avg; [left; apply Rinv_0_lt_compat; exact N0|lra]).
  assert (Hcell' : forall y x, (0 <= y < height)%Z -> (0 <= x < width)%Z ->
    cell (l_data im) y x = share * total (map (fun name => cell (content name) y x) names)).
  { intros y x Hy Hx. rewrite (Hcell y x Hy Hx). unfold share. destruct avg; cbv zeta; [unfold Rdiv; apply Rmult_comm|lra]. }
  assert (Shape : forall name, In name names -> rows (content name) = height /\ cols (content name) = width).
  { intros name Hin. destruct Hser as (_ & Hs). destruct (Hs name Hin) as (_ & R1 & C1 & _). auto. }
  assert (Hm : mosaic (l_data im)).
  { destruct names as [|name rest]; [cbn in Hlen; lia|]. destruct (Hall name (or_introl eq_refl)) as (Hm & _).
    destruct (Shape name (or_introl eq_refl)) as (R1 & C1). unfold mosaic in *. rewrite Rim, Cim. rewrite R1, C1 in Hm. exact Hm. }
  destruct (raw_stokes dic a (l_data im) Hd Hm) as (t & Et & _ & _ & _ & Ht).
  exists im, t. repeat (split; [assumption|]). intros Y X HY HX.
  assert (Hs : forall k, (0 <= k < 4)%Z -> sample (l_data im) k Y X = share * total (map (fun name => sample (content name) k Y X) names)).
  { intros k Hk. rewrite <- Rim in HY. rewrite <- Cim in HX. destruct (sample_inside _ k Y X Hm Hk HY HX) as (I1 & I2).
    rewrite Rim in I1. rewrite Cim in I2. unfold sample at 1. apply Hcell'; assumption. }
  rewrite Rim, Cim in Ht. destruct (Ht Y X HY HX) as (EI & EQ & EU). destruct (arrangement_range dic a Hd) as (R0 & R45 & Rm & R90).
  assert (Hst : forall name, In name names ->
    cell (sI (st name)) Y X = four (fun k => sample (content name) k Y X) /\
    cell (sQ (st name)) Y X = sample (content name) (p0 a) Y X - sample (content name) (p90 a) Y X /\
    cell (sU (st name)) Y X = sample (content name) (p45 a) Y X - sample (content name) (pm45 a) Y X).
  { intros name Hin. destruct (Hall name Hin) as (Hmn & _ & Esn). destruct (raw_stokes dic a _ Hd Hmn) as (s' & Es' & _ & _ & _ & Hs').
    rewrite Esn in Es'. injection Es' as <-. destruct (Shape name Hin) as (R1 & C1). rewrite R1, C1 in Hs'. apply Hs'; assumption. }
  assert (Tot : forall f g, (forall name, In name names -> f name = g name) -> total (map f names) = total (map g names)).
  { intros f g Hfg. f_equal. apply map_ext_in. exact Hfg. }
  assert (FI : cell (sI t) Y X = share * total (map (fun name => cell (sI (st name)) Y X) names)).
  { rewrite EI. unfold four. rewrite !Hs by lia.
    rewrite (Tot _ _ (fun name Hin => proj1 (Hst name Hin))). unfold four. rewrite total_scale, !total_plus. ring. }
  assert (FQ : cell (sQ t) Y X = share * total (map (fun name => cell (sQ (st name)) Y X) names)).
  { rewrite EQ, !Hs by assumption.
    rewrite (Tot _ _ (fun name Hin => proj1 (proj2 (Hst name Hin)))). rewrite total_minus. ring. }
  assert (FU : cell (sU t) Y X = share * total (map (fun name => cell (sU (st name)) Y X) names)).
  { rewrite EU, !Hs by assumption.
    rewrite (Tot _ _ (fun name Hin => proj2 (proj2 (Hst name Hin)))). rewrite total_minus. ring. }
  assert (P : cell (pB t) Y X <= share * total (map (fun name => cell (pB (st name)) Y X) names)).
  { rewrite pB_at, FQ, FU, norm_scale by exact S0. apply Rmult_le_compat_l; [exact S0|]. apply norm_total. }
  split; [exact P|]. intros HM HD.
  assert (B : forall name, In name names -> 0 <= cell (sI (st name)) Y X /\
    cell (pB (st name)) Y X <= M * cell (sI (st name)) Y X).
  { intros name Hin. destruct (Hall name Hin) as (Hmn & Hnn & Esn). destruct (Shape name Hin) as (R1 & C1).
    apply (raw_bounds dic a (content name) (st name) Y X M); auto; rewrite ?R1, ?C1; assumption. }
  rewrite DoLP_at. apply degree_le; [|exact HM|].
  - rewrite FI. apply Rmult_le_pos; [exact S0|]. apply total_nonneg. intros name Hin. apply B, Hin.
  - eapply Rle_trans; [exact P|]. rewrite FI.
    replace (M * (share * total (map (fun name => cell (sI (st name)) Y X) names)))
      with (share * (M * total (map (fun name => cell (sI (st name)) Y X) names))) by ring.
    apply Rmult_le_compat_l; [exact S0|]. rewrite <- total_scale. apply total_le. intros name Hin. apply B, Hin.
Qed.
