(** The chi-square map of a calibration. *)
From Coq Require Import Reals Lra Lia Permutation.
From Verif Require Import Base.Base Base.BaseFacts Model.DemodFit Model.Calibrate Spec.Terminates Spec.CalibSpec Spec.FitSpec
  Spec.ChisqSpec Proofs.GridFacts Proofs.CalibFacts.
Local Open Scope R_scope.

(** The sum that the code forms *)
Fixpoint code_sum (p : param3) (xs vs ss : list R) : R :=
  match xs, vs, ss with
  | x :: xs', v :: vs', s :: ss' => misses p x v * misses p x v / s + code_sum p xs' vs' ss'
  | _, _, _ => 0
  end.
Lemma reduced_code S p vs ss : reduced_chisq S p vs ss =
  code_sum p (angles_rad S) vs ss /
  IZR (Z.of_nat (length (angles_rad S)) - 2 - free (tk_boundary S) - free (eff_boundary S)).
Proof.
  unfold reduced_chisq. f_equal. revert vs ss.
  induction (angles_rad S) as [|x xs IH]; intros [|v vs] [|s ss]; try reflexivity.
  cbn [code_sum]. rewrite <- IH. unfold misses. f_equal. f_equal. f_equal; ring.
Qed.

Lemma code_equal p s : s <> 0 -> forall xs vs ss, Forall (fun e => e = s) ss ->
  code_sum p xs vs ss = s * chi_square p xs vs ss.
Proof.
  intros Hs. induction xs as [|x xs IH]; intros [|v vs] [|e ss] He; cbn [code_sum chi_square]; try ring.
  inversion He as [|e' ss' E1 E2]; subst. rewrite IH by assumption. unfold Rsqr. field. assumption.
Qed.
Lemma code_nonneg p : forall xs vs ss, Forall (fun e => 0 < e) ss -> 0 <= code_sum p xs vs ss.
Proof.
  induction xs as [|x xs IH]; intros [|v vs] [|e ss] He; cbn [code_sum]; try lra.
  inversion He as [|e' ss' E1 E2]; subst. specialize (IH vs ss E2).
  assert (0 <= misses p x v * misses p x v / e).
  { apply Rmult_le_pos; [apply Rle_0_sqr|]. left. apply Rinv_0_lt_compat. assumption. }
  lra.
Qed.
Lemma code_zero p : forall xs vs ss, length vs = length xs -> length ss = length xs -> Forall (fun e => 0 < e) ss ->
  (code_sum p xs vs ss = 0 <-> exact_fit p xs vs).
Proof.
  unfold exact_fit. induction xs as [|x xs IH]; intros [|v vs] [|e ss] Hv Hs He; try discriminate.
  - split; [constructor|reflexivity].
  - cbn [code_sum]. inversion He as [|e' ss' E1 E2]; subst.
    pose proof (code_nonneg p xs vs ss E2) as K.
    assert (0 <= misses p x v * misses p x v / e).
    { apply Rmult_le_pos; [apply Rle_0_sqr|]. left. apply Rinv_0_lt_compat. assumption. }
    specialize (IH vs ss ltac:(cbn in *; lia) ltac:(cbn in *; lia) E2). split.
    + intros E. assert (code_sum p xs vs ss = 0) by lra. constructor; [|apply IH; assumption].
      assert (M : misses p x v * misses p x v / e = 0) by lra.
      apply Rmult_integral in M as [M|M]; [apply Rsqr_0_uniq; exact M|].
      pose proof (Rinv_0_lt_compat e E1). lra.
    + intros E. inversion E; subst. rewrite (proj2 IH) by assumption.
      replace (misses p x v) with 0 by (symmetry; assumption). unfold Rdiv. ring.
Qed.

(** The value in the map, for a fitted pixel *)
Lemma fitted_chisq S c h w o Y X k p v : series_shape c h w -> compute_chunk S c = Ok o ->
  (0 <= Y < h)%Z -> (0 <= X < w)%Z -> (0 <= k < 4)%Z -> ~ no_fit S c Y X -> fit_gives S c Y X k p v ->
  pixel_of (o_chisq o) Y X k =
  code_sum p (angles_rad S) (series c Y X k) (errors c Y X k) /
  IZR (Z.of_nat (length (angles_rad S)) - 2 - free (tk_boundary S) - free (eff_boundary S)).
Proof.
  intros Hs Eo HY HX Hk Hn (Hd & Hf).
  destruct (c30_calibrated S c h w Hs) as (o' & Eo' & _ & Hcal). rewrite Eo in Eo'. injection Eo' as <-.
  destruct (Hcal Y X HY HX) as [(K & _)|(_ & p0 & p1 & p2 & p3 & vs & Hfit & _ & Hmaps)]; [contradiction|].
  destruct (Hmaps k Hk) as (_ & _ & _ & _ & ->). destruct (Hfit k Hk) as (_ & Hf').
  rewrite Hf in Hf'. injection Hf' as -> _. apply reduced_code.
Qed.

Lemma c112_actual S c h w o Y X k p v s : series_shape c h w -> compute_chunk S c = Ok o ->
  (0 <= Y < h)%Z -> (0 <= X < w)%Z -> (0 <= k < 4)%Z -> ~ no_fit S c Y X -> fit_gives S c Y X k p v ->
  Forall (fun e => e = s) (errors c Y X k) -> s <> 0 ->
  let n := Z.of_nat (length (angles_rad S)) in
  let d := (n - 2 - free (tk_boundary S) - free (eff_boundary S))%Z in
  n <> 3%Z -> d <> 0%Z ->
  pixel_of (o_chisq o) Y X k =
    s * (IZR (n - 3) / IZR d) * per_freedom p (angles_rad S) (series c Y X k) (errors c Y X k).
Proof.
  intros Hs Eo HY HX Hk Hn Hf He Hs0 n d Hn3 Hd.
  rewrite (fitted_chisq S c h w o Y X k p v) by assumption. rewrite (code_equal p s) by assumption.
  unfold per_freedom. fold n. fold d. field. split; apply not_0_IZR; lia.
Qed.

Lemma c112_zero S c h w o Y X k p v : series_shape c h w -> complete S c -> compute_chunk S c = Ok o ->
  (0 <= Y < h)%Z -> (0 <= X < w)%Z -> (0 <= k < 4)%Z -> ~ no_fit S c Y X -> fit_gives S c Y X k p v ->
  errors_positive c Y X k -> (4 < length (angles_rad S))%nat ->
  0 <= pixel_of (o_chisq o) Y X k /\
  (pixel_of (o_chisq o) Y X k = 0 <-> exact_fit p (angles_rad S) (series c Y X k)).
Proof.
  intros Hs (L1 & L2) Eo HY HX Hk Hn Hf He Hl.
  rewrite (fitted_chisq S c h w o Y X k p v) by assumption.
  set (d := (_ - _)%Z). assert (Hd : 0 < IZR d).
  { apply IZR_lt. unfold d. destruct (tk_boundary S), (eff_boundary S); cbn [free]; lia. }
  pose proof (Rinv_0_lt_compat _ Hd) as Hi. unfold errors_positive in He.
  pose proof (code_nonneg p (angles_rad S) (series c Y X k) (errors c Y X k) He) as K.
  split; [apply Rmult_le_pos; lra|].
  rewrite <- (code_zero p (angles_rad S) (series c Y X k) (errors c Y X k)); [|unfold series; rewrite map_length; exact L1|unfold errors; rewrite map_length; exact L2|exact He].
  split; intros E.
  - apply Rmult_integral in E as [E|E]; [exact E|lra].
  - rewrite E. unfold Rdiv. ring.
Qed.

Lemma c112_negative S c h w o Y X k p v : series_shape c h w -> complete S c -> compute_chunk S c = Ok o ->
  (0 <= Y < h)%Z -> (0 <= X < w)%Z -> (0 <= k < 4)%Z -> ~ no_fit S c Y X -> fit_gives S c Y X k p v ->
  errors_positive c Y X k -> length (angles_rad S) = 3%nat -> tk_boundary S = None -> eff_boundary S = None ->
  ~ exact_fit p (angles_rad S) (series c Y X k) ->
  pixel_of (o_chisq o) Y X k < 0.
Proof.
  intros Hs (L1 & L2) Eo HY HX Hk Hn Hf He Hl Ht Hef Hx.
  rewrite (fitted_chisq S c h w o Y X k p v) by assumption. rewrite Hl, Ht, Hef.
  change (IZR (Z.of_nat 3 - 2 - free None - free None)) with (-1). unfold errors_positive in He.
  pose proof (code_nonneg p (angles_rad S) (series c Y X k) (errors c Y X k) He) as K.
  assert (code_sum p (angles_rad S) (series c Y X k) (errors c Y X k) <> 0).
  { intros E. apply Hx. apply (code_zero p _ _ (errors c Y X k)); [unfold series; rewrite map_length; exact L1|unfold errors; rewrite map_length; exact L2|exact He|exact E]. }
  lra.
Qed.

(** ** The errors *)
Lemma noise_photon dark g images norms h w : 0 < g ->
  (forall r y x, In r images -> (0 <= y < 2 * h)%Z -> (0 <= x < 2 * w)%Z -> 0 <= level dark r y x) ->
  (forall s y x, In s norms -> (0 <= y < 2 * h)%Z -> (0 <= x < 2 * w)%Z -> 0 < s y x) ->
  same_images h w (noise dark g images norms) (photon_noise dark g images norms).
Proof.
  intros Hg Hl Hn. unfold same_images, noise, photon_noise. revert norms Hn.
  induction images as [|r images IH]; intros [|s norms] Hn; cbn [combine map]; try constructor.
  - intros y x Hy Hx. cbn [fst snd].
    pose proof (Hl r y x (or_introl eq_refl) Hy Hx) as L. pose proof (Hn s y x (or_introl eq_refl) Hy Hx) as N.
    replace (sqrt (g * level dark r y x) / g / s y x) with (sqrt (Rsqr (sqrt (g * level dark r y x) / g / s y x))).
    + f_equal. unfold Rsqr, Rdiv.
      replace (sqrt (g * level dark r y x) * / g * / s y x * (sqrt (g * level dark r y x) * / g * / s y x))
        with ((sqrt (g * level dark r y x) * sqrt (g * level dark r y x)) * / g * / s y x * (/ g * / s y x)) by ring.
      rewrite sqrt_sqrt by (apply Rmult_le_pos; lra). field. lra.
    + apply sqrt_Rsqr. unfold Rdiv. repeat apply Rmult_le_pos; [apply sqrt_pos| |]; left; apply Rinv_0_lt_compat; assumption.
  - apply IH; [intros r' y x Hin; apply Hl; right; exact Hin|]. intros s' y x Hin; apply Hn; right; exact Hin.
Qed.

Lemma same_images_trans h w a b c : same_images h w a b -> same_images h w b c -> same_images h w a c.
Proof.
  unfold same_images. intros H. revert c. induction H as [|f g a b Hfg Hab IH]; intros c Hc; inversion Hc; subst; constructor.
  - intros y1 x1 Hy Hx. rewrite Hfg by assumption. auto.
  - apply IH; assumption.
Qed.

Lemma c112_photon W args os fs ps images dark norms h w hy hx :
  Permutation ps (combine os fs) -> by_orientation ps -> ps <> [] ->
  (1 <= a_binning args)%Z -> (0 <= h)%Z -> (0 <= w)%Z ->
  Forall2 (fun p r => file_image W (a_binning args) h w (snd p) r) ps images ->
  dark_is W args h w dark -> a_flat args = None ->
  norms_are W args dark ps images h w norms -> 0 < a_gain args ->
  (forall r y x, In r images -> (0 <= y < 2 * h)%Z -> (0 <= x < 2 * w)%Z -> 0 <= level dark r y x) ->
  (0 < a_ny args)%Z -> (0 < a_nx args)%Z -> (a_ny args * hy = h)%Z -> (a_nx args * hx = w)%Z ->
  Permutation (finish W) (zrange (a_ny args * a_nx args)) ->
  exists c o,
    evaluates (fun fuel => calibrate W args fuel os fs) o /\
    complete (settings_of W args ps) c /\
    same_images h w (c_data c) (relative dark images norms) /\
    same_images h w (c_err c) (photon_noise dark (a_gain args) images norms) /\
    forall Y X, (0 <= Y < h)%Z -> (0 <= X < w)%Z -> calibrated (settings_of W args ps) c o Y X.
Proof.
  intros HP Hsort Hne Hb Hh Hw Hfiles Hdark Hflat Hnorms Hg Hlev Hny Hnx Ehy Ehx Hfin.
  destruct (c75_matched W args os fs ps images dark norms h w hy hx HP Hsort Hne Hb Hh Hw Hfiles Hdark Hflat Hnorms Hg
              Hlev Hny Hnx Ehy Ehx Hfin) as (c & o & Ho & Hsh & Hmsh & Hd & He & _ & Hcal).
  exists c, o. split; [exact Ho|]. split.
  - assert (L : length images = length ps).
    { clear - Hfiles. induction Hfiles; cbn; congruence. }
    unfold complete. unfold settings_of. cbn [angles_rad]. rewrite map_length.
    assert (F : forall a b, same_images h w a b -> length a = length b).
    { intros a b F. unfold same_images in F. induction F; cbn; congruence. }
    rewrite (F _ _ Hd), (F _ _ He). unfold relative, noise. rewrite !map_length, combine_length.
    destruct Hnorms as (Ln & _). lia.
  - split; [exact Hd|]. split; [|exact Hcal]. eapply same_images_trans; [exact He|].
    apply noise_photon; [assumption..|]. apply Hnorms.
Qed.
