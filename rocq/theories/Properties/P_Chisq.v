(** C112: the goodness-of-fit map of a calibration. *)
From Coq Require Import Reals Lra Permutation.
From Verif Require Import Base.Base Model.DemodFit Model.Calibrate Spec.Terminates Spec.CalibSpec Spec.FitSpec Spec.ChisqSpec
  Proofs.ChisqFacts.
Local Open Scope R_scope.

(** Full statement: [pixel_of (o_chisq o) Y X k = per_freedom p (angles_rad S) (series c Y X k) (errors c Y X k)]
    for every fitted pixel.

    What holds for more than four images: the value is not negative, and zero exactly for a fit that goes
    through all samples. *)
Theorem C112_zero_partial : forall S c h w o Y X k p v,
  series_shape c h w -> complete S c -> compute_chunk S c = Ok o ->
  (0 <= Y < h)%Z -> (0 <= X < w)%Z -> (0 <= k < 4)%Z -> ~ no_fit S c Y X -> fit_gives S c Y X k p v ->
  errors_positive c Y X k -> (4 < length (angles_rad S))%nat ->
  0 <= pixel_of (o_chisq o) Y X k /\
  (pixel_of (o_chisq o) Y X k = 0 <-> exact_fit p (angles_rad S) (series c Y X k)).
Proof. exact c112_zero. Qed.
Print Assumptions C112_zero_partial.

(** With equal errors s of all samples it is s times (n - 3) / d times the reduced chi-square, where d is
    n - 2, n - 3 or n - 4 according to how many of the two boundaries were given: squares are divided by
    the error instead of its square, and the parameters are not counted right. *)
Theorem C112_actual_refuted : forall S c h w o Y X k p v s,
  series_shape c h w -> compute_chunk S c = Ok o ->
  (0 <= Y < h)%Z -> (0 <= X < w)%Z -> (0 <= k < 4)%Z -> ~ no_fit S c Y X -> fit_gives S c Y X k p v ->
  Forall (fun e => e = s) (errors c Y X k) -> s <> 0 ->
  let n := Z.of_nat (length (angles_rad S)) in
  let d := (n - 2 - free (tk_boundary S) - free (eff_boundary S))%Z in
  n <> 3%Z -> d <> 0%Z ->
  pixel_of (o_chisq o) Y X k =
    s * (IZR (n - 3) / IZR d) * per_freedom p (angles_rad S) (series c Y X k) (errors c Y X k).
Proof. exact c112_actual. Qed.
Print Assumptions C112_actual_refuted.

(** With three images and no boundaries given it is negative unless the fit is exact. *)
Theorem C112_negative_refuted : forall S c h w o Y X k p v,
  series_shape c h w -> complete S c -> compute_chunk S c = Ok o ->
  (0 <= Y < h)%Z -> (0 <= X < w)%Z -> (0 <= k < 4)%Z -> ~ no_fit S c Y X -> fit_gives S c Y X k p v ->
  errors_positive c Y X k -> length (angles_rad S) = 3%nat -> tk_boundary S = None -> eff_boundary S = None ->
  ~ exact_fit p (angles_rad S) (series c Y X k) ->
  pixel_of (o_chisq o) Y X k < 0.
Proof. exact c112_negative. Qed.
Print Assumptions C112_negative_refuted.

(** A fit that always answers throughput 1, efficiency 0: the curve is 1/2, [n] samples are 1 with errors of
    1/10. *)
Definition half_fit (n : nat) : settings :=
  mksettings (fun _ _ _ _ _ => Some ((1, 0, 0), fun _ _ => 0)) (fun _ => zero34) (repeat 0 n) (all4 0) None None.
Definition ones (n : nat) : chunk := mkchunk 2 2 (repeat (fun _ _ => 1) n) (repeat (fun _ _ => 1/10) n) (full 2 2 0).
Lemma ones_fitted n : (0 < n)%nat ->
  series_shape (ones n) 1 1 /\ complete (half_fit n) (ones n) /\
  (forall k, (0 <= k < 4)%Z -> fit_gives (half_fit n) (ones n) 0 0 k (1, 0, 0) (fun _ _ => 0)) /\
  ~ no_fit (half_fit n) (ones n) 0 0 /\
  (forall k, Forall (fun e => e = 1/10) (errors (ones n) 0 0 k)) /\
  (forall k, errors_positive (ones n) 0 0 k) /\
  (forall k, ~ exact_fit (1, 0, 0) (angles_rad (half_fit n)) (series (ones n) 0 0 k)).
Proof.
  intros Hn.
  assert (Hf : forall k, (0 <= k < 4)%Z -> fit_gives (half_fit n) (ones n) 0 0 k (1, 0, 0) (fun _ _ => 0)).
  { intros k Hk. split; [|reflexivity]. unfold dark, series, ones. cbn [c_data]. destruct n as [|n]; [lia|].
    cbn. intros K. inversion K; subst. lra. }
  assert (He : forall k, Forall (fun e => e = 1/10) (errors (ones n) 0 0 k)).
  { intros k. unfold errors, ones. cbn [c_err]. clear. induction n; cbn; constructor; [|assumption].
    destruct (Req_EM_T (1/10) 0); lra. }
  repeat apply conj; try reflexivity; try lia; try (cbn; rewrite !repeat_length; reflexivity).
  - exact Hf.
  - intros [(k & Hk & K)|(k & Hk & K)]; [apply K; reflexivity|]. exact (K _ _ (Hf k Hk)).
  - exact He.
  - intros k. unfold errors_positive. eapply Forall_impl; [|exact (He k)]. intros e ->. lra.
  - intros k. unfold exact_fit, half_fit, series, ones. cbn [angles_rad c_data]. destruct n as [|n]; [lia|].
    cbn. intros K. inversion K as [|x v xs vs E _]; subst. unfold misses, p_t, p_e, p_phi in E. cbn in E. lra.
Qed.
Example C112_case : exists o, compute_chunk (half_fit 5) (ones 5) = Ok o /\
  0 < pixel_of (o_chisq o) 0 0 0 /\
  pixel_of (o_chisq o) 0 0 0 =
    1/10 * 2 * per_freedom (1, 0, 0) (angles_rad (half_fit 5)) (series (ones 5) 0 0 0) (errors (ones 5) 0 0 0).
Proof.
  destruct (ones_fitted 5 ltac:(lia)) as (Hs & Hc & Hf & Hn & He & Hp & Hx).
  destruct (GridFacts.c30_calibrated (half_fit 5) (ones 5) 1 1 Hs) as (o & Eo & _).
  exists o. split; [exact Eo|]. split.
  - destruct (C112_zero_partial _ _ _ _ _ 0%Z 0%Z 0%Z _ _ Hs Hc Eo ltac:(lia) ltac:(lia) ltac:(lia) Hn (Hf 0%Z ltac:(lia)) (Hp 0%Z)
                ltac:(cbn; lia)) as ([L|L] & E); [exact L|]. exfalso. apply (Hx 0%Z), E. symmetry; exact L.
  - rewrite (C112_actual_refuted _ _ _ _ _ 0%Z 0%Z 0%Z _ _ (1/10) Hs Eo ltac:(lia) ltac:(lia) ltac:(lia) Hn (Hf 0%Z ltac:(lia))
               (He 0%Z)); cbn; try lra; lia.
Qed.
Example C112_negative_case : exists o, compute_chunk (half_fit 3) (ones 3) = Ok o /\ pixel_of (o_chisq o) 0 0 0 < 0.
Proof.
  destruct (ones_fitted 3 ltac:(lia)) as (Hs & Hc & Hf & Hn & He & Hp & Hx).
  destruct (GridFacts.c30_calibrated (half_fit 3) (ones 3) 1 1 Hs) as (o & Eo & _).
  exists o. split; [exact Eo|].
  apply (C112_negative_refuted _ _ _ _ _ 0%Z 0%Z 0%Z _ _ Hs Hc Eo ltac:(lia) ltac:(lia) ltac:(lia) Hn (Hf 0%Z ltac:(lia)) (Hp 0%Z)
           eq_refl eq_refl eq_refl (Hx 0%Z)).
Qed.

(** The errors themselves are right: every fit is given the photon noise of its samples (hypotheses as in
    [C75_matched_partial], for which [C75_case] is an example). *)
Theorem C112_photon_noise : forall W args os fs ps images dark norms h w hy hx,
  Permutation ps (combine os fs) -> by_orientation ps -> ps <> [] ->
  (1 <= a_binning args)%Z -> (0 <= h)%Z -> (0 <= w)%Z ->
  Forall2 (fun p r => file_image W (a_binning args) h w (snd p) r) ps images ->
  dark_is W args h w dark -> a_flat args = None ->
  norms_are W args dark ps images h w norms -> 0 < a_gain args ->
  (forall r y x, In r images -> (0 <= y < 2 * h)%Z -> (0 <= x < 2 * w)%Z -> 0 <= level dark r y x) ->
  (0 < a_ny args)%Z -> (0 < a_nx args)%Z -> (a_ny args * hy = h)%Z -> (a_nx args * hx = w)%Z ->
  Permutation (finish W) (zrange (a_ny args * a_nx args)) ->
  exists c o,
    evaluates (fun fuel => calibrate W args fuel os fs) o /\
    complete (settings_of W args ps) c /\
    same_images h w (c_data c) (relative dark images norms) /\
    same_images h w (c_err c) (photon_noise dark (a_gain args) images norms) /\
    forall Y X, (0 <= Y < h)%Z -> (0 <= X < w)%Z -> calibrated (settings_of W args ps) c o Y X.
Proof. exact c112_photon. Qed.
Print Assumptions C112_photon_noise.
