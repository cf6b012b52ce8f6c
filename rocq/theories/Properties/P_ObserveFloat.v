(** C127: from counts to Stokes parameters in binary64, whatever the order in which numpy adds the pixels of the flat. *)
From Coq Require Import Reals Lra Lia Permutation Floats.SpecFloat.
From Verif Require Import Base.Base Base.Num Base.Bcast Model.Utils Model.Stokes Model.Demodulate Model.FlatFloat Model.MeanFloat Model.DemodFit
  Spec.AngleSpec Spec.FloatSpec Spec.SumSpec Spec.DemodSpec Spec.FitSpec Spec.CorrectSpec Spec.NearSpec Spec.MeanSpec Spec.ObserveSpec
  Proofs.ExactFacts Proofs.CorrectFloatFacts Proofs.InvertFacts Proofs.MeanFacts Proofs.ObserveFloatFacts.
From Verif Require Import Spec.PixelSpec Spec.MosaicSpec.
Local Open Scope R_scope.

(** With real numbers every order gives the mean. *)
Theorem C127_exact (a : arr R) (o : order R) : order_of a o -> mean_in_order o (rows a * cols a) = amean a.
Proof. exact (c127_exact a o). Qed.
Print Assumptions C127_exact.

(** The computed mean is known to one rounding per level of the additions, and one for the division. *)
Theorem C127_mean (a : arr b64) (o : order b64) : order_of a o -> sensible a -> positive a -> (0 < rows a)%Z -> (0 < cols a)%Z ->
  (rows a * cols a < 2 ^ 53)%Z -> (Z.of_nat (depth o) <= 2 ^ 51)%Z ->
  FloatSpec.within (INR (depth o + 1) * powerRZ 2 (-52)) (mean_in_order o (rows a * cols a)) (amean (values a)).
Proof. exact (c127_mean a o). Qed.
Print Assumptions C127_mean.

(** The corrected image, against the one computed with real numbers. *)
Theorem C127_corrected (m : b64) eps junk junk' (data dark flat : arr b64) n :
  same_shape data dark -> same_shape data flat -> (0 <= n < 2 ^ 53)%Z -> counts n data -> counts n dark -> sensible flat ->
  FloatSpec.within eps m (amean (values flat)) -> moderate (fval m) -> 0 <= eps <= / 2 ->
  exists c f cr fr, dark_data data dark = Ok c /\ flat_data_with m junk c flat = Ok f /\
    dark_data (values data) (values dark) = Ok cr /\ flat_data junk' cr (values flat) = Ok fr /\
    same_shape f data /\ rows fr = rows data /\ cols fr = cols data /\ bounded (powerRZ 2 655) f /\
    forall y x, (0 <= y < rows data)%Z -> (0 <= x < cols data)%Z -> FloatSpec.within (flat_error eps) (cell f y x) (cell fr y x).
Proof. exact (c127_corrected m eps junk junk' data dark flat n). Qed.
Print Assumptions C127_corrected.

(** Demodulated, against the demodulation of the image corrected with real numbers. *)
Theorem C127_demodulated (m : b64) eps junk junk' (dd : demodulator b64) (data dark flat : arr b64) old n h w :
  same_shape data dark -> same_shape data flat -> (0 <= n < 2 ^ 53)%Z -> counts n data -> counts n dark -> sensible flat ->
  FloatSpec.within eps m (amean (values flat)) -> moderate (fval m) -> 0 <= eps <= / 2 ->
  mosaic data -> h = (rows data / 2)%Z -> w = (cols data / 2)%Z -> t_rows (mij dd) = h -> t_cols (mij dd) = w -> tensor_bounded (powerRZ 2 300) (mij dd) ->
  (forall f, fit_found_flags dd = Some f ->
     (rows f = h /\ cols f = w) /\ (rows (sI old) = h /\ cols (sI old) = w) /\
     (rows (sQ old) = h /\ cols (sQ old) = w) /\ (rows (sU old) = h /\ cols (sU old) = w)) ->
  exists c f s cr fr, dark_data data dark = Ok c /\ flat_data_with m junk c flat = Ok f /\ demod_raw dd f old = Ok s /\
    dark_data (values data) (values dark) = Ok cr /\ flat_data junk' cr (values flat) = Ok fr /\
    forall Y X, (0 <= Y < h)%Z -> (0 <= X < w)%Z ->
      (forall f, fit_found_flags dd = Some f -> neqb (cell f Y X) n1 = true) ->
      let M i j := t_cell (mij dd) i j Y X in
      let off i x := off_by (row_error eps * abs_row M (fun k => Rabs (sample fr k Y X)) i + powerRZ 2 (-1070))
                       x (exact_row M (fun k => sample fr k Y X) i) in
      off 0%Z (cell (sI s) Y X) /\ off 1%Z (cell (sQ s) Y X) /\ off 2%Z (cell (sU s) Y X).
Proof. exact (c127_demodulated m eps junk junk' dd data dark flat old n h w). Qed.
Print Assumptions C127_demodulated.

(** Behind ideal micropolarizers: against the light, with noise of the pixels and rounding. *)
Theorem C127_light (m : b64) eps junk (data dark flat : arr b64) n dic a gain low bright noise p I Q U :
  same_shape data dark -> same_shape data flat -> (0 <= n < 2 ^ 53)%Z -> counts n data -> counts n dark -> sensible flat ->
  FloatSpec.within eps m (amean (values flat)) -> moderate (fval m) -> 0 <= eps <= / 2 ->
  mosaic data -> (0 < rows data)%Z -> (0 < cols data)%Z -> rows gain = rows data -> cols gain = cols data ->
  flat_of low bright gain (values flat) -> observed noise p gain (values dark) (values data) I Q U -> describes dic a ->
  (forall Y X, (0 <= Y < rows data / 2)%Z -> (0 <= X < cols data / 2)%Z ->
     light (I Y X) (Q Y X) (U Y X) /\
     f4 (p Y X) (p0 a) = (1, 1, 0) /\ f4 (p Y X) (p45 a) = (1, 1, PI / 4) /\
     f4 (p Y X) (pm45 a) = (1, 1, - (PI / 4)) /\ f4 (p Y X) (p90 a) = (1, 1, PI / 2)) ->
  exists c f s, dark_data data dark = Ok c /\ flat_data_with m junk c flat = Ok f /\ data_stokes dic f = Ok s /\
    forall Y X, (0 <= Y < rows data / 2)%Z -> (0 <= X < cols data / 2)%Z ->
      let g := mean_of gain in let v := g * (noise / low) in
      let e := 2 * v + 2 * row_error eps * (g * I Y X + v) + powerRZ 2 (-1075) in
      off_by e (cell (sI s) Y X) (g * I Y X) /\ off_by e (cell (sQ s) Y X) (g * Q Y X) /\ off_by e (cell (sU s) Y X) (g * U Y X).
Proof. exact (c127_light m eps junk data dark flat n dic a gain low bright noise p I Q U). Qed.
Print Assumptions C127_light.

(** The case of C121 in binary64, its flat added in two pairs. *)
Definition counts4 : arr b64 := of_list S754_nan 2 2 [nofZ 50; nofZ 60; nofZ 60; nofZ 40].
Definition dark4 : arr b64 := full 2 2 (nofZ 10).
Definition flat4 : arr b64 := of_list S754_nan 2 2 [nofZ 100; nofZ 200; nofZ 200; nofZ 300].
Definition gain4 : arr R := mkarr 2 2 (fun y x => if (y =? x)%Z then (if (y =? 0)%Z then 1 / 2 else 3 / 2) else 1).
Definition pairs4 : order b64 := Plus (Plus (Pixel (nofZ 300)) (Pixel (nofZ 100))) (Plus (Pixel (nofZ 200)) (Pixel (nofZ 200))).

Lemma cells4 (P : Z -> Z -> Prop) : P 0%Z 0%Z -> P 0%Z 1%Z -> P 1%Z 0%Z -> P 1%Z 1%Z -> forall y x, (0 <= y < 2)%Z -> (0 <= x < 2)%Z -> P y x.
Proof.
  intros A B C D y x Hy Hx. assert (y = 0 \/ y = 1)%Z as [-> | ->] by lia; assert (x = 0 \/ x = 1)%Z as [-> | ->] by lia; assumption.
Qed.
Lemma moderate_count k : (0 < k < 2 ^ 53)%Z -> moderate (IZR k).
Proof. intros Hk. destruct (count_zero_or_moderate k ltac:(lia)) as [E|M]; [apply eq_IZR in E; lia|exact M]. Qed.

Example C127_order :
  order_of flat4 pairs4 /\ sensible flat4 /\ positive flat4 /\ depth pairs4 = 2%nat /\ mean_in_order pairs4 4 = nofZ 200 /\
  FloatSpec.within (INR 3 * powerRZ 2 (-52)) (nofZ 200) (amean (values flat4)).
Proof.
  assert (O : order_of flat4 pairs4).
  { unfold order_of, pairs4. cbn [order_pixels app]. change (concat (to_list flat4)) with [@nofZ b64 _ 100; nofZ 200; nofZ 200; nofZ 300].
    apply (Permutation_cons_app [nofZ 100; nofZ 200; nofZ 200] []). cbn [app]. apply Permutation_refl. }
  assert (V : forall y x, (0 <= y < 2)%Z -> (0 <= x < 2)%Z -> exists k, (0 < k < 2 ^ 53)%Z /\ is_value (cell flat4 y x) (IZR k)).
  { apply cells4; eexists; (split; [|apply ofZ_value]); lia. }
  assert (S : sensible flat4).
  { intros y x Hy Hx. destruct (V y x Hy Hx) as (k & Hk & A & B & C). split; [exact A|]. split; [exact B|]. rewrite C. apply moderate_count, Hk. }
  assert (P : positive flat4).
  { intros y x Hy Hx. destruct (V y x Hy Hx) as (k & Hk & A & B & C). rewrite C. apply IZR_lt. lia. }
  assert (E : mean_in_order pairs4 4 = nofZ 200) by (vm_compute; reflexivity).
  split; [exact O|]. split; [exact S|]. split; [exact P|]. split; [reflexivity|]. split; [exact E|].
  rewrite <- E. exact (C127_mean flat4 pairs4 O S P ltac:(reflexivity) ltac:(reflexivity) ltac:(reflexivity) ltac:(discriminate)).
Qed.

Example C127_case junk :
  let eps := INR 3 * powerRZ 2 (-52) in
  exists c f s, dark_data counts4 dark4 = Ok c /\ flat_data_with (mean_in_order pairs4 4) junk c flat4 = Ok f /\ data_stokes polarcam_angles f = Ok s /\
    (let e := 2 * row_error eps * 100 + powerRZ 2 (-1075) in
     off_by e (cell (sI s) 0 0) 100 /\ off_by e (cell (sQ s) 0 0) 60 /\ off_by e (cell (sU s) 0 0) 0) /\
    cell (sI s) 0%Z 0%Z = nofZ 100 /\ cell (sQ s) 0%Z 0%Z = nofZ 60 /\ cell (sU s) 0%Z 0%Z = nofZ 0.
Proof.
  intros eps. destruct C127_order as (O & S & P & _ & E & W). rewrite E.
  assert (G : mean_of gain4 = 1) by (change (mean_of gain4) with ((1 / 2 + (1 + 0) + (1 + (3 / 2 + 0) + 0)) / 4); lra).
  assert (V50 := ofZ_value 50 eq_refl). assert (V60 := ofZ_value 60 eq_refl). assert (V40 := ofZ_value 40 eq_refl). assert (V10 := ofZ_value 10 eq_refl).
  assert (V1 := ofZ_value 100 eq_refl). assert (V2 := ofZ_value 200 eq_refl). assert (V3 := ofZ_value 300 eq_refl).
  assert (F50 : fval (nofZ 50) = 50) by exact (value_val _ _ V50). assert (F60 : fval (nofZ 60) = 60) by exact (value_val _ _ V60). assert (F40 : fval (nofZ 40) = 40) by exact (value_val _ _ V40). assert (F10 : fval (nofZ 10) = 10) by exact (value_val _ _ V10). assert (F100 : fval (nofZ 100) = 100) by exact (value_val _ _ V1). assert (F200 : fval (nofZ 200) = 200) by exact (value_val _ _ V2). assert (F300 : fval (nofZ 300) = 300) by exact (value_val _ _ V3).
  destruct (C127_light (nofZ 200) eps junk counts4 dark4 flat4 100 polarcam_angles (mkarrangement 0 1 2 3) gain4 (1 / 2) 200 0
    (fun _ _ => ideal_params) (fun _ _ => 100) (fun _ _ => 60) (fun _ _ => 0)) as (c & f & s & Ec & Ef & Es & Hs).
  - split; reflexivity.
  - split; reflexivity.
  - lia.
  - unfold counts. apply cells4; eexists; (split; [|first [exact V50|exact V60|exact V40]]); lia.
  - unfold counts. apply cells4; eexists; (split; [|exact V10]); lia.
  - exact S.
  - exact W.
  - replace (fval (nofZ 200)) with 200 by (symmetry; exact F200). apply moderate_count. lia.
  - unfold eps. cbn [INR]. assert (B : 0 <= powerRZ 2 (-52) <= powerRZ 2 (-4)) by (split; [left; apply powerRZ_lt; lra|apply power_le; lia]).
    change (powerRZ 2 (-4)) with (/ (2 ^ 4)) in B. lra.
  - repeat split; cbn; try lia; reflexivity.
  - reflexivity.
  - reflexivity.
  - reflexivity.
  - reflexivity.
  - split; [lra|]. split; [lra|]. change (rows (values flat4)) with 2%Z. change (cols (values flat4)) with 2%Z. apply cells4; (split; [cbn; lra|]).
    + change (fval (nofZ 100) = 1 / 2 * 200). rewrite F100. lra.
    + change (fval (nofZ 200) = 1 * 200). rewrite F200. lra.
    + change (fval (nofZ 200) = 1 * 200). rewrite F200. lra.
    + change (fval (nofZ 300) = 3 / 2 * 200). rewrite F300. lra.
  - intros Y X k HY HX Hk. cbv zeta. assert (Y = 0 /\ X = 0)%Z as (-> & ->) by (change (rows (values counts4) / 2)%Z with 1%Z in HY; change (cols (values counts4) / 2)%Z with 1%Z in HX; lia).
    right. assert (k = 0 \/ k = 1 \/ k = 2 \/ k = 3)%Z as [-> |[-> |[-> | ->]]] by lia;
      unfold recorded, p_t, p_e, p_phi; cbn [f4 ideal_params f_0 f_1 f_2 f_3 fst snd Z.eqb Pos.eqb].
    + rewrite Rmult_0_r, cos_0, sin_0. change (Rabs (fval (nofZ 50) - (fval (nofZ 10) + 1 / 2 * (1 / 2 * (100 + 1 * (60 * 1 + 0 * 0))))) = 0).
      rewrite F50, F10. rewrite Rabs_pos_eq; lra.
    + replace (2 * (PI / 4)) with (PI / 2) by lra. rewrite cos_PI2, sin_PI2. change (Rabs (fval (nofZ 60) - (fval (nofZ 10) + 1 * (1 / 2 * (100 + 1 * (60 * 0 + 0 * 1))))) = 0).
      rewrite F60, F10. rewrite Rabs_pos_eq; lra.
    + replace (2 * - (PI / 4)) with (- (PI / 2)) by lra. rewrite cos_neg, sin_neg, cos_PI2, sin_PI2. change (Rabs (fval (nofZ 60) - (fval (nofZ 10) + 1 * (1 / 2 * (100 + 1 * (60 * 0 + 0 * - (1)))))) = 0).
      rewrite F60, F10. rewrite Rabs_pos_eq; lra.
    + replace (2 * (PI / 2)) with PI by lra. rewrite cos_PI, sin_PI. change (Rabs (fval (nofZ 40) - (fval (nofZ 10) + 3 / 2 * (1 / 2 * (100 + 1 * (60 * -1 + 0 * 0))))) = 0).
      rewrite F40, F10. rewrite Rabs_pos_eq; lra.
  - unfold describes, arrangement_ok, polarcam_angles; cbn [p0 p45 pm45 p90 map fst].
    repeat split; try lia; try (repeat constructor; cbn; intuition lia); cbn; auto.
  - intros Y X _ _. split; [split; lra|]. repeat split.
  - exists c, f, s. split; [exact Ec|]. split; [exact Ef|]. split; [exact Es|]. split.
    + specialize (Hs 0%Z 0%Z ltac:(split; reflexivity || discriminate) ltac:(split; reflexivity || discriminate)). cbv zeta in Hs. rewrite G in Hs.
      replace (2 * (1 * (0 / (1 / 2))) + 2 * row_error eps * (1 * 100 + 1 * (0 / (1 / 2))) + powerRZ 2 (-1075)) with (2 * row_error eps * 100 + powerRZ 2 (-1075)) in Hs by field.
      rewrite !Rmult_1_l in Hs. exact Hs.
    + assert (K : (let* c := dark_data counts4 dark4 in let* f := flat_data_with (nofZ 200) junk c flat4 in
        on_ok (fun s => (cell (sI s) 0%Z 0%Z, cell (sQ s) 0%Z 0%Z, cell (sU s) 0%Z 0%Z)) (data_stokes polarcam_angles f)) = Ok (nofZ 100, nofZ 60, nofZ 0)) by (vm_compute; reflexivity).
      rewrite Ec in K. cbn [bind] in K. rewrite Ef in K. cbn [bind] in K. rewrite Es in K. cbn [on_ok] in K. injection K as K1 K2 K3. auto.
Qed.
