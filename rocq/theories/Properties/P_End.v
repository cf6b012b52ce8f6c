(** C150: from counts through a calibrated demodulator to the Stokes parameters and the polarization of the light, in binary64. *)
From Coq Require Import Reals Lra Lia Floats.SpecFloat.
From Verif Require Import Base.Base Base.Num Base.Bcast Model.Utils Model.Stokes Model.Pol Model.PolFloat Model.Demodulate Model.FlatFloat Model.MeanFloat Model.DemodFit
  Spec.AngleSpec Spec.FloatSpec Spec.SumSpec Spec.DemodSpec Spec.FitSpec Spec.CorrectSpec Spec.MeanSpec Spec.ObserveSpec Spec.AngleErr Spec.PolErrSpec Spec.EndSpec
  Proofs.ExactFacts Proofs.InvertFacts Proofs.RoundImages Proofs.CorrectFloatFacts Proofs.AngleErrFacts Proofs.PolErrFacts Proofs.EndFacts Properties.P_ObserveFloat.
From Verif Require Import Spec.PixelSpec Spec.NearSpec Spec.MosaicSpec.
Local Open Scope R_scope.

(** A matrix whose entries are off by [dm] undoes the micropolarizers up to twice that. *)
Theorem C150_inverse q (P M : Z -> Z -> R) dm :
  (forall k, (0 <= k < 4)%Z -> polarizer (f4 q k)) ->
  pseudo_inverse (entry43 (modulation_of q)) P -> rank3 (entry43 (modulation_of q)) ->
  (forall i k, (0 <= i < 3)%Z -> (0 <= k < 4)%Z -> Rabs (M i k - P i k) <= dm) ->
  undoes (2 * dm) (entry43 (modulation_of q)) M.
Proof. exact (c150_inverse q P M dm). Qed.
Print Assumptions C150_inverse.

(** The Stokes parameters: errors of the matrix, of the micropolarizers, of the counts and of all roundings together *)
Theorem C150_stokes (m : b64) eps junk (dd : demodulator b64) (data dark flat : arr b64) old n gain low bright noise p I Q U h w :
  same_shape data dark -> same_shape data flat -> (0 <= n < 2 ^ 53)%Z -> counts n data -> counts n dark -> sensible flat ->
  FloatSpec.within eps m (amean (values flat)) -> moderate (fval m) -> 0 <= eps <= / 2 ->
  mosaic data -> (0 < rows data)%Z -> (0 < cols data)%Z -> rows gain = rows data -> cols gain = cols data ->
  flat_of low bright gain (values flat) -> observed noise p gain (values dark) (values data) I Q U ->
  h = (rows data / 2)%Z -> w = (cols data / 2)%Z -> t_rows (mij dd) = h -> t_cols (mij dd) = w -> tensor_bounded (powerRZ 2 300) (mij dd) ->
  (forall f, fit_found_flags dd = Some f ->
     (rows f = h /\ cols f = w) /\ (rows (sI old) = h /\ cols (sI old) = w) /\
     (rows (sQ old) = h /\ cols (sQ old) = w) /\ (rows (sU old) = h /\ cols (sU old) = w)) ->
  (forall Y X, (0 <= Y < h)%Z -> (0 <= X < w)%Z -> light (I Y X) (Q Y X) (U Y X) /\ forall k, (0 <= k < 4)%Z -> polarizer (f4 (p Y X) k)) ->
  0 < mean_of gain /\
  exists c f s, dark_data data dark = Ok c /\ flat_data_with m junk c flat = Ok f /\ demod_raw dd f old = Ok s /\
    forall Y X q dl dt de df, (0 <= Y < h)%Z -> (0 <= X < w)%Z ->
      (forall f, fit_found_flags dd = Some f -> neqb (cell f Y X) n1 = true) ->
      let M i j := fval (t_cell (mij dd) i j Y X) in
      undoes dl (entry43 (modulation_of q)) M ->
      (forall k, (0 <= k < 4)%Z -> polarizer (f4 q k) /\ near dt de df (f4 (p Y X) k) (f4 q k)) ->
      let g := mean_of gain in
      let e i := g * light_error dl (dt + de / 2 + df) (noise / low) (row_error eps) (I Y X) M i + powerRZ 2 (-1070) in
      off_by (e 0%Z) (cell (sI s) Y X) (g * I Y X) /\ off_by (e 1%Z) (cell (sQ s) Y X) (g * Q Y X) /\ off_by (e 2%Z) (cell (sU s) Y X) (g * U Y X).
Proof. exact (c150_stokes m eps junk dd data dark flat old n gain low bright noise p I Q U h w). Qed.
Print Assumptions C150_stokes.

(** Polarization; the gain multiplies pB and leaves DoLP and AoLP alone *)
Theorem C150_light eps2 at2 (m : b64) eps junk (dd : demodulator b64) (data dark flat : arr b64) old n gain low bright noise p I Q U h w :
  same_shape data dark -> same_shape data flat -> (0 <= n < 2 ^ 53)%Z -> counts n data -> counts n dark -> sensible flat ->
  FloatSpec.within eps m (amean (values flat)) -> moderate (fval m) -> 0 <= eps <= / 2 ->
  mosaic data -> (0 < rows data)%Z -> (0 < cols data)%Z -> rows gain = rows data -> cols gain = cols data ->
  flat_of low bright gain (values flat) -> observed noise p gain (values dark) (values data) I Q U ->
  h = (rows data / 2)%Z -> w = (cols data / 2)%Z -> t_rows (mij dd) = h -> t_cols (mij dd) = w -> tensor_bounded (powerRZ 2 300) (mij dd) ->
  (forall f, fit_found_flags dd = Some f ->
     (rows f = h /\ cols f = w) /\ (rows (sI old) = h /\ cols (sI old) = w) /\
     (rows (sQ old) = h /\ cols (sQ old) = w) /\ (rows (sU old) = h /\ cols (sU old) = w)) ->
  (forall Y X, (0 <= Y < h)%Z -> (0 <= X < w)%Z -> light (I Y X) (Q Y X) (U Y X) /\ forall k, (0 <= k < 4)%Z -> polarizer (f4 (p Y X) k)) ->
  exists c f s, dark_data data dark = Ok c /\ flat_data_with m junk c flat = Ok f /\ demod_raw dd f old = Ok s /\
    forall Y X q dl dt de df, (0 <= Y < h)%Z -> (0 <= X < w)%Z ->
      (forall f, fit_found_flags dd = Some f -> neqb (cell f Y X) n1 = true) ->
      let M i j := fval (t_cell (mij dd) i j Y X) in
      undoes dl (entry43 (modulation_of q)) M ->
      (forall k, (0 <= k < 4)%Z -> polarizer (f4 q k) /\ near dt de df (f4 (p Y X) k) (f4 q k)) ->
      let g := mean_of gain in
      let e i := g * light_error dl (dt + de / 2 + df) (noise / low) (row_error eps) (I Y X) M i + powerRZ 2 (-1070) in
      let l := scene h w I Q U in let r := scene h w (fun Y X => g * I Y X) (fun Y X => g * Q Y X) (fun Y X => g * U Y X) in
      g * I Y X + e 1%Z <= powerRZ 2 460 -> g * I Y X + e 2%Z <= powerRZ 2 460 ->
      polarization_known eps2 at2 s r Y X (e 0%Z) (e 1%Z + e 2%Z) /\
      0 < g /\ cell (pB r) Y X = g * cell (pB l) Y X /\ cell (DoLP r) Y X = cell (DoLP l) Y X /\ cell (AoLP r) Y X = cell (AoLP l) Y X.
Proof. exact (c150_light eps2 at2 m eps junk dd data dark flat old n gain low bright noise p I Q U h w). Qed.
Print Assumptions C150_light.

(** The counts of C127 through a matrix whose second row is off by a thousandth. *)
Definition worn_matrix : demodulator b64 := mkdemodulator (mktensor 1 1 (fun i j _ _ =>
  if (i =? 0)%Z then nhalf else if (i =? 1)%Z then (if (j =? 0)%Z then ndiv (nofZ 1025) (nofZ 1024) else if (j =? 3)%Z then nofZ (-1) else nofZ 0)
  else if (j =? 1)%Z then nofZ 1 else if (j =? 2)%Z then nofZ (-1) else nofZ 0)) None.

Lemma worn_values i j : (0 <= i < 3)%Z -> (0 <= j < 4)%Z -> is_binary64 (t_cell (mij worn_matrix) i j 0 0) /\ finite64 (t_cell (mij worn_matrix) i j 0 0) /\
  fval (t_cell (mij worn_matrix) i j 0 0) = entry34 ideal_inverse i j + (if ((i =? 1) && (j =? 0))%Z%bool then / 1024 else 0).
Proof.
  intros Hi Hj.
  assert (A : is_value (ndiv (nofZ 1025) (nofZ 1024)) (1025 / 1024)).
  { replace (ndiv (nofZ 1025) (nofZ 1024)) with (S754_finite false 4507997673881600 (-52)) by (vm_compute; reflexivity).
    split; [reflexivity|]. split; [reflexivity|]. unfold fval. change (powerRZ 2 (-52)) with (/ (2 ^ 52)). lra. }
  assert (H : is_value nhalf (/ 2)).
  { replace (@nhalf b64 _) with (S754_finite false 4503599627370496 (-53)) by (vm_compute; reflexivity). split; [reflexivity|]. split; [reflexivity|]. unfold fval. change (powerRZ 2 (-53)) with (/ (2 ^ 53)). lra. }
  assert (O := ofZ_value 1 eq_refl). assert (Mi := ofZ_value (-1) eq_refl). assert (Z0 := ofZ_value 0 eq_refl).
  assert (i = 0 \/ i = 1 \/ i = 2)%Z as [-> |[-> | ->]] by lia; assert (j = 0 \/ j = 1 \/ j = 2 \/ j = 3)%Z as [-> |[-> |[-> | ->]]] by lia;
    cbn [worn_matrix mij t_cell Z.eqb Pos.eqb andb]; unfold entry34, ideal_inverse; cbn [f4 f_0 f_1 f_2 f_3 fst snd Z.eqb Pos.eqb];
    [destruct H as (B1 & B2 & B3)|destruct H as (B1 & B2 & B3)|destruct H as (B1 & B2 & B3)|destruct H as (B1 & B2 & B3)
    |destruct A as (B1 & B2 & B3)|destruct Z0 as (B1 & B2 & B3)|destruct Z0 as (B1 & B2 & B3)|destruct Mi as (B1 & B2 & B3)
    |destruct Z0 as (B1 & B2 & B3)|destruct O as (B1 & B2 & B3)|destruct Mi as (B1 & B2 & B3)|destruct Z0 as (B1 & B2 & B3)];
    (split; [exact B1|]; split; [exact B2|]; refine (eq_trans B3 _); lra).
Qed.

Example C150_case junk :
  undoes (/ 512) (entry43 (modulation_of ideal_params)) (fun i j => fval (t_cell (mij worn_matrix) i j 0 0)) /\
  exists c f old s, dark_data counts4 dark4 = Ok c /\ flat_data_with (mean_in_order pairs4 4) junk c flat4 = Ok f /\ data_stokes polarcam_angles f = Ok old /\ demod_raw worn_matrix f old = Ok s /\
    off_by (7 / 10) (cell (sI s) 0 0) 100 /\ off_by (7 / 10) (cell (sQ s) 0 0) 60 /\ off_by (7 / 10) (cell (sU s) 0 0) 0 /\
    off_by (3 / 2) (cell (pB s) 0 0) 60 /\ cell (sQ s) 0%Z 0%Z <> nofZ 60.
Proof.
  assert (HU : undoes (/ 512) (entry43 (modulation_of ideal_params)) (fun i j => fval (t_cell (mij worn_matrix) i j 0 0))).
  { replace (/ 512) with (2 * / 1024) by lra. apply (C150_inverse ideal_params (entry34 ideal_inverse)).
    - intros k Hk. assert (k = 0 \/ k = 1 \/ k = 2 \/ k = 3)%Z as [-> |[-> |[-> | ->]]] by lia; split; cbn; lra.
    - exact ideal_pseudo.
    - exact ideal_rank3.
    - intros i k Hi Hk. destruct (worn_values i k Hi Hk) as (_ & _ & E). rewrite E. destruct ((i =? 1) && (k =? 0))%Z%bool; rewrite Rabs_pos_eq; lra. }
  split; [exact HU|].
  destruct (C127_case junk) as (c & f & old & Ec & Ef & Eo & _). destruct C127_order as (O & S & P & _ & E & W).
  assert (G : mean_of gain4 = 1) by (change (mean_of gain4) with ((1 / 2 + (1 + 0) + (1 + (3 / 2 + 0) + 0)) / 4); lra).
  assert (V50 := ofZ_value 50 eq_refl). assert (V60 := ofZ_value 60 eq_refl). assert (V40 := ofZ_value 40 eq_refl). assert (V10 := ofZ_value 10 eq_refl).
  assert (V1 := ofZ_value 100 eq_refl). assert (V2 := ofZ_value 200 eq_refl). assert (V3 := ofZ_value 300 eq_refl).
  assert (F50 : fval (nofZ 50) = 50) by exact (value_val _ _ V50). assert (F60 : fval (nofZ 60) = 60) by exact (value_val _ _ V60). assert (F40 : fval (nofZ 40) = 40) by exact (value_val _ _ V40). assert (F10 : fval (nofZ 10) = 10) by exact (value_val _ _ V10). assert (F100 : fval (nofZ 100) = 100) by exact (value_val _ _ V1). assert (F200 : fval (nofZ 200) = 200) by exact (value_val _ _ V2). assert (F300 : fval (nofZ 300) = 300) by exact (value_val _ _ V3).
  set (eps := INR 3 * powerRZ 2 (-52)) in *.
  destruct (C150_stokes (nofZ 200) eps junk worn_matrix counts4 dark4 flat4 old 100 gain4 (1 / 2) 200 0
    (fun _ _ => ideal_params) (fun _ _ => 100) (fun _ _ => 60) (fun _ _ => 0) 1 1) as (_ & c' & f' & s & Ec' & Ef' & Es & Hs).
  - split; reflexivity.
  - split; reflexivity.
  - lia.
  - unfold counts. apply cells4; eexists; (split; [|first [exact V50|exact V60|exact V40]]); lia.
  - unfold counts. apply cells4; eexists; (split; [|exact V10]); lia.
  - exact S.
  - exact W.
  - replace (fval (nofZ 200)) with 200 by (symmetry; exact F200). apply moderate_count. lia.
  - unfold eps. cbn [INR]. assert (B : 0 <= powerRZ 2 (-52) <= powerRZ 2 (-4)) by (split; [left; apply powerRZ_lt; lra|apply power_le; lia]).
    change (powerRZ 2 (-4)) with (/ (2 ^ 4)) in B. lra.
  - repeat split; cbn; try lia; reflexivity.
  - reflexivity.
  - reflexivity.
  - reflexivity.
  - reflexivity.
  - split; [lra|]. split; [lra|]. change (rows (values flat4)) with 2%Z. change (cols (values flat4)) with 2%Z. apply cells4; (split; [cbn; lra|]).
    + change (fval (nofZ 100) = 1 / 2 * 200). rewrite F100. lra.
    + change (fval (nofZ 200) = 1 * 200). rewrite F200. lra.
    + change (fval (nofZ 200) = 1 * 200). rewrite F200. lra.
    + change (fval (nofZ 300) = 3 / 2 * 200). rewrite F300. lra.
  - intros Y X k HY HX Hk. cbv zeta. assert (Y = 0 /\ X = 0)%Z as (-> & ->) by (change (rows (values counts4) / 2)%Z with 1%Z in HY; change (cols (values counts4) / 2)%Z with 1%Z in HX; lia).
    right. assert (k = 0 \/ k = 1 \/ k = 2 \/ k = 3)%Z as [-> |[-> |[-> | ->]]] by lia;
      unfold recorded, p_t, p_e, p_phi; cbn [f4 ideal_params f_0 f_1 f_2 f_3 fst snd Z.eqb Pos.eqb].
    + rewrite Rmult_0_r, cos_0, sin_0. change (Rabs (fval (nofZ 50) - (fval (nofZ 10) + 1 / 2 * (1 / 2 * (100 + 1 * (60 * 1 + 0 * 0))))) = 0).
      rewrite F50, F10. rewrite Rabs_pos_eq; lra.
    + replace (2 * (PI / 4)) with (PI / 2) by lra. rewrite cos_PI2, sin_PI2. change (Rabs (fval (nofZ 60) - (fval (nofZ 10) + 1 * (1 / 2 * (100 + 1 * (60 * 0 + 0 * 1))))) = 0).
      rewrite F60, F10. rewrite Rabs_pos_eq; lra.
    + replace (2 * - (PI / 4)) with (- (PI / 2)) by lra. rewrite cos_neg, sin_neg, cos_PI2, sin_PI2. change (Rabs (fval (nofZ 60) - (fval (nofZ 10) + 1 * (1 / 2 * (100 + 1 * (60 * 0 + 0 * - (1)))))) = 0).
      rewrite F60, F10. rewrite Rabs_pos_eq; lra.
    + replace (2 * (PI / 2)) with PI by lra. rewrite cos_PI, sin_PI. change (Rabs (fval (nofZ 40) - (fval (nofZ 10) + 3 / 2 * (1 / 2 * (100 + 1 * (60 * -1 + 0 * 0))))) = 0).
      rewrite F40, F10. rewrite Rabs_pos_eq; lra.
  - reflexivity.
  - reflexivity.
  - reflexivity.
  - reflexivity.
  - intros i j Y X Hi Hj HY HX. assert (Y = 0 /\ X = 0)%Z as (-> & ->) by (cbn in HY, HX; lia).
    destruct (worn_values i j Hi Hj) as (B1 & B2 & B3). split; [exact B1|]. split; [exact B2|]. rewrite B3.
    apply Rle_trans with (powerRZ 2 1); [|apply power_le; lia]. change (powerRZ 2 1) with (2 * 1). apply Rabs_le.
    assert (i = 0 \/ i = 1 \/ i = 2)%Z as [-> |[-> | ->]] by lia; assert (j = 0 \/ j = 1 \/ j = 2 \/ j = 3)%Z as [-> |[-> |[-> | ->]]] by lia; cbn; lra.
  - intros g Eg. discriminate Eg.
  - intros Y X _ _. split; [split; lra|]. intros k Hk. assert (k = 0 \/ k = 1 \/ k = 2 \/ k = 3)%Z as [-> |[-> |[-> | ->]]] by lia; split; cbn; lra.
  - rewrite E in Ef. rewrite E. rewrite Ec in Ec'. injection Ec' as <-. rewrite Ef in Ef'. injection Ef' as <-.
    exists c, f, old, s. split; [exact Ec|]. split; [exact Ef|]. split; [exact Eo|]. split; [exact Es|].
    specialize (Hs 0%Z 0%Z ideal_params (/ 512) 0 0 0 ltac:(lia) ltac:(lia)). cbv zeta in Hs. rewrite G, !Rmult_1_l in Hs.
    destruct Hs as (VI & VQ & VU).
    { intros g Eg. discriminate Eg. }
    { exact HU. }
    { intros k Hk. split; [|repeat split; unfold Rminus; rewrite Rplus_opp_r, Rabs_R0; lra].
      assert (k = 0 \/ k = 1 \/ k = 2 \/ k = 3)%Z as [-> |[-> |[-> | ->]]] by lia; split; cbn; lra. }
    assert (P6 : 0 < powerRZ 2 (-1070) <= powerRZ 2 (-60)) by (split; [apply powerRZ_lt; lra|apply power_le; lia]). change (powerRZ 2 (-60)) with (/ (2 ^ 60)) in P6.
    assert (RS : forall i, (0 <= i < 3)%Z -> 0 <= row_sum (fun i j => fval (t_cell (mij worn_matrix) i j 0 0)) i <= 3).
    { intros i Hi. unfold row_sum, sum4.
      destruct (worn_values i 0 Hi ltac:(lia)) as (_ & _ & B0). destruct (worn_values i 1 Hi ltac:(lia)) as (_ & _ & B1).
      destruct (worn_values i 2 Hi ltac:(lia)) as (_ & _ & B2). destruct (worn_values i 3 Hi ltac:(lia)) as (_ & _ & B3). rewrite B0, B1, B2, B3.
      assert (i = 0 \/ i = 1 \/ i = 2)%Z as [-> |[-> | ->]] by lia; unfold entry34, ideal_inverse; cbn; unfold Rabs; repeat destruct Rcase_abs; lra. }
    assert (RE : 0 <= row_error eps <= / (2 ^ 30)).
    { unfold row_error, flat_error, eps. change (powerRZ 2 (-52)) with (/ (2 ^ 52)). change (powerRZ 2 (-51)) with (/ (2 ^ 51)). change (powerRZ 2 (-50)) with (/ (2 ^ 50)). cbn [INR]. lra. }
    assert (L : forall i, (0 <= i < 3)%Z -> light_error (/ 512) (0 + 0 / 2 + 0) (0 / (1 / 2)) (row_error eps) 100 (fun i j => fval (t_cell (mij worn_matrix) i j 0 0)) i + powerRZ 2 (-1070) <= 6 / 10).
    { intros i Hi. unfold light_error. specialize (RS i Hi). set (rs := row_sum _ i) in *.
      replace (rs * ((0 + 0 / 2 + 0) * 100 + 0 / (1 / 2) + row_error eps * (100 + 0 / (1 / 2)))) with (rs * row_error eps * 100) by field.
      assert (rs * row_error eps <= 3 * / (2 ^ 30)) by (apply Rmult_le_compat; lra). lra. }
    assert (Wk : forall i x v, (0 <= i < 3)%Z -> off_by (light_error (/ 512) (0 + 0 / 2 + 0) (0 / (1 / 2)) (row_error eps) 100 (fun i j => fval (t_cell (mij worn_matrix) i j 0 0)) i + powerRZ 2 (-1070)) x v -> off_by (7 / 10) x v).
    { intros i x v Hi (B1 & B2 & B3). split; [exact B1|]. split; [exact B2|]. refine (Rle_trans _ _ _ B3 _). specialize (L i Hi). lra. }
    apply (Wk 0%Z _ _ ltac:(lia)) in VI. apply (Wk 1%Z _ _ ltac:(lia)) in VQ. apply (Wk 2%Z _ _ ltac:(lia)) in VU.
    split; [exact VI|]. split; [exact VQ|]. split; [exact VU|]. split.
    + set (r := scene 1 1 (fun _ _ => 100) (fun _ _ => 60) (fun _ _ => 0)).
      assert (P10 : powerRZ 2 60 <= powerRZ 2 460) by (apply power_le; lia). change (powerRZ 2 60) with (2 ^ 60) in P10.
      destruct (c148_pixel (powerRZ 2 (-51)) some_arctan2 s r 0 0 (7 / 10) (7 / 10) (7 / 10) VI VQ VU) as (HP & _).
      * change (cell (sQ r) 0%Z 0%Z) with 60. rewrite Rabs_pos_eq; lra.
      * change (cell (sU r) 0%Z 0%Z) with 0. rewrite Rabs_R0; lra.
      * assert (E60 : cell (pB r) 0%Z 0%Z = 60) by (change (sqrt (60 * 60 + 0 * 0) = 60); rewrite Rmult_0_l, Rplus_0_r; apply sqrt_square; lra).
        rewrite E60 in HP. destruct HP as (B1 & B2 & B3). split; [exact B1|]. split; [exact B2|]. refine (Rle_trans _ _ _ B3 _).
        assert (P8 : powerRZ 2 (-520) <= powerRZ 2 (-60)) by (apply power_le; lia). change (powerRZ 2 (-60)) with (/ (2 ^ 60)) in P8.
        unfold pB_error. change (powerRZ 2 (-50)) with (/ (2 ^ 50)). lra.
    + assert (K : (let* c := dark_data counts4 dark4 in let* f := flat_data_with (nofZ 200) junk c flat4 in
        let* old := data_stokes polarcam_angles f in on_ok (fun s => cell (sQ s) 0%Z 0%Z) (demod_raw worn_matrix f old)) = Ok (ndiv (nofZ 61520) (nofZ 1024))) by (vm_compute; reflexivity).
      rewrite Ec in K. cbn [bind] in K. rewrite Ef in K. cbn [bind] in K. rewrite Eo in K. cbn [bind] in K. rewrite Es in K. cbn [on_ok] in K. injection K as K.
      rewrite K. vm_compute. discriminate.
Qed.
