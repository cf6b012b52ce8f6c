(** From exposures to Stokes parameters in binary64 (C127). *)
From Coq Require Import ZArith Reals Lra Lia Floats.SpecFloat.
From Flocq Require Import Core Relative BinarySingleNaN.
From Verif Require Import Base.Base Base.Num Base.Bcast Model.Utils Model.Stokes Model.Demodulate Model.FlatFloat Model.DemodFit
  Spec.MosaicSpec Spec.AngleSpec Spec.PixelSpec Spec.FloatSpec Spec.ImageSpec Spec.SumSpec Spec.StokesSpec Spec.CorrectSpec Spec.DemodSpec Spec.FitSpec Spec.NearSpec Spec.MeanSpec Spec.ObserveSpec
  Proofs.SumFacts Proofs.UtilFacts Proofs.StokesFacts Proofs.FloatFacts Proofs.ExactFacts Proofs.RoundFacts Proofs.RoundImages Proofs.RoundDemod Proofs.AnglesFloatFacts
  Proofs.CorrectFloatFacts Proofs.ObserveFacts.
From Verif Require Import Spec.MosaicSpec.
Local Open Scope R_scope.

#[local] Existing Instance Hprec.
#[local] Existing Instance Hmax.
#[local] Existing Instance fexp64_valid.
#[local] Existing Instance fexp64_mono.

Lemma count_zero_or_moderate n : (0 <= n < 2 ^ 53)%Z -> IZR n = 0 \/ moderate (IZR n).
Proof.
  intros Hn. destruct (Z.eq_dec n 0) as [->|N]; [left; reflexivity|right]. unfold moderate.
  pose proof (IZR_le 1 n ltac:(lia)) as L. rewrite Rabs_pos_eq by lra. split.
  - apply Rle_trans with (powerRZ 2 0); [apply power_le; lia|change (powerRZ 2 0) with 1; lra].
  - apply Rle_trans with (powerRZ 2 53); [|apply power_le; lia]. rewrite <- (bpow_powerRZ radix2), <- (IZR_Zpower radix2) by lia.
    apply IZR_le. change (radix2 : Z) with 2%Z. lia.
Qed.

Lemma flat_error_bounds eps : 0 <= eps <= / 2 -> 0 <= flat_error eps <= 1.
Proof.
  intros E. unfold flat_error. assert (P : 0 <= powerRZ 2 (-51) <= / 4).
  { rewrite <- (bpow_powerRZ radix2). split; [apply bpow_ge_0|]. change (/ 4) with (bpow radix2 (-2)). apply bpow_le. lia. }
  assert (0 <= powerRZ 2 (-51) * (1 + eps)) by (apply Rmult_le_pos; lra).
  assert (powerRZ 2 (-51) * (1 + eps) <= / 4 * (1 + eps)) by (apply Rmult_le_compat_r; lra). lra.
Qed.

(** The corrected image, against the one computed with real numbers. *)
Lemma c127_corrected (m : b64) eps junk junk' (data dark flat : arr b64) n :
  same_shape data dark -> same_shape data flat -> (0 <= n < 2 ^ 53)%Z -> counts n data -> counts n dark -> sensible flat ->
  FloatSpec.within eps m (amean (values flat)) -> moderate (fval m) -> 0 <= eps <= / 2 ->
  exists c f cr fr, dark_data data dark = Ok c /\ flat_data_with m junk c flat = Ok f /\
    dark_data (values data) (values dark) = Ok cr /\ flat_data junk' cr (values flat) = Ok fr /\
    same_shape f data /\ rows fr = rows data /\ cols fr = cols data /\ bounded (powerRZ 2 655) f /\
    forall y x, (0 <= y < rows data)%Z -> (0 <= x < cols data)%Z -> FloatSpec.within (flat_error eps) (cell f y x) (cell fr y x).
Proof.
  intros Sd Sf Hn Cd Ck Hf Hw Hm He.
  destruct (c123_counts data dark n Hn Sd Cd Ck) as (c & Ec & (Rc & Cc) & Vc).
  destruct (c123_flat m (amean (values flat)) eps junk c flat) as (f & Ef & (Rf & Cf) & Vf); [split; destruct Sf; congruence|exact Hw|exact Hm|lra|].
  destruct Sd as (Sd1 & Sd2). destruct Sf as (Sf1 & Sf2). destruct Hw as (W1 & W2 & W3).
  assert (M0 : fval m <> 0).
  { intros Z. unfold moderate in Hm. rewrite Z, Rabs_R0 in Hm. pose proof (bpow_gt_0 radix2 (-300)) as B. rewrite (bpow_powerRZ radix2) in B. change (IZR radix2) with 2 in B. lra. }
  set (am := amean (values flat)) in *.
  assert (A2 : Rabs am <= 2 * Rabs (fval m)).
  { pose proof (Rabs_triang_inv am (fval m)) as T. rewrite (Rabs_minus_sym am) in T. pose proof (Rmult_le_compat_r (Rabs am) eps (/ 2) (Rabs_pos _) (proj2 He)). lra. }
  assert (A0 : am <> 0).
  { intros Z. rewrite Z, Rabs_R0, Rminus_0_r, Rmult_0_r in W3. pose proof (Rabs_pos_lt _ M0). lra. }
  destruct (dark_ok (values data) (values dark)) as (cr & Ecr & Rcr & Ccr & Vcr); [split; assumption|].
  change (rows cr = rows data) in Rcr. change (cols cr = cols data) in Ccr.
  destruct (flat_ok junk' cr (values flat)) as (fr & Efr & Rfr & Cfr & Vfr);
    [split; [change (rows (values flat)) with (rows flat)|change (cols (values flat)) with (cols flat)]; congruence|exact A0|].
  assert (Vx : forall y x, (0 <= y < rows data)%Z -> (0 <= x < cols data)%Z -> exists k, (0 <= k <= n)%Z /\ is_value (cell c y x) (IZR k) /\
    cell cr y x = IZR k /\ moderate (fval (cell flat y x)) /\ FloatSpec.within (flat_error eps) (cell f y x) (cell fr y x) /\
    cell fr y x = IZR k * am / fval (cell flat y x)).
  { intros y x Hy Hx. pose proof (Vc y x Hy Hx) as V. destruct (Cd y x Hy Hx) as (a & Ha & Va). destruct (Ck y x ltac:(congruence) ltac:(congruence)) as (b & Hb & Vb).
    pose proof (Vcr y x Hy Hx) as E. change (cell cr y x = Rmax (fval (cell data y x) - fval (cell dark y x)) 0) in E.
    rewrite (value_val _ _ Va), (value_val _ _ Vb) in V, E.
    assert (M : Rmax (IZR a - IZR b) 0 = IZR (Z.max (a - b) 0)).
    { rewrite <- minus_IZR. destruct (Z.le_ge_cases 0 (a - b)) as [L|L]; pose proof L as L'; apply IZR_le in L'.
      - rewrite Rmax_left, Z.max_l by (assumption || lra). reflexivity.
      - rewrite Rmax_right, Z.max_r by (assumption || lra). reflexivity. }
    rewrite M in V, E. exists (Z.max (a - b) 0). split; [lia|]. split; [exact V|]. split; [exact E|].
    destruct (Hf y x ltac:(congruence) ltac:(congruence)) as (F1 & F2 & F3). split; [exact F3|].
    assert (Z0 : fval (cell flat y x) <> 0).
    { intros Z. unfold moderate in F3. rewrite Z, Rabs_R0 in F3. pose proof (bpow_gt_0 radix2 (-300)) as B. rewrite (bpow_powerRZ radix2) in B. change (IZR radix2) with 2 in B. lra. }
    pose proof (Vfr y x ltac:(congruence) ltac:(congruence)) as G. change (cell (values flat) y x) with (fval (cell flat y x)) in G. rewrite E in G.
    destruct (Req_EM_T (fval (cell flat y x)) 0) as [Z|_]; [exfalso; exact (Z0 Z)|]. fold am in G.
    split; [|exact G]. rewrite G. destruct V as (V1 & V2 & V3). rewrite <- V3. apply Vf; try congruence.
    rewrite V3. apply count_zero_or_moderate. lia. }
  exists c, f, cr, fr. split; [exact Ec|]. split; [exact Ef|]. split; [exact Ecr|]. split; [exact Efr|]. split; [split; congruence|].
  split; [congruence|]. split; [congruence|]. pose proof (flat_error_bounds eps He) as [E0 E1]. split.
  - intros y x Hy Hx. destruct (Vx y x ltac:(congruence) ltac:(congruence)) as (k & Hk & _ & _ & F3 & (G1 & G2 & G3) & G4). split; [exact G1|]. split; [exact G2|].
    assert (B : Rabs (cell fr y x) <= powerRZ 2 654).
    { rewrite G4. apply moderate_bpow in F3, Hm. rewrite <- (bpow_powerRZ radix2). unfold Rdiv. rewrite !Rabs_mult, Rabs_inv.
      change 654%Z with (53 + 301 + 300)%Z. rewrite 2!bpow_plus.
      assert (K1 : Rabs (IZR k) <= bpow radix2 53) by (rewrite Rabs_pos_eq by (apply IZR_le; lia); rewrite <- (IZR_Zpower radix2) by lia; apply IZR_le; change (radix2 : Z) with 2%Z; lia).
      assert (K2 : Rabs am <= bpow radix2 301) by (change 301%Z with (1 + 300)%Z; rewrite bpow_plus; change (bpow radix2 1) with 2; lra).
      assert (K3 : / Rabs (fval (cell flat y x)) <= bpow radix2 300).
      { change 300%Z with (- -300)%Z. rewrite bpow_opp. apply Rinv_le; [apply bpow_gt_0|apply F3]. }
      apply Rmult_le_compat; [apply Rmult_le_pos; apply Rabs_pos| |apply Rmult_le_compat; try apply Rabs_pos; assumption|exact K3].
      left. apply Rinv_0_lt_compat. apply Rlt_le_trans with (2 := proj1 F3). apply bpow_gt_0. }
    assert (T : Rabs (fval (cell f y x)) <= Rabs (cell fr y x) + Rabs (fval (cell f y x) - cell fr y x)).
    { replace (fval (cell f y x)) with (cell fr y x + (fval (cell f y x) - cell fr y x)) at 1 by ring. apply Rabs_triang. }
    pose proof (Rmult_le_compat_r (Rabs (cell fr y x)) _ _ (Rabs_pos _) E1).
    replace (powerRZ 2 655) with (2 * powerRZ 2 654); [lra|]. rewrite <- !(bpow_powerRZ radix2). change 655%Z with (1 + 654)%Z. rewrite bpow_plus. reflexivity.
  - intros y x Hy Hx. destruct (Vx y x Hy Hx) as (k & _ & _ & _ & _ & G & _). exact G.
Qed.

(** ** Demodulation *)
Lemma row_near (M : Z -> Z -> b64) (v w : Z -> R) d i : (forall k, (0 <= k < 4)%Z -> Rabs (v k - w k) <= d * Rabs (w k)) -> 0 <= d ->
  Rabs (exact_row M v i - exact_row M w i) <= d * abs_row M (fun k => Rabs (w k)) i /\
  abs_row M (fun k => Rabs (v k)) i <= (1 + d) * abs_row M (fun k => Rabs (w k)) i.
Proof.
  intros H Hd. pose proof (H 0%Z ltac:(lia)) as H0. pose proof (H 1%Z ltac:(lia)) as H1. pose proof (H 2%Z ltac:(lia)) as H2. pose proof (H 3%Z ltac:(lia)) as H3. clear H.
  unfold exact_row, abs_row, row_product. cbn [nadd nmul Num_R].
  assert (T : forall a x y, Rabs (x - y) <= d * Rabs y -> Rabs (a * x - a * y) <= d * (Rabs a * Rabs y) /\ Rabs a * Rabs x <= (1 + d) * (Rabs a * Rabs y)).
  { intros a x y Hxy. rewrite <- Rmult_minus_distr_l, Rabs_mult. pose proof (Rmult_le_compat_l (Rabs a) _ _ (Rabs_pos a) Hxy) as K. split; [lra|].
    pose proof (Rabs_triang (x - y) y) as Q. replace (x - y + y) with x in Q by ring.
    pose proof (Rmult_le_compat_l (Rabs a) _ _ (Rabs_pos a) Q). lra. }
  destruct (T (fval (M i 0%Z)) _ _ H0) as [A0 B0]. destruct (T (fval (M i 1%Z)) _ _ H1) as [A1 B1].
  destruct (T (fval (M i 2%Z)) _ _ H2) as [A2 B2]. destruct (T (fval (M i 3%Z)) _ _ H3) as [A3 B3]. clear T.
  split; [|lra]. apply Rabs_le_inv in A0, A1, A2, A3. apply Rabs_le. lra.
Qed.

Lemma c127_demodulated (m : b64) eps junk junk' (dd : demodulator b64) (data dark flat : arr b64) old n h w :
  same_shape data dark -> same_shape data flat -> (0 <= n < 2 ^ 53)%Z -> counts n data -> counts n dark -> sensible flat ->
  FloatSpec.within eps m (amean (values flat)) -> moderate (fval m) -> 0 <= eps <= / 2 ->
  mosaic data -> h = (rows data / 2)%Z -> w = (cols data / 2)%Z -> t_rows (mij dd) = h -> t_cols (mij dd) = w -> tensor_bounded (powerRZ 2 300) (mij dd) ->
  (forall f, fit_found_flags dd = Some f ->
     (rows f = h /\ cols f = w) /\ (rows (sI old) = h /\ cols (sI old) = w) /\
     (rows (sQ old) = h /\ cols (sQ old) = w) /\ (rows (sU old) = h /\ cols (sU old) = w)) ->
  exists c f s cr fr, dark_data data dark = Ok c /\ flat_data_with m junk c flat = Ok f /\ demod_raw dd f old = Ok s /\
    dark_data (values data) (values dark) = Ok cr /\ flat_data junk' cr (values flat) = Ok fr /\
    forall Y X, (0 <= Y < h)%Z -> (0 <= X < w)%Z ->
      (forall f, fit_found_flags dd = Some f -> neqb (cell f Y X) n1 = true) ->
      let M i j := t_cell (mij dd) i j Y X in
      let off i x := off_by (row_error eps * abs_row M (fun k => Rabs (sample fr k Y X)) i + powerRZ 2 (-1070))
                       x (exact_row M (fun k => sample fr k Y X) i) in
      off 0%Z (cell (sI s) Y X) /\ off 1%Z (cell (sQ s) Y X) /\ off 2%Z (cell (sU s) Y X).
Proof.
  intros Sd Sf Hn Cd Ck Hf Hw Hm He Mo Eh Ew T1 T2 Tb Fl.
  destruct (c127_corrected m eps junk junk' data dark flat n Sd Sf Hn Cd Ck Hf Hw Hm He) as (c & f & cr & fr & Ec & Ef & Ecr & Efr & (Rf & Cf) & Rfr & Cfr & Bf & V).
  assert (Mf : mosaic f) by (apply (mosaic_like data f Mo); congruence).
  destruct (c105_raw dd f old h w (powerRZ 2 300) (powerRZ 2 655) Bf Tb) as (s & Es & Hs); try congruence; try assumption.
  { rewrite <- (bpow_powerRZ radix2). apply bpow_ge_0. }
  { rewrite <- (bpow_powerRZ radix2). apply bpow_ge_0. }
  { rewrite <- !(bpow_powerRZ radix2), <- bpow_plus. apply bpow_le. lia. }
  exists c, f, s, cr, fr. split; [exact Ec|]. split; [exact Ef|]. split; [exact Es|]. split; [exact Ecr|]. split; [exact Efr|].
  intros Y X HY HX Hfl M off. specialize (Hs Y X HY HX Hfl). cbv zeta in Hs.
  assert (K : forall i x, off_by (powerRZ 2 (-50) * abs_row M (fun k => sample (absolute f) k Y X) i + powerRZ 2 (-1070)) x (exact_row M (fun k => sample (values f) k Y X) i) -> off i x).
  { intros i x (B1 & B2 & B3). split; [exact B1|]. split; [exact B2|].
    destruct (row_near M (fun k => sample (values f) k Y X) (fun k => sample fr k Y X) (flat_error eps) i) as (N1 & N2).
    - intros k Hk. destruct (pixel_in data k Y X Mo ltac:(congruence) ltac:(congruence) Hk) as (P1 & P2). apply (V _ _ P1 P2).
    - apply flat_error_bounds, He.
    - change (abs_row M (fun k => Rabs (sample (values f) k Y X)) i) with (abs_row M (fun k => sample (absolute f) k Y X) i) in N2.
      assert (P : 0 <= powerRZ 2 (-50)) by (rewrite <- (bpow_powerRZ radix2); apply bpow_ge_0).
      pose proof (Rmult_le_compat_l _ _ _ P N2) as N3. unfold row_error.
      replace (fval x - exact_row M (fun k => sample fr k Y X) i) with
        ((fval x - exact_row M (fun k => sample (values f) k Y X) i) + (exact_row M (fun k => sample (values f) k Y X) i - exact_row M (fun k => sample fr k Y X) i)) by ring.
      apply Rle_trans with (1 := Rabs_triang _ _). lra. }
  destruct Hs as (H0 & H1 & H2). split; [apply K, H0|]. split; [apply K, H1|apply K, H2].
Qed.

(** ** Ideal micropolarizers: from the light to binary64 Stokes parameters *)
Lemma recorded_le (p : param3) I Q U : polarizer p -> light I Q U -> recorded (p_t p) (p_e p) (p_phi p) I Q U <= I.
Proof.
  intros (Ht & He) L. unfold recorded. pose proof (part_le I Q U (2 * p_phi p) L) as B. apply Rabs_le_inv in B. destruct L as (HI & _).
  set (v := Q * cos (2 * p_phi p) + U * sin (2 * p_phi p)) in *.
  assert (E : p_e p * v <= I).
  { destruct (Rle_lt_dec 0 v) as [Hv|Hv].
    - assert (p_e p * v <= 1 * v) by (apply Rmult_le_compat_r; lra). lra.
    - assert (0 <= p_e p * - v) by (apply Rmult_le_pos; lra). lra. }
  assert (E' : - I <= p_e p * v).
  { destruct (Rle_lt_dec 0 v) as [Hv|Hv].
    - assert (0 <= p_e p * v) by (apply Rmult_le_pos; lra). lra.
    - assert (p_e p * - v <= 1 * - v) by (apply Rmult_le_compat_r; lra). lra. }
  apply Rle_trans with (/ 2 * 1 * (I + I)); [|lra].
  replace (p_t p / 2) with (/ 2 * p_t p) by field.
  apply Rmult_le_compat; try lra.
Qed.

Lemma c127_light (m : b64) eps junk (data dark flat : arr b64) n dic a gain low bright noise p I Q U :
  same_shape data dark -> same_shape data flat -> (0 <= n < 2 ^ 53)%Z -> counts n data -> counts n dark -> sensible flat ->
  FloatSpec.within eps m (amean (values flat)) -> moderate (fval m) -> 0 <= eps <= / 2 ->
  mosaic data -> (0 < rows data)%Z -> (0 < cols data)%Z -> rows gain = rows data -> cols gain = cols data ->
  flat_of low bright gain (values flat) -> observed noise p gain (values dark) (values data) I Q U -> describes dic a ->
  (forall Y X, (0 <= Y < rows data / 2)%Z -> (0 <= X < cols data / 2)%Z ->
     light (I Y X) (Q Y X) (U Y X) /\
     f4 (p Y X) (p0 a) = (1, 1, 0) /\ f4 (p Y X) (p45 a) = (1, 1, PI / 4) /\
     f4 (p Y X) (pm45 a) = (1, 1, - (PI / 4)) /\ f4 (p Y X) (p90 a) = (1, 1, PI / 2)) ->
  exists c f s, dark_data data dark = Ok c /\ flat_data_with m junk c flat = Ok f /\ data_stokes dic f = Ok s /\
    forall Y X, (0 <= Y < rows data / 2)%Z -> (0 <= X < cols data / 2)%Z ->
      let g := mean_of gain in let v := g * (noise / low) in
      let e := 2 * v + 2 * row_error eps * (g * I Y X + v) + powerRZ 2 (-1075) in
      off_by e (cell (sI s) Y X) (g * I Y X) /\ off_by e (cell (sQ s) Y X) (g * Q Y X) /\ off_by e (cell (sU s) Y X) (g * U Y X).
Proof.
  intros Sd Sf Hn Cd Ck Hf Hw Hm He Mo H0 W0 Rg Cg HF HO HD HL. pose proof HD as (Ok4 & _). pose proof Ok4 as (R0 & R45 & Rm45 & R90 & _).
  set (junk' := fun _ _ : Z => 0).
  destruct (c127_corrected m eps junk junk' data dark flat n Sd Sf Hn Cd Ck Hf Hw Hm He) as (c & f & cr & fr & Ec & Ef & Ecr & Efr & (Rf & Cf) & Rfr & Cfr & Bf & V).
  assert (Mf : mosaic f) by (apply (mosaic_like data f Mo); congruence).
  assert (Mr : mosaic fr) by (apply (mosaic_like data fr Mo); congruence).
  assert (HP : forall Y X, (0 <= Y < rows data / 2)%Z -> (0 <= X < cols data / 2)%Z -> light (I Y X) (Q Y X) (U Y X) /\
    forall k, (0 <= k < 4)%Z -> polarizer (f4 (p Y X) k)).
  { intros Y X HY HX. destruct (HL Y X HY HX) as (L & A0 & A45 & Am45 & A90). split; [exact L|]. intros k Hk.
    assert (K : k = p0 a \/ k = p45 a \/ k = pm45 a \/ k = p90 a).
    { clear - Ok4 Hk. destruct a as [a b c d]; unfold arrangement_ok in Ok4; cbn [p0 p45 pm45 p90] in *. lia. }
    unfold polarizer. destruct K as [-> |[-> |[-> | ->]]]; rewrite ?A0, ?A45, ?Am45, ?A90; cbn; lra. }
  destruct (corrected junk' (values data) (values dark) (values flat) gain low bright noise p I Q U Mo Sd Sf (conj (eq_sym Rg) (eq_sym Cg)) H0 W0 HF HO HP)
    as (Gl & cr' & fr' & Ecr' & Efr' & _ & _ & Vr).
  rewrite Ecr in Ecr'. injection Ecr' as <-. rewrite Efr in Efr'. injection Efr' as <-.
  destruct (c121_ideal junk' dic a (values data) (values dark) (values flat) gain low bright noise p I Q U Mo Sd Sf (conj (eq_sym Rg) (eq_sym Cg)) H0 W0 HF HO HD HL)
    as (cr' & fr' & sr & Ecr' & Efr' & Esr & Ks).
  rewrite Ecr in Ecr'. injection Ecr' as <-. rewrite Efr in Efr'. injection Efr' as <-.
  destruct (data_stokes_spec dic a f HD Mf) as (s & Es & _ & _ & _ & Vs). rewrite Rf, Cf in Vs.
  destruct (data_stokes_spec dic a fr HD Mr) as (sr' & Esr' & _ & _ & _ & Vsr). rewrite Rfr, Cfr in Vsr. rewrite Esr in Esr'. injection Esr' as <-.
  assert (T655 : powerRZ 2 655 <= powerRZ 2 1019) by (apply power_le; lia).
  destruct (c103_stokes (powerRZ 2 655) f Bf Mf dic s T655 Es) as (r & ab & Er & Eab & OI & _).
  destruct (data_stokes_spec dic a (values f) HD Mf) as (r' & Er' & SI' & _ & _ & Vr'). rewrite Er in Er'. injection Er' as <-.
  destruct (data_stokes_spec dic a (absolute f) HD Mf) as (ab' & Eab' & _ & _ & _ & Vab). rewrite Eab in Eab'. injection Eab' as <-.
  change (rows (values f)) with (rows f) in *. change (cols (values f)) with (cols f) in *.
  change (rows (absolute f)) with (rows f) in *. change (cols (absolute f)) with (cols f) in *. rewrite Rf, Cf in *.
  exists c, f, s. split; [exact Ec|]. split; [exact Ef|]. split; [exact Es|]. intros Y X HY HX g v e.
  pose proof (flat_error_bounds eps He) as [e0 e1]. set (d := flat_error eps) in *.
  assert (B : forall k, (0 <= k < 4)%Z -> is_value (sample f k Y X) (fval (sample f k Y X)) /\
    Rabs (fval (sample f k Y X) - sample fr k Y X) <= d * Rabs (sample fr k Y X) /\ Rabs (sample fr k Y X) <= g * I Y X + v /\
    Rabs (fval (sample f k Y X)) <= powerRZ 2 655).
  { intros k Hk. destruct (pixel_in data k Y X Mo HY HX Hk) as (P1 & P2). destruct (V _ _ P1 P2) as (D1 & D2 & D3).
    split; [split; auto|]. split; [exact D3|]. split.
    - pose proof (Vr Y X k HY HX Hk) as E. cbv zeta in E. destruct (HP Y X HY HX) as (L & Pk). specialize (Pk k Hk).
      fold g in E. fold v in E. rewrite recorded_scale in E. pose proof (recorded_pos _ _ _ _ Pk L) as Rp. pose proof (recorded_le _ _ _ _ Pk L) as Rl.
      set (rec := recorded (p_t (f4 (p Y X) k)) (p_e (f4 (p Y X) k)) (p_phi (f4 (p Y X) k)) (I Y X) (Q Y X) (U Y X)) in *.
      assert (g0 : 0 <= g) by (destruct HF as (Hl & _); unfold g; lra).
      pose proof (Rmult_le_compat_l g _ _ g0 Rl) as G1. pose proof (Rmult_le_pos g rec g0 Rp) as G2.
      apply Rabs_le_inv in E. apply Rabs_le. lra.
    - apply (Bf (2 * Y + k / 2)%Z (2 * X + k mod 2)%Z); congruence. }
  set (W := g * I Y X + v) in *.
  assert (W1 : 0 <= W) by (destruct (B 0%Z ltac:(lia)) as (_ & _ & W1 & _); apply Rle_trans with (2 := W1), Rabs_pos).
  assert (B' : forall k, (0 <= k < 4)%Z -> is_value (sample f k Y X) (fval (sample f k Y X)) /\ Rabs (fval (sample f k Y X) - sample fr k Y X) <= d * W /\
    Rabs (fval (sample f k Y X)) <= (1 + d) * W /\ Rabs (fval (sample f k Y X)) <= powerRZ 2 655).
  { intros k Hk. destruct (B k Hk) as (B1 & B2 & B3 & B4). split; [exact B1|].
    assert (D : Rabs (fval (sample f k Y X) - sample fr k Y X) <= d * W) by (apply Rle_trans with (1 := B2), Rmult_le_compat_l; assumption).
    split; [exact D|]. split; [|exact B4]. pose proof (Rabs_triang (fval (sample f k Y X) - sample fr k Y X) (sample fr k Y X)) as T.
    replace (fval (sample f k Y X) - sample fr k Y X + sample fr k Y X) with (fval (sample f k Y X)) in T by ring. lra. }
  clear B. destruct (Vs Y X HY HX) as (EI & EQ & EU). destruct (Vsr Y X HY HX) as (EIr & EQr & EUr). destruct (Vr' Y X HY HX) as (EI' & _). destruct (Vab Y X HY HX) as (EIa & _).
  destruct (Ks Y X HY HX) as (KI & KQ & KU). fold g in KI, KQ, KU. fold v in KI, KQ, KU.
  cbn [nhalf nmul nadd nsub Num_R] in EIr, EQr, EUr, EI', EIa.
  assert (P50 : u <= powerRZ 2 (-50)) by (rewrite <- (bpow_powerRZ radix2); apply bpow_le; lia).
  assert (Pe : 0 <= powerRZ 2 (-1075)) by (rewrite <- (bpow_powerRZ radix2); apply bpow_ge_0). pose proof u_half as [U0 _].
  assert (D0 : 0 <= (1 + d) * W) by (apply Rmult_le_pos; lra).
  assert (Ee : e = 2 * v + 2 * (d * W) + 2 * (powerRZ 2 (-50) * ((1 + d) * W)) + powerRZ 2 (-1075)) by (unfold e, row_error; fold d; ring).
  split; [|assert (Diff : forall i j t, (0 <= i < 4)%Z -> (0 <= j < 4)%Z -> Rabs (sample fr i Y X - sample fr j Y X - t) <= 2 * v -> off_by e (sample f i Y X -! sample f j Y X) t)].
  - destruct SI' as (SI1 & SI2). destruct OI as (_ & _ & _ & _ & OI). rewrite SI1, SI2 in OI. destruct (OI Y X HY HX) as (O1 & O2 & O3). split; [exact O1|]. split; [exact O2|].
    rewrite EI', EIa in O3. rewrite EIr in KI.
    destruct (B' 0%Z ltac:(lia)) as (_ & D0' & A0 & _). destruct (B' 1%Z ltac:(lia)) as (_ & D1 & A1 & _). destruct (B' 2%Z ltac:(lia)) as (_ & D2 & A2 & _). destruct (B' 3%Z ltac:(lia)) as (_ & D3 & A3 & _).
    change (sample (values f) ?k Y X) with (fval (sample f k Y X)) in O3. change (sample (absolute f) ?k Y X) with (Rabs (fval (sample f k Y X))) in O3.
    set (x0 := fval (sample f 0 Y X)) in *. set (x1 := fval (sample f 1 Y X)) in *. set (x2 := fval (sample f 2 Y X)) in *. set (x3 := fval (sample f 3 Y X)) in *.
    assert (S4 : / 2 * (Rabs x0 + Rabs x1 + Rabs x2 + Rabs x3) <= 2 * ((1 + d) * W)) by lra.
    assert (P0 : 0 <= powerRZ 2 (-50)) by lra. pose proof (Rmult_le_compat_l _ _ _ P0 S4) as S5.
    rewrite Ee. apply Rabs_le_inv in O3, KI, D0', D1, D2, D3. apply Rabs_le. lra.
  - intros i j t Hi Hj Ht. destruct (B' i Hi) as (V1 & D1 & A1 & L1). destruct (B' j Hj) as (V2 & D2 & A2 & L2).
    assert (Top : Rabs (fval (sample f i Y X) - fval (sample f j Y X)) <= huge).
    { apply Rle_trans with (powerRZ 2 656); [|rewrite <- (bpow_powerRZ radix2); apply bpow_le; lia].
      replace (powerRZ 2 656) with (powerRZ 2 655 + powerRZ 2 655).
      - unfold Rminus. apply Rle_trans with (1 := Rabs_triang _ _). rewrite Rabs_Ropp. lra.
      - rewrite <- !(bpow_powerRZ radix2). change 656%Z with (1 + 655)%Z. rewrite bpow_plus. change (bpow radix2 1) with 2. ring. }
    destruct (sub_value _ _ _ _ V1 V2 (rnd_huge _ Top)) as (W2 & W3 & W4). split; [exact W2|]. split; [exact W3|]. rewrite W4.
    pose proof (rnd_sum (fval (sample f i Y X)) (- fval (sample f j Y X)) (value_fmt _ _ V1) (generic_format_opp _ _ _ (value_fmt _ _ V2))) as S.
    change (fval (sample f i Y X) + - fval (sample f j Y X)) with (fval (sample f i Y X) - fval (sample f j Y X)) in S.
    set (x := fval (sample f i Y X)) in *. set (y := fval (sample f j Y X)) in *.
    assert (Ab : Rabs (x - y) <= 2 * ((1 + d) * W)) by (unfold Rminus; apply Rle_trans with (1 := Rabs_triang _ _); rewrite Rabs_Ropp; lra).
    assert (S' : Rabs (rnd (x - y) - (x - y)) <= powerRZ 2 (-50) * (2 * ((1 + d) * W))) by (apply Rle_trans with (1 := S), Rmult_le_compat; [lra|apply Rabs_pos|exact P50|exact Ab]).
    rewrite Ee. apply Rabs_le_inv in S', Ht, D1, D2. apply Rabs_le. lra.
  - rewrite EQ, EU. rewrite EQr in KQ. rewrite EUr in KU. split; apply Diff; assumption.
Qed.
