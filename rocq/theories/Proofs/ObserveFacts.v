(** From exposures to Stokes parameters (C121). *)
From Coq Require Import Reals Lra Lia.
From Flocq Require Import Core.Raux.
From Verif Require Import Base.Base Base.Num Base.Bcast Model.Utils Model.Stokes Model.Pol Model.DemodFit Model.Demodulate
  Spec.MosaicSpec Spec.SumSpec Spec.PixelSpec Spec.StokesSpec Spec.DemodSpec Spec.FitSpec Spec.NearSpec Spec.AngleErr Spec.ObserveSpec
  Proofs.SumFacts Proofs.UtilFacts Proofs.StokesFacts Proofs.PolFacts Proofs.InvertFacts Proofs.NearFacts Proofs.AngleErrFacts.
Local Open Scope R_scope.

Lemma recorded_scale c t e phi I Q U : recorded t e phi (c * I) (c * Q) (c * U) = c * recorded t e phi I Q U.
Proof. unfold recorded. ring. Qed.

Lemma part_le I Q U phi : light I Q U -> Rabs (Q * cos phi + U * sin phi) <= I.
Proof.
  intros (HI & HQU). rewrite <- (Rabs_pos_eq I HI). apply Rsqr_le_abs_0.
  pose proof (sin2_cos2 phi) as T. unfold Rsqr in *.
  assert (K : (Q * cos phi + U * sin phi) * (Q * cos phi + U * sin phi) + (Q * sin phi - U * cos phi) * (Q * sin phi - U * cos phi) =
    (Q * Q + U * U) * (sin phi * sin phi + cos phi * cos phi)) by ring. rewrite T, Rmult_1_r in K.
  pose proof (Rle_0_sqr (Q * sin phi - U * cos phi)) as N. unfold Rsqr in N. lra.
Qed.
Lemma recorded_pos (p : param3) I Q U : polarizer p -> light I Q U -> 0 <= recorded (p_t p) (p_e p) (p_phi p) I Q U.
Proof.
  intros (Ht & He) L. unfold recorded. apply Rmult_le_pos; [lra|]. pose proof (part_le I Q U (2 * p_phi p) L) as B.
  apply Rabs_le_inv in B. destruct L as (HI & _). set (v := Q * cos (2 * p_phi p) + U * sin (2 * p_phi p)) in *.
  assert (- I <= p_e p * v); [|lra]. destruct (Rle_lt_dec 0 v) as [Hv|Hv].
  - assert (0 <= p_e p * v) by (apply Rmult_le_pos; lra). lra.
  - assert (p_e p * - v <= 1 * - v) by (apply Rmult_le_compat_r; lra). lra.
Qed.

Lemma mosaic_like {A B} (a : arr A) (b : arr B) : mosaic a -> rows b = rows a -> cols b = cols a -> mosaic b.
Proof. unfold mosaic. intros M -> ->. exact M. Qed.

Lemma pixel_in {A} (d : arr A) k Y X : mosaic d -> (0 <= Y < rows d / 2)%Z -> (0 <= X < cols d / 2)%Z -> (0 <= k < 4)%Z ->
  (0 <= 2 * Y + k / 2 < rows d)%Z /\ (0 <= 2 * X + k mod 2 < cols d)%Z.
Proof. intros (A1 & A2 & A3 & A4) HY HX Hk. split; Z.to_euclidean_division_equations; lia. Qed.

Lemma mean_scaled gain flat bright : (forall y x, (0 <= y < rows flat)%Z -> (0 <= x < cols flat)%Z -> cell flat y x = cell gain y x * bright) ->
  rows gain = rows flat -> cols gain = cols flat -> amean flat = bright * mean_of gain.
Proof.
  intros E R C. unfold amean, mean_of. rewrite R, C. rewrite (rsum2_ext _ _ (cell flat) (fun y x => bright * cell gain y x)).
  - rewrite rsum2_scal. unfold Rdiv. ring.
  - intros y x Hy Hx. rewrite E by assumption. ring.
Qed.
Lemma mean_pos gain low h w : rows gain = h -> cols gain = w -> (1 <= h)%Z -> (1 <= w)%Z -> 0 < low ->
  (forall y x, (0 <= y < h)%Z -> (0 <= x < w)%Z -> low <= cell gain y x) -> low <= mean_of gain.
Proof.
  intros Rg Cg Hh Hw Hl HG. unfold mean_of. rewrite Rg, Cg.
  assert (P : 0 < IZR (h * w)) by (apply IZR_lt; lia).
  apply Rmult_le_reg_r with (1 := P). unfold Rdiv. rewrite Rmult_assoc, Rinv_l, Rmult_1_r by lra.
  apply Rle_trans with (rsum2 h w (fun _ _ => low)).
  - unfold rsum2. rewrite (rsum_ext h _ (fun _ => IZR w * low)) by (intros; apply rsum_const; lia). rewrite rsum_const by lia.
    rewrite mult_IZR. lra.
  - unfold rsum2. apply rsum_le. intros y Hy. apply rsum_le. intros x Hx. apply HG; assumption.
Qed.

(** Dark and flat corrections leave the light times the mean sensitivity. *)
Lemma corrected junk raw dark flat gain low bright noise p I Q U :
  mosaic raw -> same_shape raw dark -> same_shape raw flat -> same_shape raw gain -> (0 < rows raw)%Z -> (0 < cols raw)%Z ->
  flat_of low bright gain flat -> observed noise p gain dark raw I Q U ->
  (forall Y X, (0 <= Y < rows raw / 2)%Z -> (0 <= X < cols raw / 2)%Z ->
     light (I Y X) (Q Y X) (U Y X) /\ forall k, (0 <= k < 4)%Z -> polarizer (f4 (p Y X) k)) ->
  low <= mean_of gain /\
  exists d f, dark_data raw dark = Ok d /\ flat_data junk d flat = Ok f /\ rows f = rows raw /\ cols f = cols raw /\
    forall Y X k, (0 <= Y < rows raw / 2)%Z -> (0 <= X < cols raw / 2)%Z -> (0 <= k < 4)%Z ->
      let q := f4 (p Y X) k in let g := mean_of gain in
      Rabs (sample f k Y X - recorded (p_t q) (p_e q) (p_phi q) (g * I Y X) (g * Q Y X) (g * U Y X)) <= g * (noise / low).
Proof.
  intros M (Sd1 & Sd2) (Sf1 & Sf2) (Sg1 & Sg2) H0 W0 (Hl & Hb & HF) HO HL.
  assert (G : low <= mean_of gain).
  { apply (mean_pos gain low (rows raw) (cols raw)); try congruence; try lia; try lra. intros y x Hy Hx. apply (HF y x); congruence. }
  split; [exact G|].
  destruct (dark_ok raw dark) as (d & Ed & Rd & Cd & Vd); [split; congruence|].
  assert (Am : amean flat = bright * mean_of gain).
  { apply mean_scaled; [|congruence|congruence]. intros y x Hy Hx. apply (HF y x Hy Hx). }
  assert (Ap : 0 < bright * mean_of gain) by (apply Rmult_lt_0_compat; lra).
  destruct (flat_ok junk d flat) as (f & Ef & Rf & Cf & Vf); [split; congruence|lra|].
  exists d, f. split; [exact Ed|]. split; [exact Ef|]. split; [congruence|]. split; [congruence|].
  intros Y X k HY HX Hk q g. destruct (pixel_in raw k Y X M HY HX Hk) as (Hy & Hx).
  pose proof (HO Y X k HY HX Hk) as O. cbv zeta in O. fold q in O. destruct (HL Y X HY HX) as (L & P). specialize (P k Hk).
  pose proof (recorded_pos q _ _ _ P L) as Pos. rewrite recorded_scale. set (r := recorded (p_t q) (p_e q) (p_phi q) (I Y X) (Q Y X) (U Y X)) in *.
  unfold sample in O |- *. rewrite Vf by congruence. rewrite Vd by congruence.
  destruct (HF (2 * Y + k / 2)%Z (2 * X + k mod 2)%Z) as (Gl & Fe); [congruence|congruence|].
  set (s := cell gain (2 * Y + k / 2) (2 * X + k mod 2)) in *. set (v := cell raw (2 * Y + k / 2) (2 * X + k mod 2)) in *.
  set (b := cell dark (2 * Y + k / 2) (2 * X + k mod 2)) in *. rewrite Fe, Am. fold g.
  assert (Nz : s * bright <> 0) by (apply Rgt_not_eq, Rmult_lt_0_compat; lra).
  destruct (Req_EM_T (s * bright) 0) as [Z|_]; [exfalso; exact (Nz Z)|].
  replace (Rmax (v - b) 0 * (bright * g) / (s * bright) - g * r) with (g / s * (Rmax (v - b) 0 - s * r)) by (field; lra).
  assert (Sr : 0 <= s * r) by (apply Rmult_le_pos; lra).
  assert (B : Rabs (Rmax (v - b) 0 - s * r) <= noise).
  { apply Rabs_le_inv in O. apply Rabs_le. unfold Rmax. destruct (Rle_dec (v - b) 0); lra. }
  assert (Gs : 0 <= g / s) by (apply Rmult_le_pos; [unfold g; lra|left; apply Rinv_0_lt_compat; lra]).
  rewrite Rabs_mult, (Rabs_pos_eq (g / s)) by exact Gs.
  apply Rle_trans with (g / s * noise); [apply Rmult_le_compat_l; assumption|].
  assert (N0 : 0 <= noise) by (apply Rle_trans with (2 := B); apply Rabs_pos).
  unfold Rdiv. rewrite Rmult_assoc. apply Rmult_le_compat_l; [unfold g; lra|]. rewrite Rmult_comm. apply Rmult_le_compat_l; [exact N0|].
  apply Rinv_le; lra.
Qed.

Lemma c121_ideal junk dic a raw dark flat gain low bright noise p I Q U :
  mosaic raw -> same_shape raw dark -> same_shape raw flat -> same_shape raw gain -> (0 < rows raw)%Z -> (0 < cols raw)%Z ->
  flat_of low bright gain flat -> observed noise p gain dark raw I Q U -> describes dic a ->
  (forall Y X, (0 <= Y < rows raw / 2)%Z -> (0 <= X < cols raw / 2)%Z ->
     light (I Y X) (Q Y X) (U Y X) /\
     f4 (p Y X) (p0 a) = (1, 1, 0) /\ f4 (p Y X) (p45 a) = (1, 1, PI / 4) /\
     f4 (p Y X) (pm45 a) = (1, 1, - (PI / 4)) /\ f4 (p Y X) (p90 a) = (1, 1, PI / 2)) ->
  exists d f s, dark_data raw dark = Ok d /\ flat_data junk d flat = Ok f /\ data_stokes dic f = Ok s /\
    forall Y X, (0 <= Y < rows raw / 2)%Z -> (0 <= X < cols raw / 2)%Z ->
      let g := mean_of gain in let e := 2 * (g * (noise / low)) in
      known_to e e e (g * I Y X) (g * Q Y X) (g * U Y X) (cell (sI s) Y X) (cell (sQ s) Y X) (cell (sU s) Y X).
Proof.
  intros M S1 S2 S3 H0 W0 HF HO HD HL. pose proof HD as (Ok4 & _). pose proof Ok4 as (R0 & R45 & Rm45 & R90 & _).
  assert (HP : forall Y X, (0 <= Y < rows raw / 2)%Z -> (0 <= X < cols raw / 2)%Z -> light (I Y X) (Q Y X) (U Y X) /\
    forall k, (0 <= k < 4)%Z -> polarizer (f4 (p Y X) k)).
  { intros Y X HY HX. destruct (HL Y X HY HX) as (L & A0 & A45 & Am45 & A90). split; [exact L|]. intros k Hk.
    assert (K : k = p0 a \/ k = p45 a \/ k = pm45 a \/ k = p90 a).
    { clear - Ok4 Hk. destruct a as [a b c d]; unfold arrangement_ok in Ok4; cbn [p0 p45 pm45 p90] in *. lia. }
    unfold polarizer. destruct K as [-> |[-> |[-> | ->]]]; rewrite ?A0, ?A45, ?Am45, ?A90; cbn; lra. }
  destruct (corrected junk raw dark flat gain low bright noise p I Q U M S1 S2 S3 H0 W0 HF HO HP) as (G & d & f & Ed & Ef & Rf & Cf & V).
  assert (Mf : mosaic f) by (apply (mosaic_like raw f M Rf Cf)).
  destruct (data_stokes_spec dic a f HD Mf) as (s & Es & _ & _ & _ & Vs). rewrite Rf, Cf in Vs.
  exists d, f, s. split; [exact Ed|]. split; [exact Ef|]. split; [exact Es|]. intros Y X HY HX g e.
  destruct (Vs Y X HY HX) as (EI & EQ & EU). destruct (HL Y X HY HX) as (_ & A0 & A45 & Am45 & A90).
  assert (I4 := arrangement_sum a (fun k => sample f k Y X) Ok4). cbv beta in I4.
  pose proof (V Y X (p0 a) HY HX R0) as B0. pose proof (V Y X (p45 a) HY HX R45) as B45.
  pose proof (V Y X (pm45 a) HY HX Rm45) as Bm45. pose proof (V Y X (p90 a) HY HX R90) as B90. cbv zeta in B0, B45, Bm45, B90.
  rewrite A0 in B0. rewrite A45 in B45. rewrite Am45 in Bm45. rewrite A90 in B90. fold g in B0, B45, Bm45, B90.
  unfold recorded, p_t, p_e, p_phi in B0, B45, Bm45, B90. cbn [fst snd] in B0, B45, Bm45, B90.
  rewrite Rmult_0_r, cos_0, sin_0 in B0.
  replace (2 * (PI / 4)) with (PI / 2) in B45 by lra. rewrite cos_PI2, sin_PI2 in B45.
  replace (2 * - (PI / 4)) with (- (PI / 2)) in Bm45 by lra. rewrite cos_neg, sin_neg, cos_PI2, sin_PI2 in Bm45.
  replace (2 * (PI / 2)) with PI in B90 by lra. rewrite cos_PI, sin_PI in B90.
  apply Rabs_le_inv in B0, B45, Bm45, B90. unfold known_to, e. rewrite EI, EQ, EU. cbn [nhalf nmul nadd nsub Num_R].
  repeat split; apply Rabs_le; lra.
Qed.

Lemma c121_demodulated junk dic a (m : demodulator R) raw dark flat gain low bright noise p q dt de df I Q U h w :
  mosaic raw -> same_shape raw dark -> same_shape raw flat -> same_shape raw gain -> rows raw = (2 * h)%Z -> cols raw = (2 * w)%Z ->
  (1 <= h)%Z -> (1 <= w)%Z ->
  flat_of low bright gain flat -> observed noise p gain dark raw I Q U -> describes dic a ->
  t_rows (mij m) = h -> t_cols (mij m) = w -> (forall f, fit_found_flags m = Some f -> rows f = h /\ cols f = w) ->
  (forall Y X, (0 <= Y < h)%Z -> (0 <= X < w)%Z -> light (I Y X) (Q Y X) (U Y X) /\ forall k, (0 <= k < 4)%Z -> polarizer (f4 (p Y X) k)) ->
  exists d f old s, dark_data raw dark = Ok d /\ flat_data junk d flat = Ok f /\ data_stokes dic f = Ok old /\ demod_raw m f old = Ok s /\
    forall Y X, (0 <= Y < h)%Z -> (0 <= X < w)%Z -> (forall g, fit_found_flags m = Some g -> cell g Y X = 1) ->
      let M i j := t_cell (mij m) i j Y X in
      pseudo_inverse (entry43 (modulation_of (q Y X))) M -> rank3 (entry43 (modulation_of (q Y X))) ->
      (forall k, (0 <= k < 4)%Z -> polarizer (f4 (q Y X) k) /\ near dt de df (f4 (p Y X) k) (f4 (q Y X) k)) ->
      let g := mean_of gain in let e := (dt + de / 2 + df) * I Y X + noise / low in
      known_to (row_sum M 0 * (g * e)) (row_sum M 1 * (g * e)) (row_sum M 2 * (g * e))
        (g * I Y X) (g * Q Y X) (g * U Y X) (cell (sI s) Y X) (cell (sQ s) Y X) (cell (sU s) Y X) /\
      let E := (row_sum M 1 + row_sum M 2) * e in let true := scene h w I Q U in
      (E < cell (pB true) Y X -> close_angle PI (asin (E / cell (pB true) Y X) / 2) (cell (AoLP s) Y X) (cell (AoLP true) Y X)) /\
      (row_sum M 0 * e < I Y X ->
         Rabs (cell (DoLP s) Y X - cell (DoLP true) Y X) <= (E + cell (DoLP true) Y X * (row_sum M 0 * e)) / (I Y X - row_sum M 0 * e)).
Proof.
  intros Mo S1 S2 S3 Rh Cw Hh Hw HF HO HD Et1 Et2 Hfl HL.
  assert (E1 : (rows raw / 2 = h)%Z) by (rewrite Rh, Z.mul_comm, Z.div_mul by lia; reflexivity).
  assert (E2 : (cols raw / 2 = w)%Z) by (rewrite Cw, Z.mul_comm, Z.div_mul by lia; reflexivity).
  destruct (corrected junk raw dark flat gain low bright noise p I Q U Mo S1 S2 S3 ltac:(lia) ltac:(lia) HF HO) as (G & d & f & Ed & Ef & Rf & Cf & V).
  { rewrite E1, E2. exact HL. }
  rewrite E1, E2 in V.
  assert (Mf : mosaic f) by (apply (mosaic_like raw f Mo Rf Cf)).
  destruct (data_stokes_spec dic a f HD Mf) as (old & Eo & (O1 & O2) & (O3 & O4) & (O5 & O6) & _). rewrite Rf, E1 in O1, O3, O5. rewrite Cf, E2 in O2, O4, O6.
  set (g := mean_of gain) in *.
  destruct (c116_bound m f old h w (fun Y X => g * I Y X) (fun Y X => g * Q Y X) (fun Y X => g * U Y X)) as (s & Es & Hs);
    [exact Mf|congruence|congruence|exact Et1|exact Et2|intros fl Efl; split; [apply (Hfl fl Efl)|auto]|].
  exists d, f, old, s. split; [exact Ed|]. split; [exact Ef|]. split; [exact Eo|]. split; [exact Es|].
  intros Y X HY HX Hf1 M Hpi Hr3 Hnear g' e. change g' with g. clear g'. destruct (HL Y X HY HX) as (L & P).
  assert (g0 : 0 < g) by (destruct HF as (Hl & _); lra).
  pose proof (Hs Y X (p Y X) (q Y X) dt de df (g * (noise / low)) HY HX Hf1 Hpi Hr3) as K. cbv zeta in K.
  assert (K' : known_to (row_sum M 0 * (g * e)) (row_sum M 1 * (g * e)) (row_sum M 2 * (g * e))
        (g * I Y X) (g * Q Y X) (g * U Y X) (cell (sI s) Y X) (cell (sQ s) Y X) (cell (sU s) Y X)).
  { replace (g * e) with ((dt + de / 2 + df) * (g * I Y X) + g * (noise / low)) by (unfold e; ring). apply K.
    - destruct L as (L1 & L2). split; [apply Rmult_le_pos; lra|].
      replace (g * Q Y X * (g * Q Y X) + g * U Y X * (g * U Y X)) with (g * g * (Q Y X * Q Y X + U Y X * U Y X)) by ring.
      replace (g * I Y X * (g * I Y X)) with (g * g * (I Y X * I Y X)) by ring. apply Rmult_le_compat_l; [apply Rmult_le_pos; lra|exact L2].
    - intros k Hk. destruct (Hnear k Hk) as (N1 & N2). split; [apply P, Hk|]. split; [exact N1|exact N2].
    - intros k Hk. apply (V Y X k HY HX Hk). }
  split; [exact K'|]. intros E true. destruct K' as (KI & KQ & KU).
  assert (R1 : 0 <= row_sum M 1 /\ 0 <= row_sum M 2).
  { unfold row_sum, sum4. split; repeat apply Rplus_le_le_0_compat; apply Rabs_pos. }
  assert (E0 : 0 <= g * E).
  { pose proof (Rle_trans _ _ _ (Rabs_pos _) KQ). pose proof (Rle_trans _ _ _ (Rabs_pos _) KU). unfold E. lra. }
  set (big := scene h w (fun Y X => g * I Y X) (fun Y X => g * Q Y X) (fun Y X => g * U Y X)).
  assert (Mv : moved (g * E) big s Y X).
  { unfold moved, big, scene. cbn [sQ sU cell].
    assert (T : forall a b : R, 0 <= b -> Rabs a <= b -> Rsqr a <= Rsqr b) by (intros a' b' Hb Ha; apply Rsqr_le_abs_1; rewrite (Rabs_pos_eq b') by exact Hb; exact Ha).
    assert (B1 : 0 <= row_sum M 1 * (g * e)) by (apply Rle_trans with (2 := KQ); apply Rabs_pos).
    assert (B2 : 0 <= row_sum M 2 * (g * e)) by (apply Rle_trans with (2 := KU); apply Rabs_pos).
    pose proof (T _ _ B1 KQ) as TQ. pose proof (T _ _ B2 KU) as TU.
    replace (g * E) with (row_sum M 1 * (g * e) + row_sum M 2 * (g * e)) by (unfold E; ring).
    pose proof (Rmult_le_pos _ _ B1 B2). rewrite Rsqr_plus. lra. }
  destruct (c118_errors big s Y X (g * E) E0 Mv) as (_ & CA & CD).
  assert (PB : cell (pB big) Y X = g * cell (pB true) Y X).
  { change (sqrt (g * Q Y X * (g * Q Y X) + g * U Y X * (g * U Y X)) = g * sqrt (Q Y X * Q Y X + U Y X * U Y X)).
    replace (g * Q Y X * (g * Q Y X) + g * U Y X * (g * U Y X)) with (g * g * (Q Y X * Q Y X + U Y X * U Y X)) by ring.
    rewrite sqrt_mult_alt by (apply Rmult_le_pos; lra). rewrite sqrt_square by lra. reflexivity. }
  assert (AO : cell (AoLP big) Y X = cell (AoLP true) Y X).
  { unfold AoLP, big, true, scene. cbn [sQ sU cell amap2]. rewrite !Rmult_1_l, atan2_scale by exact g0. reflexivity. }
  assert (DO : 0 < I Y X -> cell (DoLP big) Y X = cell (DoLP true) Y X).
  { intros I0. rewrite (proj1 (c20_def big Y X)), (proj1 (c20_def true Y X)), PB; unfold big, true, scene; cbn [sI cell];
      [field; lra|lra|apply Rgt_not_eq, Rmult_lt_0_compat; lra]. }
  split.
  - intros HE. rewrite PB, AO in CA. replace (E / cell (pB true) Y X) with (g * E / (g * cell (pB true) Y X)).
    + apply CA. apply Rmult_lt_compat_l; assumption.
    + field. split; [|lra]. apply Rgt_not_eq. apply Rle_lt_trans with (2 := HE). apply Rmult_le_reg_l with g; [lra|]. lra.
  - intros HI. assert (F0 : 0 <= row_sum M 0 * (g * e)) by (apply Rle_trans with (2 := KI); apply Rabs_pos).
    assert (F1 : 0 <= row_sum M 0 * e) by (apply Rmult_le_reg_l with g; [exact g0|lra]). specialize (DO ltac:(lra)).
    assert (Gi : g * (row_sum M 0 * e) < g * I Y X) by (apply Rmult_lt_compat_l; assumption).
    specialize (CD (row_sum M 0 * (g * e)) KI). rewrite DO in CD. pose proof (Rabs_le_inv _ _ KI) as KI'.
    apply Rle_trans with (1 := CD ltac:(cbn [big scene sI cell]; lra) ltac:(lra)).
    assert (D0 : 0 <= cell (DoLP true) Y X).
    { rewrite (proj1 (c20_def true Y X)) by (cbn [true scene sI cell]; lra). apply Rmult_le_pos; [apply sqrt_pos|].
      left. apply Rinv_0_lt_compat. cbn [true scene sI cell]. lra. }
    set (D := cell (DoLP true) Y X) in *.
    replace ((E + D * (row_sum M 0 * e)) / (I Y X - row_sum M 0 * e)) with ((g * E + D * (row_sum M 0 * (g * e))) / (g * I Y X - row_sum M 0 * (g * e))).
    + unfold Rdiv. apply Rmult_le_compat_l; [pose proof (Rmult_le_pos _ _ D0 F0); lra|]. apply Rinv_le; lra.
    + field. split; lra.
Qed.
