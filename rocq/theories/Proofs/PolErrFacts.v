(** From counts to polarization in binary64 (C148). *)
From Coq Require Import ZArith Reals Lra Lia Floats.SpecFloat.
From Flocq Require Import Core Relative Sterbenz BinarySingleNaN.
From Verif Require Import Base.Base Base.Num Base.Bcast Model.Utils Model.Stokes Model.Pol Model.PolFloat Model.Demodulate Model.FlatFloat Model.MeanFloat Model.DemodFit
  Spec.AngleSpec Spec.FloatSpec Spec.SumSpec Spec.DemodSpec Spec.FitSpec Spec.CorrectSpec Spec.NearSpec Spec.MeanSpec Spec.ObserveSpec Spec.PixelSpec Spec.MosaicSpec Spec.AngleErr Spec.PolErrSpec
  Proofs.PolFacts Proofs.FloatFacts Proofs.ExactFacts Proofs.RoundFacts Proofs.RoundImages Proofs.RoundPol Proofs.AngleErrFacts Proofs.CorrectFloatFacts Proofs.ObserveFloatFacts.
From Verif Require Import Spec.MosaicSpec.
Local Open Scope R_scope.

#[local] Existing Instance Hprec.
#[local] Existing Instance Hmax.
#[local] Existing Instance fexp64_valid.
#[local] Existing Instance fexp64_mono.

Lemma pB_off x y (q w e f : R) : off_by e x q -> off_by f y w -> Rabs q + e <= powerRZ 2 460 -> Rabs w + f <= powerRZ 2 460 ->
  off_by (pB_error (e + f) (sqrt (q * q + w * w))) (nsqrt ((x *! x) +! (y *! y))) (sqrt (q * q + w * w)).
Proof.
  rewrite !power2. intros (X1 & X2 & X3) (Y1 & Y2 & Y3) Hq Hw.
  assert (Bx : Rabs (fval x) <= bpow radix2 460) by (pose proof (Rabs_triang (fval x - q) q) as T; replace (fval x - q + q) with (fval x) in T by ring; lra).
  assert (By : Rabs (fval y) <= bpow radix2 460) by (pose proof (Rabs_triang (fval y - w) w) as T; replace (fval y - w + w) with (fval y) in T by ring; lra).
  assert (Vx : is_value x (fval x)) by (repeat split; assumption). assert (Vy : is_value y (fval y)) by (repeat split; assumption).
  destruct (pb_computed x y Vx Vy Bx By) as (Vp & E). destruct Vp as (P1 & P2 & _). split; [exact P1|]. split; [exact P2|].
  set (p := nsqrt _) in *. set (N := sqrt (fval x * fval x + fval y * fval y)) in *. set (P := sqrt (q * q + w * w)).
  pose proof (norm_triangle (fval x) (fval y) q w) as N1. fold N P in N1.
  pose proof (norm_triangle q w (fval x) (fval y)) as N2. fold N P in N2. rewrite (Rabs_minus_sym q), (Rabs_minus_sym w) in N2.
  assert (N0 : 0 <= N) by apply sqrt_pos. unfold pB_error. rewrite !power2.
  assert (C5 : 5 * u <= bpow radix2 (-50)) by (change (bpow radix2 (-50)) with (/ 1125899906842624); change u with (/ 9007199254740992); lra).
  assert (Z4 : 4 * z530 <= bpow radix2 (-520)) by (change 4 with (bpow radix2 2); rewrite <- bpow_plus; apply bpow_le; lia).
  pose proof (Rmult_le_compat_r N _ _ N0 C5) as CN. assert (NP : N <= P + (e + f)) by lra.
  pose proof (Rmult_le_compat_l (bpow radix2 (-50)) _ _ ltac:(apply bpow_ge_0) NP) as CP.
  apply Rabs_le_inv in E. apply Rabs_le. lra.
Qed.

Lemma DoLP_off (i p : b64) (I P e b : R) : off_by e i I -> off_by b p P -> 0 <= P -> P + b <= powerRZ 2 470 -> powerRZ 2 (-400) <= I -> 2 * e <= I ->
  off_by (DoLP_error b e I (P / I)) (if negb (neqb i n0) then p /! i else n0) (if negb (neqb I (@n0 R Num_R)) then P / I else 0).
Proof.
  rewrite !power2. intros (I1 & I2 & I3) (P1 & P2 & P3) P0 HP HI He. pose proof (bpow_gt_0 radix2 (-400)) as B4. assert (I0 : 0 < I) by lra.
  assert (Vi : is_value i (fval i)) by (repeat split; assumption). assert (Vp : is_value p (fval p)) by (repeat split; assumption).
  assert (e0 : 0 <= e) by (apply Rle_trans with (2 := I3), Rabs_pos). assert (b0 : 0 <= b) by (apply Rle_trans with (2 := P3), Rabs_pos).
  apply Rabs_le_inv in I3. assert (Ilo : / 2 * I <= fval i) by lra. assert (i0 : 0 < fval i) by lra.
  assert (Nz : neqb i n0 = false) by (destruct (neqb i n0) eqn:En; [apply (neqb_zero i _ Vi) in En; lra|reflexivity]).
  assert (Nr : neqb I (@n0 R Num_R) = false) by (cbn; unfold Reqb; destruct (Req_EM_T I 0) as [E|E]; [lra|reflexivity]).
  rewrite Nz, Nr. cbn [negb]. set (v := fval p / fval i). set (D := P / I).
  assert (ED : D * I = P) by (unfold D; field; lra). assert (Ev : v * fval i = fval p) by (unfold v; field; lra).
  assert (D0 : 0 <= D) by (apply Rmult_le_pos; [exact P0|left; apply Rinv_0_lt_compat; exact I0]).
  assert (De : 0 <= D * e) by (apply Rmult_le_pos; assumption).
  assert (DI : Rabs (D * (I - fval i)) <= D * e).
  { rewrite Rabs_mult, (Rabs_pos_eq D) by exact D0. apply Rmult_le_compat_l; [exact D0|]. apply Rabs_le. lra. }
  set (T := 2 * (b + D * e) / I). assert (ET : T * I = 2 * (b + D * e)) by (unfold T; field; lra).
  assert (T0 : 0 <= T) by (apply Rmult_le_pos; [lra|left; apply Rinv_0_lt_compat; exact I0]).
  assert (VD : Rabs (v - D) <= T).
  { apply Rmult_le_reg_r with (fval i); [exact i0|]. rewrite <- (Rabs_pos_eq (fval i)) at 1 by lra. rewrite <- Rabs_mult.
    replace ((v - D) * fval i) with ((fval p - P) + D * (I - fval i)) by (rewrite <- Ev; rewrite <- ED at 1; ring).
    apply Rle_trans with (1 := Rabs_triang _ _). apply Rle_trans with (b + D * e); [lra|]. pose proof (Rmult_le_compat_l T _ _ T0 Ilo). lra. }
  assert (Hv : Rabs v <= huge).
  { unfold v. unfold Rdiv. rewrite Rabs_mult, (Rabs_pos_eq (/ fval i)) by (left; apply Rinv_0_lt_compat; exact i0).
    apply Rle_trans with (bpow radix2 470 * bpow radix2 401); [|rewrite <- bpow_plus; apply bpow_le; lia]. apply Rmult_le_compat; [apply Rabs_pos|left; apply Rinv_0_lt_compat; exact i0| |].
    - pose proof (Rabs_triang (fval p - P) P) as T'. replace (fval p - P + P) with (fval p) in T' by ring. rewrite (Rabs_pos_eq P) in T' by exact P0. lra.
    - change 401%Z with (- (-401))%Z. rewrite bpow_opp. apply Rinv_le; [apply bpow_gt_0|]. apply Rle_trans with (2 := Ilo). change (-401)%Z with (-1 + -400)%Z. rewrite bpow_plus. change (bpow radix2 (-1)) with (/ 2). lra. }
  destruct (div_value p i _ _ Vp Vi ltac:(lra) (rnd_huge _ Hv)) as (V1 & V2 & V3). split; [exact V1|]. split; [exact V2|]. fold v in V3. rewrite V3.
  pose proof (rnd_err v) as Er.
  assert (AV : Rabs v <= D + T) by (pose proof (Rabs_triang (v - D) D) as T'; replace (v - D + D) with v in T' by ring; rewrite (Rabs_pos_eq D) in T' by exact D0; lra).
  pose proof u_half as U. pose proof (Rmult_le_compat_l u _ _ ltac:(lra) AV) as UV. assert (UT : u * T <= / 2 * T) by (apply Rmult_le_compat_r; lra).
  unfold DoLP_error. fold D. rewrite !power2. replace (3 * (b + D * e) / I) with (3 / 2 * T) by (unfold T; field; lra).
  assert (U52 : u * D <= bpow radix2 (-52) * D) by (apply Rmult_le_compat_r; [exact D0|apply bpow_le; lia]).
  assert (E74 : eta <= bpow radix2 (-1074)) by (apply bpow_le; lia).
  replace (rnd v - D) with ((rnd v - v) + (v - D)) by ring. apply Rle_trans with (1 := Rabs_triang _ _). lra.
Qed.

Lemma c148_pixel eps at2 (s : stokes b64) (r : stokes R) y x eI eQ eU :
  off_by eI (cell (sI s) y x) (cell (sI r) y x) -> off_by eQ (cell (sQ s) y x) (cell (sQ r) y x) -> off_by eU (cell (sU s) y x) (cell (sU r) y x) ->
  Rabs (cell (sQ r) y x) + eQ <= powerRZ 2 460 -> Rabs (cell (sU r) y x) + eU <= powerRZ 2 460 ->
  polarization_known eps at2 s r y x eI (eQ + eU).
Proof.
  unfold polarization_known. cbv zeta. intros HI HQ HU BQ BU. set (q := cell (sQ r) y x) in *. set (w := cell (sU r) y x) in *. set (I := cell (sI r) y x) in *.
  assert (EP : cell (pB r) y x = sqrt (q * q + w * w)) by reflexivity. rewrite EP.
  pose proof (pB_off _ _ q w eQ eU HQ HU BQ BU) as HP. set (P := sqrt (q * q + w * w)) in *. split; [exact HP|]. split.
  - intros Ilo Ie.
    assert (P0 : 0 <= P) by apply sqrt_pos.
    assert (eQ0 : 0 <= eQ) by (destruct HQ as (_ & _ & H); apply Rle_trans with (2 := H), Rabs_pos).
    assert (eU0 : 0 <= eU) by (destruct HU as (_ & _ & H); apply Rle_trans with (2 := H), Rabs_pos).
    assert (PM : P <= 2 * powerRZ 2 460).
    { pose proof (norm_triangle q w 0 0) as N. fold P in N. rewrite !Rminus_0_r in N. replace (0 * 0 + 0 * 0) with 0 in N by ring. rewrite sqrt_0 in N. pose proof (Rabs_pos q). pose proof (Rabs_pos w). lra. }
    assert (big : P + pB_error (eQ + eU) P <= powerRZ 2 470).
    { unfold pB_error. rewrite !power2 in *. pose proof (Rabs_pos q). pose proof (Rabs_pos w).
      assert (B1 : bpow radix2 (-50) * (P + (eQ + eU)) <= 1 * (P + (eQ + eU))) by (apply Rmult_le_compat_r; [lra|apply (bpow_le radix2 (-50) 0); lia]).
      assert (B2 : bpow radix2 (-520) <= bpow radix2 460) by (apply bpow_le; lia).
      replace (bpow radix2 470) with (1024 * bpow radix2 460) by (change 1024 with (bpow radix2 10); rewrite <- bpow_plus; reflexivity). lra. }
    pose proof (DoLP_off _ _ I P eI _ HI HP P0 big Ilo Ie) as HD.
    assert (ED : cell (DoLP r) y x = P / I).
    { change (cell (DoLP r) y x) with (if negb (neqb I (@n0 R Num_R)) then P / I else 0).
      replace (neqb I (@n0 R Num_R)) with false; [reflexivity|]. rewrite power2 in Ilo. pose proof (bpow_gt_0 radix2 (-400)). cbn. unfold Reqb. destruct (Req_EM_T I 0) as [E|E]; [lra|reflexivity]. }
    rewrite ED at 1. exact HD.
  - intros Ha Hlt. destruct HQ as (Q1 & Q2 & Q3), HU as (U1 & U2 & U3).
    assert (eQ0 : 0 <= eQ) by (apply Rle_trans with (2 := Q3), Rabs_pos). assert (eU0 : 0 <= eU) by (apply Rle_trans with (2 := U3), Rabs_pos).
    rewrite power2. apply (c118_float eps at2 s r y x (eQ + eU)); try assumption; [lra|]. fold q w.
    assert (Sq : forall a e, Rabs a <= e -> Rsqr a <= e * e).
    { intros a e H. rewrite Rsqr_abs. unfold Rsqr. apply Rmult_le_compat; try apply Rabs_pos; assumption. }
    pose proof (Sq _ _ Q3). pose proof (Sq _ _ U3). pose proof (Rmult_le_pos _ _ eQ0 eU0). unfold Rsqr in *. lra.
Qed.

Lemma c148_demodulated eps2 at2 (m : b64) eps junk junk' (dd : demodulator b64) (data dark flat : arr b64) old n h w :
  same_shape data dark -> same_shape data flat -> (0 <= n < 2 ^ 53)%Z -> counts n data -> counts n dark -> sensible flat ->
  FloatSpec.within eps m (amean (values flat)) -> moderate (fval m) -> 0 <= eps <= / 2 ->
  mosaic data -> h = (rows data / 2)%Z -> w = (cols data / 2)%Z -> t_rows (mij dd) = h -> t_cols (mij dd) = w -> tensor_bounded (powerRZ 2 300) (mij dd) ->
  (forall f, fit_found_flags dd = Some f ->
     (rows f = h /\ cols f = w) /\ (rows (sI old) = h /\ cols (sI old) = w) /\
     (rows (sQ old) = h /\ cols (sQ old) = w) /\ (rows (sU old) = h /\ cols (sU old) = w)) ->
  exists c f s cr fr, dark_data data dark = Ok c /\ flat_data_with m junk c flat = Ok f /\ demod_raw dd f old = Ok s /\
    dark_data (values data) (values dark) = Ok cr /\ flat_data junk' cr (values flat) = Ok fr /\
    forall Y X, (0 <= Y < h)%Z -> (0 <= X < w)%Z ->
      (forall f, fit_found_flags dd = Some f -> neqb (cell f Y X) n1 = true) ->
      let r := demodulated (mij dd) fr h w in let e i := demod_error eps (mij dd) fr i Y X in
      Rabs (cell (sQ r) Y X) + e 1%Z <= powerRZ 2 460 -> Rabs (cell (sU r) Y X) + e 2%Z <= powerRZ 2 460 ->
      polarization_known eps2 at2 s r Y X (e 0%Z) (e 1%Z + e 2%Z).
Proof.
  intros Sd Sf Hn Cd Ck Hf Hw Hm He Mo Eh Ew Th Tw Tb Hfl.
  destruct (c127_demodulated m eps junk junk' dd data dark flat old n h w Sd Sf Hn Cd Ck Hf Hw Hm He Mo Eh Ew Th Tw Tb Hfl) as (c & f & s & cr & fr & Ec & Ef & Es & Ecr & Efr & H).
  exists c, f, s, cr, fr. split; [exact Ec|]. split; [exact Ef|]. split; [exact Es|]. split; [exact Ecr|]. split; [exact Efr|].
  intros Y X HY HX Hfit. cbv zeta. intros BQ BU. destruct (H Y X HY HX Hfit) as (OI & OQ & OU). apply c148_pixel; assumption.
Qed.

Lemma scene_scaled g h w I Q U Y X : 0 < g ->
  let r := scene h w (fun Y X => g * I Y X) (fun Y X => g * Q Y X) (fun Y X => g * U Y X) in let l := scene h w I Q U in
  cell (pB r) Y X = g * cell (pB l) Y X /\ cell (DoLP r) Y X = cell (DoLP l) Y X /\ cell (AoLP r) Y X = cell (AoLP l) Y X.
Proof.
  intros G r l. set (i := I Y X). set (q := Q Y X). set (w' := U Y X).
  assert (EP : cell (pB r) Y X = g * cell (pB l) Y X).
  { change (cell (pB r) Y X) with (sqrt (g * q * (g * q) + g * w' * (g * w'))). change (cell (pB l) Y X) with (sqrt (q * q + w' * w')).
    replace (g * q * (g * q) + g * w' * (g * w')) with (g * g * (q * q + w' * w')) by ring.
    rewrite sqrt_mult by (pose proof (Rle_0_sqr g); pose proof (Rle_0_sqr q); pose proof (Rle_0_sqr w'); unfold Rsqr in *; lra). rewrite sqrt_square by lra. reflexivity. }
  split; [exact EP|]. split.
  - change (cell (DoLP r) Y X) with (if negb (neqb (g * i) (@n0 R Num_R)) then cell (pB r) Y X / (g * i) else 0).
    change (cell (DoLP l) Y X) with (if negb (neqb i (@n0 R Num_R)) then cell (pB l) Y X / i else 0). rewrite EP. cbn. unfold Reqb.
    destruct (Req_EM_T i 0) as [E|E].
    + destruct (Req_EM_T (g * i) 0) as [E'|E']; [reflexivity|]. rewrite E in E'. destruct E'. ring.
    + destruct (Req_EM_T (g * i) 0) as [E'|E']; [apply Rmult_integral in E'; destruct E'; [lra|contradiction]|]. cbn. field. split; lra.
  - change (cell (AoLP r) Y X) with (1 / 2 * atan2 (1 * (g * w')) (1 * (g * q))). change (cell (AoLP l) Y X) with (1 / 2 * atan2 (1 * w') (1 * q)).
    rewrite !Rmult_1_l, atan2_scale by exact G. reflexivity.
Qed.

Lemma c148_light eps2 at2 (m : b64) eps junk (data dark flat : arr b64) n dic a gain low bright noise p I Q U :
  same_shape data dark -> same_shape data flat -> (0 <= n < 2 ^ 53)%Z -> counts n data -> counts n dark -> sensible flat ->
  FloatSpec.within eps m (amean (values flat)) -> moderate (fval m) -> 0 <= eps <= / 2 ->
  mosaic data -> (0 < rows data)%Z -> (0 < cols data)%Z -> rows gain = rows data -> cols gain = cols data ->
  flat_of low bright gain (values flat) -> observed noise p gain (values dark) (values data) I Q U -> describes dic a ->
  (forall Y X, (0 <= Y < rows data / 2)%Z -> (0 <= X < cols data / 2)%Z ->
     light (I Y X) (Q Y X) (U Y X) /\
     f4 (p Y X) (p0 a) = (1, 1, 0) /\ f4 (p Y X) (p45 a) = (1, 1, PI / 4) /\
     f4 (p Y X) (pm45 a) = (1, 1, - (PI / 4)) /\ f4 (p Y X) (p90 a) = (1, 1, PI / 2)) ->
  exists c f s, dark_data data dark = Ok c /\ flat_data_with m junk c flat = Ok f /\ data_stokes dic f = Ok s /\
    forall Y X, (0 <= Y < rows data / 2)%Z -> (0 <= X < cols data / 2)%Z ->
      let g := mean_of gain in let v := g * (noise / low) in
      let e := 2 * v + 2 * row_error eps * (g * I Y X + v) + powerRZ 2 (-1075) in
      let h := (rows data / 2)%Z in let w := (cols data / 2)%Z in
      let l := scene h w I Q U in let r := scene h w (fun Y X => g * I Y X) (fun Y X => g * Q Y X) (fun Y X => g * U Y X) in
      g * I Y X + e <= powerRZ 2 460 ->
      polarization_known eps2 at2 s r Y X e (2 * e) /\
      0 < g /\ cell (pB r) Y X = g * cell (pB l) Y X /\ cell (DoLP r) Y X = cell (DoLP l) Y X /\ cell (AoLP r) Y X = cell (AoLP l) Y X.
Proof.
  intros Sd Sf Hn Cd Ck Hf Hw Hm He Mo H0 W0 Rg Cg HF HO HD HL. pose proof HD as (Ok4 & _).
  destruct (c127_light m eps junk data dark flat n dic a gain low bright noise p I Q U Sd Sf Hn Cd Ck Hf Hw Hm He Mo H0 W0 Rg Cg HF HO HD HL) as (c & f & s & Ec & Ef & Es & H).
  assert (G : 0 < mean_of gain).
  { assert (HP : forall Y X, (0 <= Y < rows data / 2)%Z -> (0 <= X < cols data / 2)%Z -> light (I Y X) (Q Y X) (U Y X) /\ forall k, (0 <= k < 4)%Z -> polarizer (f4 (p Y X) k)).
    { intros Y X HY HX. destruct (HL Y X HY HX) as (L & A0 & A45 & Am45 & A90). split; [exact L|]. intros k Hk.
      assert (K : k = p0 a \/ k = p45 a \/ k = pm45 a \/ k = p90 a).
      { clear - Ok4 Hk. destruct a as [a b c d]; unfold arrangement_ok in Ok4; cbn [p0 p45 pm45 p90] in *. lia. }
      unfold polarizer. destruct K as [-> |[-> |[-> | ->]]]; rewrite ?A0, ?A45, ?Am45, ?A90; cbn; lra. }
    destruct (ObserveFacts.corrected (fun _ _ => 0) (values data) (values dark) (values flat) gain low bright noise p I Q U Mo Sd Sf (conj (eq_sym Rg) (eq_sym Cg)) H0 W0 HF HO HP) as (Gl & _).
    destruct HF as (Hl & _). lra. }
  exists c, f, s. split; [exact Ec|]. split; [exact Ef|]. split; [exact Es|]. intros Y X HY HX. cbv zeta. intros B.
  destruct (H Y X HY HX) as (OI & OQ & OU). cbv zeta in OI, OQ, OU. set (g := mean_of gain) in *. set (e := 2 * (g * (noise / low)) + _ + _) in *.
  destruct (HL Y X HY HX) as ((I0 & L) & _).
  assert (Part : forall t, t * t <= I Y X * I Y X -> Rabs (g * t) + e <= powerRZ 2 460).
  { intros t Ht. rewrite Rabs_mult, (Rabs_pos_eq g) by lra. assert (Rabs t <= I Y X).
    { rewrite <- (Rabs_pos_eq (I Y X)) by exact I0. apply Rsqr_le_abs_0. exact Ht. }
    pose proof (Rmult_le_compat_l g _ _ (Rlt_le _ _ G) H1). lra. }
  split; [|split; [exact G|apply (scene_scaled g _ _ I Q U Y X G)]].
  replace (2 * e) with (e + e) by ring. apply c148_pixel; [exact OI|exact OQ|exact OU|apply Part|apply Part];
    pose proof (Rle_0_sqr (Q Y X)); pose proof (Rle_0_sqr (U Y X)); unfold Rsqr in *; lra.
Qed.
