(** C148: from counts to pB, DoLP and AoLP in binary64. *)
From Coq Require Import Reals Lra Lia Floats.SpecFloat.
From Verif Require Import Base.Base Base.Num Base.Bcast Model.Utils Model.Stokes Model.Pol Model.PolFloat Model.Demodulate Model.FlatFloat Model.MeanFloat Model.DemodFit
  Spec.AngleSpec Spec.FloatSpec Spec.SumSpec Spec.DemodSpec Spec.FitSpec Spec.CorrectSpec Spec.NearSpec Spec.MeanSpec Spec.ObserveSpec Spec.AngleErr Spec.PolErrSpec
  Proofs.RoundImages Proofs.CorrectFloatFacts Proofs.AngleErrFacts Proofs.PolErrFacts Properties.P_ObserveFloat.
From Verif Require Import Spec.PixelSpec Spec.MosaicSpec.
Local Open Scope R_scope.

(** Whatever the errors of the three Stokes parameters *)
Theorem C148_pixel eps at2 (s : stokes b64) (r : stokes R) y x eI eQ eU :
  off_by eI (cell (sI s) y x) (cell (sI r) y x) -> off_by eQ (cell (sQ s) y x) (cell (sQ r) y x) -> off_by eU (cell (sU s) y x) (cell (sU r) y x) ->
  Rabs (cell (sQ r) y x) + eQ <= powerRZ 2 460 -> Rabs (cell (sU r) y x) + eU <= powerRZ 2 460 ->
  polarization_known eps at2 s r y x eI (eQ + eU).
Proof. exact (c148_pixel eps at2 s r y x eI eQ eU). Qed.
Print Assumptions C148_pixel.

(** Demodulated with a calibrated matrix, against the same pipeline computed with real numbers *)
Theorem C148_demodulated eps2 at2 (m : b64) eps junk junk' (dd : demodulator b64) (data dark flat : arr b64) old n h w :
  same_shape data dark -> same_shape data flat -> (0 <= n < 2 ^ 53)%Z -> counts n data -> counts n dark -> sensible flat ->
  FloatSpec.within eps m (amean (values flat)) -> moderate (fval m) -> 0 <= eps <= / 2 ->
  mosaic data -> h = (rows data / 2)%Z -> w = (cols data / 2)%Z -> t_rows (mij dd) = h -> t_cols (mij dd) = w -> tensor_bounded (powerRZ 2 300) (mij dd) ->
  (forall f, fit_found_flags dd = Some f ->
     (rows f = h /\ cols f = w) /\ (rows (sI old) = h /\ cols (sI old) = w) /\
     (rows (sQ old) = h /\ cols (sQ old) = w) /\ (rows (sU old) = h /\ cols (sU old) = w)) ->
  exists c f s cr fr, dark_data data dark = Ok c /\ flat_data_with m junk c flat = Ok f /\ demod_raw dd f old = Ok s /\
    dark_data (values data) (values dark) = Ok cr /\ flat_data junk' cr (values flat) = Ok fr /\
    forall Y X, (0 <= Y < h)%Z -> (0 <= X < w)%Z ->
      (forall f, fit_found_flags dd = Some f -> neqb (cell f Y X) n1 = true) ->
      let r := demodulated (mij dd) fr h w in let e i := demod_error eps (mij dd) fr i Y X in
      Rabs (cell (sQ r) Y X) + e 1%Z <= powerRZ 2 460 -> Rabs (cell (sU r) Y X) + e 2%Z <= powerRZ 2 460 ->
      polarization_known eps2 at2 s r Y X (e 0%Z) (e 1%Z + e 2%Z).
Proof. exact (c148_demodulated eps2 at2 m eps junk junk' dd data dark flat old n h w). Qed.
Print Assumptions C148_demodulated.

(** Behind ideal micropolarizers, against the light: the gain multiplies pB and leaves DoLP and AoLP alone *)
Theorem C148_light eps2 at2 (m : b64) eps junk (data dark flat : arr b64) n dic a gain low bright noise p I Q U :
  same_shape data dark -> same_shape data flat -> (0 <= n < 2 ^ 53)%Z -> counts n data -> counts n dark -> sensible flat ->
  FloatSpec.within eps m (amean (values flat)) -> moderate (fval m) -> 0 <= eps <= / 2 ->
  mosaic data -> (0 < rows data)%Z -> (0 < cols data)%Z -> rows gain = rows data -> cols gain = cols data ->
  flat_of low bright gain (values flat) -> observed noise p gain (values dark) (values data) I Q U -> describes dic a ->
  (forall Y X, (0 <= Y < rows data / 2)%Z -> (0 <= X < cols data / 2)%Z ->
     light (I Y X) (Q Y X) (U Y X) /\
     f4 (p Y X) (p0 a) = (1, 1, 0) /\ f4 (p Y X) (p45 a) = (1, 1, PI / 4) /\
     f4 (p Y X) (pm45 a) = (1, 1, - (PI / 4)) /\ f4 (p Y X) (p90 a) = (1, 1, PI / 2)) ->
  exists c f s, dark_data data dark = Ok c /\ flat_data_with m junk c flat = Ok f /\ data_stokes dic f = Ok s /\
    forall Y X, (0 <= Y < rows data / 2)%Z -> (0 <= X < cols data / 2)%Z ->
      let g := mean_of gain in let v := g * (noise / low) in
      let e := 2 * v + 2 * row_error eps * (g * I Y X + v) + powerRZ 2 (-1075) in
      let h := (rows data / 2)%Z in let w := (cols data / 2)%Z in
      let l := scene h w I Q U in let r := scene h w (fun Y X => g * I Y X) (fun Y X => g * Q Y X) (fun Y X => g * U Y X) in
      g * I Y X + e <= powerRZ 2 460 ->
      polarization_known eps2 at2 s r Y X e (2 * e) /\
      0 < g /\ cell (pB r) Y X = g * cell (pB l) Y X /\ cell (DoLP r) Y X = cell (DoLP l) Y X /\ cell (AoLP r) Y X = cell (AoLP l) Y X.
Proof. exact (c148_light eps2 at2 m eps junk data dark flat n dic a gain low bright noise p I Q U). Qed.
Print Assumptions C148_light.

(** The counts of C127: 60% of the light is polarized, at 0 degrees. *)
Example C148_case junk :
  exists c f s at2, dark_data counts4 dark4 = Ok c /\ flat_data_with (mean_in_order pairs4 4) junk c flat4 = Ok f /\ data_stokes polarcam_angles f = Ok s /\
    accurate_arctan2 (powerRZ 2 (-51)) at2 /\
    off_by (powerRZ 2 (-38)) (cell (pB s) 0 0) 60 /\ off_by (powerRZ 2 (-40)) (cell (DoLP s) 0 0) (60 / 100) /\
    off_angle (powerRZ 2 (-51) / 2 + asin (2 * powerRZ 2 (-40) / 60) / 2 + powerRZ 2 (-1074)) (cell (AoLP64 at2 s) 0 0) 0.
Proof.
  destruct (C127_case junk) as (c & f & s & Ec & Ef & Es & H & _). cbv zeta in H. exists c, f, s, some_arctan2.
  split; [exact Ec|]. split; [exact Ef|]. split; [exact Es|]. split; [exact some_accurate|].
  assert (P : forall i j, (i <= j)%Z -> 0 < powerRZ 2 i <= powerRZ 2 j) by (intros i j L; split; [apply powerRZ_lt; lra|apply power_le, L]).
  assert (P6 := P (-1075)%Z (-60)%Z ltac:(lia)). assert (P7 := P (-1074)%Z (-60)%Z ltac:(lia)). assert (P8 := P (-520)%Z (-60)%Z ltac:(lia)).
  assert (P9 := P (-400)%Z 0%Z ltac:(lia)). assert (P10 := P 60%Z 460%Z ltac:(lia)).
  change (powerRZ 2 (-60)) with (/ (2 ^ 60)) in *. change (powerRZ 2 60) with (2 ^ 60) in *. change (powerRZ 2 0) with 1 in *.
  assert (E : 2 * row_error (INR 3 * powerRZ 2 (-52)) * 100 + powerRZ 2 (-1075) <= powerRZ 2 (-40)).
  { unfold row_error, flat_error. change (powerRZ 2 (-52)) with (/ (2 ^ 52)). change (powerRZ 2 (-51)) with (/ (2 ^ 51)). change (powerRZ 2 (-50)) with (/ (2 ^ 50)).
    change (powerRZ 2 (-40)) with (/ (2 ^ 40)). cbn [INR]. lra. }
  set (e0 := _ + powerRZ 2 (-1075)) in *.
  assert (W : forall x v, off_by e0 x v -> off_by (powerRZ 2 (-40)) x v) by (intros x v (A & B & D); split; [exact A|]; split; [exact B|lra]).
  destruct H as (OI & OQ & OU). apply W in OI, OQ, OU.
  set (r := scene 1 1 (fun _ _ => 100) (fun _ _ => 60) (fun _ _ => 0)).
  destruct (C148_pixel (powerRZ 2 (-51)) some_arctan2 s r 0 0 (powerRZ 2 (-40)) (powerRZ 2 (-40)) (powerRZ 2 (-40)) OI OQ OU) as (HP & HD & HA).
  - change (cell (sQ r) 0%Z 0%Z) with 60. rewrite Rabs_pos_eq by lra. change (powerRZ 2 (-40)) with (/ (2 ^ 40)). lra.
  - change (cell (sU r) 0%Z 0%Z) with 0. rewrite Rabs_R0. change (powerRZ 2 (-40)) with (/ (2 ^ 40)). lra.
  - assert (E60 : cell (pB r) 0%Z 0%Z = 60).
    { change (sqrt (60 * 60 + 0 * 0) = 60). rewrite Rmult_0_l, Rplus_0_r. apply sqrt_square. lra. }
    assert (EA : cell (AoLP r) 0%Z 0%Z = 0).
    { change (1 / 2 * atan2 (1 * 0) (1 * 60) = 0). rewrite !Rmult_1_l. unfold atan2, Rltb at 1. destruct (Rlt_dec 0 60) as [_|N]; [|lra]. unfold Rdiv. rewrite Rmult_0_l, atan_0. apply Rmult_0_r. }
    assert (ED : cell (DoLP r) 0%Z 0%Z = 60 / 100).
    { change (cell (DoLP r) 0%Z 0%Z) with (if negb (neqb 100 (@n0 R Num_R)) then cell (pB r) 0%Z 0%Z / 100 else 0). rewrite E60. cbn. unfold Reqb. destruct (Req_EM_T 100 0); [lra|reflexivity]. }
    change (cell (sI r) 0%Z 0%Z) with 100 in HD. rewrite ED, E60 in HD. rewrite E60 in HP, HA. rewrite EA in HA.
    assert (B : pB_error (powerRZ 2 (-40) + powerRZ 2 (-40)) 60 <= powerRZ 2 (-38)).
    { unfold pB_error. change (powerRZ 2 (-40)) with (/ (2 ^ 40)). change (powerRZ 2 (-50)) with (/ (2 ^ 50)). change (powerRZ 2 (-38)) with (/ (2 ^ 38)). lra. }
    change (powerRZ 2 (-40)) with (/ (2 ^ 40)) in *.
    split; [destruct HP as (A & F & D); split; [exact A|]; split; [exact F|exact (Rle_trans _ _ _ D B)]|]. split.
    + destruct (HD ltac:(lra) ltac:(lra)) as (A & F & D). split; [exact A|]. split; [exact F|]. refine (Rle_trans _ _ _ D _).
      unfold DoLP_error. change (powerRZ 2 (-52)) with (/ (2 ^ 52)). change (powerRZ 2 (-38)) with (/ (2 ^ 38)) in B. lra.
    + replace (2 * / 2 ^ 40 / 60) with ((/ 2 ^ 40 + / 2 ^ 40) / 60) by lra. apply HA; [exact some_accurate|lra].
Qed.
