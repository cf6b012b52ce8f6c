(** C116: errors of the calibration and of the pixels. *)
From Coq Require Import String Reals Lra Permutation.
From Verif Require Import Base.Base Base.BaseFacts Base.Num Model.Stokes Model.Demodulate Model.DemodFit Model.DemodLoad
  Model.DemodCov Model.Calibrate Spec.Terminates Spec.MosaicSpec Spec.StokesSpec Spec.DemodSpec Spec.FitSpec Spec.CalibSpec
  Spec.LoadSpec Spec.CovSpec Spec.PipeSpec Spec.NearSpec
  Proofs.MosaicFacts Proofs.DemodFacts Proofs.FitFacts Proofs.GridFacts Proofs.InvertFacts Proofs.LoadFacts Proofs.CalibFacts
  Proofs.CovFacts Proofs.PipeFacts.
Local Open Scope R_scope.

(** ** Elementary bounds *)
Lemma polarized_le I Q U a : light I Q U -> Rabs (Q * cos a + U * sin a) <= I.
Proof.
  intros (HI & HP). apply Rsqr_incr_0_var; [|exact HI]. rewrite <- Rsqr_abs. unfold Rsqr.
  pose proof (sin2_cos2 a) as S. unfold Rsqr in S.
  assert (0 <= (Q * sin a - U * cos a) * (Q * sin a - U * cos a)) by (apply Rle_0_sqr).
  assert (E : (Q * cos a + U * sin a) * (Q * cos a + U * sin a) =
              (Q * Q + U * U) * (sin a * sin a + cos a * cos a) - (Q * sin a - U * cos a) * (Q * sin a - U * cos a)) by ring.
  rewrite E, S. lra.
Qed.

Lemma sin_le x : Rabs (sin x) <= Rabs x.
Proof.
  assert (P : forall y, 0 <= y -> Rabs (sin y) <= y).
  { intros y Hy. destruct (Rle_or_lt y PI) as [L|L].
    - rewrite Rabs_pos_eq by (apply sin_ge_0; lra). destruct (Req_dec y 0) as [->|N]; [rewrite sin_0; lra|].
      left. apply sin_lt_x. lra.
    - pose proof PI2_1. pose proof (SIN_bound y) as B. apply Rabs_le in B. lra. }
  destruct (Rle_or_lt 0 x) as [L|L].
  - rewrite (Rabs_pos_eq x) by exact L. apply P. exact L.
  - rewrite (Rabs_left x) by exact L. rewrite <- (Ropp_involutive x) at 1. rewrite sin_neg, Rabs_Ropp. apply P. lra.
Qed.

Lemma turned_le I Q U a b : light I Q U ->
  Rabs ((Q * cos (2 * a) + U * sin (2 * a)) - (Q * cos (2 * b) + U * sin (2 * b))) <= 2 * I * Rabs (a - b).
Proof.
  intros L.
  assert (E : (Q * cos (2 * a) + U * sin (2 * a)) - (Q * cos (2 * b) + U * sin (2 * b)) =
              2 * sin (a - b) * (Q * cos (a + b + PI / 2) + U * sin (a + b + PI / 2))).
  { replace (cos (a + b + PI / 2)) with (- sin (a + b)) by (rewrite cos_plus, cos_PI2, sin_PI2; ring).
    replace (sin (a + b + PI / 2)) with (cos (a + b)) by (rewrite sin_plus, cos_PI2, sin_PI2; ring).
    assert (C : cos (2 * a) - cos (2 * b) = - 2 * sin (a - b) * sin (a + b)).
    { replace (2 * a) with ((a + b) + (a - b)) by ring. replace (2 * b) with ((a + b) - (a - b)) by ring.
      generalize (a + b) (a - b). intros u v. rewrite cos_plus, cos_minus. ring. }
    assert (D : sin (2 * a) - sin (2 * b) = 2 * sin (a - b) * cos (a + b)).
    { replace (2 * a) with ((a + b) + (a - b)) by ring. replace (2 * b) with ((a + b) - (a - b)) by ring.
      generalize (a + b) (a - b). intros u v. rewrite sin_plus, sin_minus. ring. }
    replace (Q * cos (2 * a) + U * sin (2 * a) - (Q * cos (2 * b) + U * sin (2 * b)))
      with (Q * (cos (2 * a) - cos (2 * b)) + U * (sin (2 * a) - sin (2 * b))) by ring.
    rewrite C, D. ring. }
  rewrite E, !Rabs_mult. rewrite (Rabs_pos_eq 2) by lra.
  pose proof (polarized_le I Q U (a + b + PI / 2) L) as B. pose proof (sin_le (a - b)) as S.
  pose proof (Rabs_pos (sin (a - b))). pose proof (Rabs_pos (Q * cos (a + b + PI / 2) + U * sin (a + b + PI / 2))).
  replace (2 * I * Rabs (a - b)) with (2 * Rabs (a - b) * I) by ring.
  apply Rmult_le_compat; lra.
Qed.

Lemma recorded_near dt de df p q I Q U : light I Q U -> polarizer p -> polarizer q -> near dt de df p q ->
  Rabs (recorded (p_t p) (p_e p) (p_phi p) I Q U - recorded (p_t q) (p_e q) (p_phi q) I Q U) <= (dt + de / 2 + df) * I.
Proof.
  intros L (Tp & Ep) (Tq & Eq) (Dt & De & Df). pose proof (proj1 L) as HI.
  unfold recorded. set (x := Q * cos (2 * p_phi p) + U * sin (2 * p_phi p)). set (y := Q * cos (2 * p_phi q) + U * sin (2 * p_phi q)).
  pose proof (polarized_le I Q U (2 * p_phi p) L) as Bx. fold x in Bx.
  pose proof (turned_le I Q U (p_phi p) (p_phi q) L) as Bxy. fold x y in Bxy.
  replace (p_t p / 2 * (I + p_e p * x) - p_t q / 2 * (I + p_e q * y))
    with ((p_t p - p_t q) * ((I + p_e p * x) / 2) + (p_t q * ((p_e p - p_e q) * x) / 2 + p_t q * (p_e q * (x - y)) / 2)) by field.
  assert (A1 : Rabs ((p_t p - p_t q) * ((I + p_e p * x) / 2)) <= dt * I).
  { rewrite Rabs_mult. apply Rmult_le_compat; [apply Rabs_pos|apply Rabs_pos|exact Dt|].
    unfold Rdiv. rewrite Rabs_mult, (Rabs_pos_eq (/ 2)) by lra.
    assert (Rabs (I + p_e p * x) <= I + I).
    { eapply Rle_trans; [apply Rabs_triang|]. rewrite (Rabs_pos_eq I) by exact HI. rewrite Rabs_mult, (Rabs_pos_eq (p_e p)) by lra.
      assert (p_e p * Rabs x <= 1 * I) by (apply Rmult_le_compat; lra || apply Rabs_pos). lra. }
    lra. }
  assert (A2 : Rabs (p_t q * ((p_e p - p_e q) * x) / 2) <= de / 2 * I).
  { unfold Rdiv. rewrite !Rabs_mult, (Rabs_pos_eq (/ 2)), (Rabs_pos_eq (p_t q)) by lra.
    assert (Rabs (p_e p - p_e q) * Rabs x <= de * I) by (apply Rmult_le_compat; try apply Rabs_pos; assumption).
    assert (0 <= Rabs (p_e p - p_e q) * Rabs x) by (apply Rmult_le_pos; apply Rabs_pos).
    assert (p_t q * (Rabs (p_e p - p_e q) * Rabs x) <= 1 * (de * I)) by (apply Rmult_le_compat; lra). lra. }
  assert (A3 : Rabs (p_t q * (p_e q * (x - y)) / 2) <= df * I).
  { unfold Rdiv. rewrite !Rabs_mult, (Rabs_pos_eq (/ 2)), (Rabs_pos_eq (p_t q)), (Rabs_pos_eq (p_e q)) by lra.
    pose proof (Rabs_pos (x - y)).
    assert (B : Rabs (x - y) <= 2 * I * df).
    { eapply Rle_trans; [exact Bxy|]. apply Rmult_le_compat_l; [lra|exact Df]. }
    assert (0 <= 2 * I * df) by (eapply Rle_trans; [|exact B]; assumption).
    assert (p_e q * Rabs (x - y) <= 1 * (2 * I * df)) by (apply Rmult_le_compat; lra).
    assert (0 <= p_e q * Rabs (x - y)) by (apply Rmult_le_pos; lra).
    assert (p_t q * (p_e q * Rabs (x - y)) <= 1 * (1 * (2 * I * df))) by (apply Rmult_le_compat; lra). lra. }
  eapply Rle_trans; [apply Rabs_triang|].
  pose proof (Rabs_triang (p_t q * ((p_e p - p_e q) * x) / 2) (p_t q * (p_e q * (x - y)) / 2)). lra.
Qed.

Lemma weighted_le (m v : Z -> R) b : (forall k, (0 <= k < 4)%Z -> Rabs (v k) <= b) ->
  Rabs (sum4 (fun k => m k * v k)) <= sum4 (fun k => Rabs (m k)) * b.
Proof.
  intros H. unfold sum4.
  assert (T : forall k, (0 <= k < 4)%Z -> Rabs (m k * v k) <= Rabs (m k) * b).
  { intros k Hk. rewrite Rabs_mult. apply Rmult_le_compat_l; [apply Rabs_pos|exact (H k Hk)]. }
  pose proof (T 0%Z ltac:(lia)). pose proof (T 1%Z ltac:(lia)). pose proof (T 2%Z ltac:(lia)). pose proof (T 3%Z ltac:(lia)).
  pose proof (Rabs_triang (m 0%Z * v 0%Z + m 1%Z * v 1%Z + m 2%Z * v 2%Z) (m 3%Z * v 3%Z)).
  pose proof (Rabs_triang (m 0%Z * v 0%Z + m 1%Z * v 1%Z) (m 2%Z * v 2%Z)).
  pose proof (Rabs_triang (m 0%Z * v 0%Z) (m 1%Z * v 1%Z)). lra.
Qed.

(** ** Demodulating *)
Lemma c116_bound (d : demodulator R) (data : arr R) old h w (I Q U : Z -> Z -> R) :
  mosaic data -> h = (rows data / 2)%Z -> w = (cols data / 2)%Z ->
  t_rows (mij d) = h -> t_cols (mij d) = w ->
  (forall f, fit_found_flags d = Some f ->
     (rows f = h /\ cols f = w) /\ (rows (sI old) = h /\ cols (sI old) = w) /\
     (rows (sQ old) = h /\ cols (sQ old) = w) /\ (rows (sU old) = h /\ cols (sU old) = w)) ->
  exists s, demod_raw d data old = Ok s /\
    forall Y X p q dt de df noise, (0 <= Y < h)%Z -> (0 <= X < w)%Z ->
      (forall f, fit_found_flags d = Some f -> cell f Y X = 1) ->
      let m i j := t_cell (mij d) i j Y X in
      pseudo_inverse (entry43 (modulation_of q)) m -> rank3 (entry43 (modulation_of q)) ->
      light (I Y X) (Q Y X) (U Y X) ->
      (forall k, (0 <= k < 4)%Z -> polarizer (f4 p k) /\ polarizer (f4 q k) /\ near dt de df (f4 p k) (f4 q k)) ->
      (forall k, (0 <= k < 4)%Z ->
         Rabs (sample data k Y X -
               recorded (p_t (f4 p k)) (p_e (f4 p k)) (p_phi (f4 p k)) (I Y X) (Q Y X) (U Y X)) <= noise) ->
      let bound := (dt + de / 2 + df) * I Y X + noise in
      known_to (row_sum m 0 * bound) (row_sum m 1 * bound) (row_sum m 2 * bound)
        (I Y X) (Q Y X) (U Y X) (cell (sI s) Y X) (cell (sQ s) Y X) (cell (sU s) Y X).
Proof.
  intros Hm Eh Ew Et1 Et2 Hf.
  destruct (c24_product d data old h w Hm Eh Ew Et1 Et2 Hf) as (s & Es & _ & _ & _ & Hs).
  exists s. split; [exact Es|]. intros Y X p q dt de df noise HY HX Hfl m Hpi Hr Hl Hnear Hrec bound.
  destruct (Hs Y X HY HX) as (e1 & e2 & e3). rewrite e1, e2, e3.
  assert (F : match fit_found_flags d with None => true | Some f => neqb (cell f Y X) n1 end = true).
  { destruct (fit_found_flags d) as [f|]; [|reflexivity]. rewrite (Hfl f eq_refl).
    change (Reqb 1 1 = true). unfold Reqb. destruct (Req_EM_T 1 1); congruence. }
  rewrite F.
  destruct (pinv_left_inverse _ _ (I Y X) (Q Y X) (U Y X) Hpi Hr) as (l1 & l2 & l3).
  assert (Hd : forall k, (0 <= k < 4)%Z ->
    Rabs (sample data k Y X - (entry43 (modulation_of q) k 0 * I Y X + entry43 (modulation_of q) k 1 * Q Y X
                               + entry43 (modulation_of q) k 2 * U Y X)) <= bound).
  { intros k Hk. rewrite <- (recorded_row q k (I Y X) (Q Y X) (U Y X) Hk).
    destruct (Hnear k Hk) as (Pp & Pq & Hn).
    pose proof (recorded_near dt de df _ _ _ _ _ Hl Pp Pq Hn) as B. pose proof (Hrec k Hk) as N.
    set (a := recorded (p_t (f4 p k)) _ _ _ _ _) in *. set (b := recorded (p_t (f4 q k)) _ _ _ _ _) in *.
    replace (sample data k Y X - b) with ((sample data k Y X - a) + (a - b)) by ring.
    eapply Rle_trans; [apply Rabs_triang|]. unfold bound. lra. }
  assert (T : forall i v,
    sum4 (fun k => m i k * (entry43 (modulation_of q) k 0 * I Y X + entry43 (modulation_of q) k 1 * Q Y X
                            + entry43 (modulation_of q) k 2 * U Y X)) = v ->
    Rabs (row_product (fun i j => t_cell (mij d) i j Y X) (fun k => sample data k Y X) i - v) <= row_sum m i * bound).
  { intros i v Ev. pose proof (weighted_le (m i) _ bound Hd) as B.
    replace (row_product (fun i j => t_cell (mij d) i j Y X) (fun k => sample data k Y X) i - v)
      with (sum4 (fun k => m i k * (sample data k Y X -
        (entry43 (modulation_of q) k 0 * I Y X + entry43 (modulation_of q) k 1 * Q Y X + entry43 (modulation_of q) k 2 * U Y X)))).
    - exact B.
    - rewrite <- Ev. unfold row_product, sum4, m. cbn [nadd nmul Num_R]. ring. }
  split; [|split]; apply T; assumption.
Qed.

(** ** The whole way *)
Lemma radians_degrees v : radians (degrees v) = v.
Proof. unfold radians, degrees. field. apply PI_neq0. Qed.

Lemma row_sum_400 m i : within_100 m -> (0 <= i < 3)%Z -> 0 <= row_sum (entry34 m) i <= 400.
Proof.
  intros H Hi. unfold row_sum, sum4.
  assert (T : forall k, (0 <= k < 4)%Z -> 0 <= Rabs (entry34 m i k) <= 100).
  { intros k Hk. split; [apply Rabs_pos|]. apply Rabs_le. exact (H i k Hi Hk). }
  pose proof (T 0%Z ltac:(lia)). pose proof (T 1%Z ltac:(lia)). pose proof (T 2%Z ltac:(lia)). pose proof (T 3%Z ltac:(lia)). lra.
Qed.

Lemma c116_calibrated W args os fs ps images dark norms h w :
  calibration_input W args os fs ps images dark norms h w ->
  exists o, evaluates (fun fuel => calibrate W args fuel os fs) o /\
    forall files, Permutation files (written_files (results o)) ->
    exists d t e f g, load files = Ok d /\ tk files = Ok t /\ eff files = Ok e /\ phi files = Ok f /\
      fit_found_flags d = Some g /\
      forall (data : arr R) old (I Q U : Z -> Z -> R),
        mosaic data -> rows data = (2 * h)%Z -> cols data = (2 * w)%Z ->
        (rows (sI old) = h /\ cols (sI old) = w) -> (rows (sQ old) = h /\ cols (sQ old) = w) ->
        (rows (sU old) = h /\ cols (sU old) = w) ->
        exists s, demod_raw d data old = Ok s /\
          forall Y X p dt de df noise, (0 <= Y < h)%Z -> (0 <= X < w)%Z -> cell g Y X = 1 ->
            let q k := (pixel_of t Y X k, pixel_of e Y X k, radians (pixel_of f Y X k)) in
            let M := modulation_of (mkfour (q 0%Z) (q 1%Z) (q 2%Z) (q 3%Z)) in
            pseudo_inverse (entry43 M) (entry34 (inverse W M)) -> rank3 (entry43 M) ->
            light (I Y X) (Q Y X) (U Y X) ->
            (forall k, (0 <= k < 4)%Z -> polarizer (f4 p k) /\ polarizer (q k) /\ near dt de df (f4 p k) (q k)) ->
            (forall k, (0 <= k < 4)%Z ->
               Rabs (sample data k Y X -
                     recorded (p_t (f4 p k)) (p_e (f4 p k)) (p_phi (f4 p k)) (I Y X) (Q Y X) (U Y X)) <= noise) ->
            let bound := 400 * ((dt + de / 2 + df) * I Y X + noise) in
            known_to bound bound bound (I Y X) (Q Y X) (U Y X) (cell (sI s) Y X) (cell (sQ s) Y X) (cell (sU s) Y X).
Proof.
  intros (H1 & H2 & H4 & H5 & H6 & H7 & H8 & H9 & H10 & H11 & H12 & H13 & H14 & H15 & H16 & H17 & H18 & H19).
  destruct (c75_matched W args os fs ps images dark norms h w (h / a_ny args) (w / a_nx args)) as (c & o & Ev & _ & Hmaps & Hd & He & _ & Hcal);
    try assumption.
  { pose proof (Z.div_mod h (a_ny args) ltac:(lia)). lia. }
  { pose proof (Z.div_mod w (a_nx args) ltac:(lia)). lia. }
  exists o. split; [exact Ev|]. intros files Hperm.
  assert (Hnd : NoDup (map fst files)).
  { apply (Permutation_NoDup (l := map fst (written_files (results o)))); [apply Permutation_map, Permutation_sym, Hperm|].
    vm_compute. repeat (constructor; [cbn; intuition discriminate|]). constructor. }
  rewrite <- (app_nil_r (written_files (results o))) in Hperm.
  destruct (c27_roundtrip (results o) [] files Hperm Hnd ltac:(intros n g [])) as (d & El & (Tr & Tc & Tv) & Fl).
  destruct (c98_maps (results o) [] files Hperm Hnd) as (E1 & E2 & E3).
  destruct Hmaps as ((Rm & Cm) & (Rf & Cf) & (Rt & Ct) & (Re & Ce) & (Rp & Cp) & _).
  cbn [results k_m k_found t_rows t_cols t_cell] in Tr, Tc, Tv, Fl. rewrite Rm in Tr, Tv. rewrite Cm in Tc, Tv.
  exists d, (o_tk o), (o_eff o), (amap rad2deg (o_phase o)), (o_found o). repeat (split; [assumption|]).
  intros data old I Q U Hm Rd Cd O1 O2 O3.
  assert (Eh : h = (rows data / 2)%Z) by (rewrite Rd, Z.mul_comm, Z.div_mul; lia).
  assert (Ew : w = (cols data / 2)%Z) by (rewrite Cd, Z.mul_comm, Z.div_mul; lia).
  assert (Hfl : forall g, fit_found_flags d = Some g ->
     (rows g = h /\ cols g = w) /\ (rows (sI old) = h /\ cols (sI old) = w) /\
     (rows (sQ old) = h /\ cols (sQ old) = w) /\ (rows (sU old) = h /\ cols (sU old) = w)).
  { intros g Eg. rewrite Fl in Eg. injection Eg as <-. auto. }
  destruct (c116_bound d data old h w I Q U Hm Eh Ew Tr Tc Hfl) as (s & Es & Hb).
  exists s. split; [exact Es|]. intros Y X p dt de df noise HY HX Hg q M Hpi Hr Hl Hnear Hrec bound.
  destruct (Hcal Y X HY HX) as [(_ & _ & Hz & _)|(_ & p0 & p1 & p2 & p3 & v & _ & Hmat & Hpar)]; [exfalso; lra|].
  assert (Eq : forall k, (0 <= k < 4)%Z -> q k = f4 (mkfour p0 p1 p2 p3) k).
  { intros k Hk. destruct (Hpar k Hk) as (A & B & C & _). unfold q. unfold pixel_of in *. cbn [amap cell]. rewrite A, B, C.
    unfold rad2deg. replace (p_phi (f4 (mkfour p0 p1 p2 p3) k) * (180 / PI)) with (degrees (p_phi (f4 (mkfour p0 p1 p2 p3) k)))
      by (unfold degrees; field; apply PI_neq0).
    rewrite radians_degrees. unfold p_t, p_e, p_phi. destruct (f4 (mkfour p0 p1 p2 p3) k) as ((a, b), z). reflexivity. }
  pose proof (Eq 0%Z ltac:(lia)) as q0. pose proof (Eq 1%Z ltac:(lia)) as q1.
  pose proof (Eq 2%Z ltac:(lia)) as q2. pose proof (Eq 3%Z ltac:(lia)) as q3. cbn in q0, q1, q2, q3.
  assert (EM : M = modulation_of (mkfour p0 p1 p2 p3)) by (unfold M; rewrite q0, q1, q2, q3; reflexivity).
  rewrite EM in Hpi, Hr.
  change (matrix_of (settings_of W args ps) p0 p1 p2 p3) with (inverse W (modulation_of (mkfour p0 p1 p2 p3))) in Hmat.
  destruct Hmat as [(Hw & Em & _)|(_ & _ & Hz)]; [|exfalso; lra].
  assert (Ecell : forall i j, (0 <= i < 3)%Z -> (0 <= j < 4)%Z ->
    t_cell (mij d) i j Y X = entry34 (inverse W (modulation_of (mkfour p0 p1 p2 p3))) i j).
  { intros i j Hi Hj. rewrite Tv by assumption. rewrite m_entry_34 by exact Hi. rewrite Em. reflexivity. }
  assert (Hpi' : pseudo_inverse (entry43 (modulation_of (mkfour p0 p1 p2 p3))) (fun i j => t_cell (mij d) i j Y X)).
  { revert Hpi. unfold pseudo_inverse, sum3, sum4. intros (A1 & A2 & A3 & A4).
    split; [|split; [|split]]; [intros k j Hk Hj|intros i k Hi Hk|intros k l Hk Hl'|intros i j Hi Hj]; rewrite !Ecell by lia; auto. }
  assert (Hnear' : forall k, (0 <= k < 4)%Z -> polarizer (f4 p k) /\ polarizer (f4 (mkfour p0 p1 p2 p3) k) /\
                     near dt de df (f4 p k) (f4 (mkfour p0 p1 p2 p3) k)).
  { intros k Hk. rewrite <- (Eq k Hk). exact (Hnear k Hk). }
  pose proof (Hb Y X p (mkfour p0 p1 p2 p3) dt de df noise HY HX) as B. cbv zeta in B.
  specialize (B ltac:(intros g Eg; rewrite Fl in Eg; injection Eg as <-; exact Hg) Hpi' Hr Hl Hnear' Hrec).
  assert (Er : forall i, (0 <= i < 3)%Z -> 0 <= row_sum (fun i j => t_cell (mij d) i j Y X) i <= 400).
  { intros i Hi. replace (row_sum (fun i j => t_cell (mij d) i j Y X) i)
      with (row_sum (entry34 (inverse W (modulation_of (mkfour p0 p1 p2 p3)))) i).
    - apply row_sum_400; assumption.
    - unfold row_sum, sum4. rewrite !Ecell by lia. reflexivity. }
  assert (Hpos : 0 <= (dt + de / 2 + df) * I Y X + noise).
  { destruct (Hnear 0%Z ltac:(lia)) as (_ & _ & D1 & D2 & D3). pose proof (Hrec 0%Z ltac:(lia)) as D4.
    pose proof (Rabs_pos (p_t (f4 p 0) - p_t (q 0%Z))). pose proof (Rabs_pos (p_e (f4 p 0) - p_e (q 0%Z))).
    pose proof (Rabs_pos (p_phi (f4 p 0) - p_phi (q 0%Z))).
    match type of D4 with Rabs ?x <= _ => pose proof (Rabs_pos x) end.
    assert (0 <= (dt + de / 2 + df) * I Y X) by (apply Rmult_le_pos; [lra|apply Hl]). lra. }
  destruct B as (B0 & B1 & B2).
  assert (K : forall i, (0 <= i < 3)%Z -> row_sum (fun i j => t_cell (mij d) i j Y X) i * ((dt + de / 2 + df) * I Y X + noise) <= bound).
  { intros i Hi. unfold bound. apply Rmult_le_compat_r; [exact Hpos|]. apply Er. exact Hi. }
  split; [|split]; (eapply Rle_trans; [eassumption|]); apply K; lia.
Qed.

(** ** Ideal micropolarizers *)
Lemma ideal_row_sums : row_sum (entry34 ideal_inverse) 0 = 2 /\ row_sum (entry34 ideal_inverse) 1 = 2 /\
  row_sum (entry34 ideal_inverse) 2 = 2.
Proof.
  unfold row_sum, sum4, entry34, ideal_inverse. cbn.
  rewrite !(Rabs_pos_eq (1 / 2)), !(Rabs_pos_eq 1), !(Rabs_pos_eq 0), Rabs_left by lra. repeat split; lra.
Qed.
