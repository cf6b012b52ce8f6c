(** Proofs for C101. *)
From Coq Require Import String Reals Lra Permutation.
From Verif Require Import Base.Base Base.BaseFacts Base.Num Base.Bcast Model.Rebin Model.Stokes Model.Demodulate
  Model.DemodFit Model.DemodLoad Model.DemodCov Model.Calibrate Spec.Terminates Spec.MosaicSpec Spec.StokesSpec Spec.DemodSpec Spec.FitSpec
  Spec.CalibSpec Spec.LoadSpec Spec.CovSpec Spec.PipeSpec Proofs.LoadFacts Proofs.CovFacts Proofs.InvertFacts Proofs.CalibFacts Proofs.UtilFacts.
Local Open Scope R_scope.
Ltac Zify.zify_post_hook ::= idtac.

(** ** Malus curves are determined by three orientations *)
Lemma different_sin a b : different a b -> sin (a - b) <> 0.
Proof. intros D E. apply sin_eq_0_0 in E. destruct E as (n & E). exact (D n E). Qed.

Lemma pair_zero b c x y : b * (cos (2 * x) - cos (2 * y)) + c * (sin (2 * x) - sin (2 * y)) = 0 ->
  sin (x - y) <> 0 -> - b * sin (x + y) + c * cos (x + y) = 0.
Proof.
  intros E S. assert (E1 : cos (2 * x) - cos (2 * y) = -2 * sin (x - y) * sin (x + y)).
  { rewrite form2. replace ((2 * x - 2 * y) / 2) with (x - y) by field. replace ((2 * x + 2 * y) / 2) with (x + y) by field. ring. }
  assert (E2 : sin (2 * x) - sin (2 * y) = 2 * cos (x + y) * sin (x - y)).
  { rewrite form4. replace ((2 * x - 2 * y) / 2) with (x - y) by field. replace ((2 * x + 2 * y) / 2) with (x + y) by field. ring. }
  rewrite E1, E2 in E. apply (Rmult_eq_reg_l (2 * sin (x - y))); [|lra]. rewrite Rmult_0_r. rewrite <- E. ring.
Qed.

Lemma malus_zero a b c x y z : sin (x - y) <> 0 -> sin (y - z) <> 0 -> sin (x - z) <> 0 ->
  a + b * cos (2 * x) + c * sin (2 * x) = 0 -> a + b * cos (2 * y) + c * sin (2 * y) = 0 ->
  a + b * cos (2 * z) + c * sin (2 * z) = 0 -> a = 0 /\ b = 0 /\ c = 0.
Proof.
  intros Sxy Syz Sxz Ex Ey Ez.
  assert (P1 : - b * sin (x + y) + c * cos (x + y) = 0) by (apply pair_zero; [lra|exact Sxy]).
  assert (P2 : - b * sin (x + z) + c * cos (x + z) = 0) by (apply pair_zero; [lra|exact Sxz]).
  assert (D : sin (x + y) * cos (x + z) - cos (x + y) * sin (x + z) = sin (y - z)).
  { rewrite <- sin_minus. f_equal. ring. }
  assert (B : b * sin (y - z) = 0).
  { rewrite <- D. replace (b * (sin (x + y) * cos (x + z) - cos (x + y) * sin (x + z)))
      with (- (- b * sin (x + y) + c * cos (x + y)) * cos (x + z) + (- b * sin (x + z) + c * cos (x + z)) * cos (x + y)) by ring.
    rewrite P1, P2. ring. }
  assert (C : c * sin (y - z) = 0).
  { rewrite <- D. replace (c * (sin (x + y) * cos (x + z) - cos (x + y) * sin (x + z)))
      with (- (- b * sin (x + y) + c * cos (x + y)) * sin (x + z) + (- b * sin (x + z) + c * cos (x + z)) * sin (x + y)) by ring.
    rewrite P1, P2. ring. }
  assert (b = 0) by (destruct (Rmult_integral _ _ B); [assumption|contradiction]).
  assert (c = 0) by (destruct (Rmult_integral _ _ C); [assumption|contradiction]). subst. split; [lra|split; reflexivity].
Qed.

Lemma passed_form p x : passed p x = p_t p / 2 + p_t p / 2 * p_e p * cos (2 * p_phi p) * cos (2 * x) + p_t p / 2 * p_e p * sin (2 * p_phi p) * sin (2 * x).
Proof. unfold passed. replace (2 * (x - p_phi p)) with (2 * x - 2 * p_phi p) by ring. rewrite cos_minus. ring. Qed.

Lemma same_direction u v : cos u = cos v -> sin u = sin v -> Rabs (u - v) < 2 * PI -> u = v.
Proof.
  intros C S Hb. pose proof PI_RGT_0 as P.
  assert (E : cos (u - v) = 1).
  { rewrite cos_minus, C, S. pose proof (sin2_cos2 v) as T. unfold Rsqr in T. lra. }
  assert (Z0 : sin ((u - v) / 2) = 0).
  { replace (u - v) with (2 * ((u - v) / 2)) in E by field. rewrite cos_2a_sin in E.
    assert (Q : sin ((u - v) / 2) * sin ((u - v) / 2) = 0) by lra. apply Rmult_integral in Q. destruct Q; assumption. }
  apply sin_eq_0_0 in Z0. destruct Z0 as (n & En). apply Rabs_def2 in Hb.
  assert (n = 0%Z).
  { assert (-1 < IZR n < 1); [|assert (-1 < n < 1)%Z by (split; apply lt_IZR; lra); lia].
    split; apply (Rmult_lt_reg_r PI); lra. }
  subst n. lra.
Qed.

(** Parameters are determined by the samples. *)
Lemma parameters_unique angles p q : three_different angles ->
  0 < p_t p -> 0 < p_e p -> 0 <= p_e q -> Rabs (p_phi p - p_phi q) < PI ->
  map (passed p) angles = map (passed q) angles -> p = q.
Proof.
  intros (x & y & z & Ix & Iy & Iz & Dxy & Dyz & Dxz) Tp Ep Eq Hphi E.
  assert (G : forall u, In u angles -> passed p u = passed q u).
  { clear - E. induction angles as [|a l IH]; [intros u []|]. cbn [map] in E. injection E as E0 E1.
    intros u [->|Hin]; [exact E0|exact (IH E1 u Hin)]. }
  pose proof (G x Ix) as Gx. pose proof (G y Iy) as Gy. pose proof (G z Iz) as Gz. rewrite !passed_form in Gx, Gy, Gz.
  destruct (malus_zero (p_t p / 2 - p_t q / 2)
    (p_t p / 2 * p_e p * cos (2 * p_phi p) - p_t q / 2 * p_e q * cos (2 * p_phi q))
    (p_t p / 2 * p_e p * sin (2 * p_phi p) - p_t q / 2 * p_e q * sin (2 * p_phi q)) x y z) as (A & B & C);
    try (apply different_sin; assumption); try lra.
  assert (Et : p_t q = p_t p) by lra. rewrite Et in B, C.
  assert (B' : p_e p * cos (2 * p_phi p) = p_e q * cos (2 * p_phi q)) by (apply (Rmult_eq_reg_l (p_t p / 2)); lra).
  assert (C' : p_e p * sin (2 * p_phi p) = p_e q * sin (2 * p_phi q)) by (apply (Rmult_eq_reg_l (p_t p / 2)); lra).
  assert (Ee : p_e p = p_e q).
  { apply Rsqr_inj; [lra|exact Eq|]. unfold Rsqr.
    pose proof (sin2_cos2 (2 * p_phi p)) as T1. pose proof (sin2_cos2 (2 * p_phi q)) as T2. unfold Rsqr in T1, T2.
    replace (p_e p * p_e p) with ((p_e p * sin (2 * p_phi p)) * (p_e p * sin (2 * p_phi p)) + (p_e p * cos (2 * p_phi p)) * (p_e p * cos (2 * p_phi p)))
      by (replace (p_e p * p_e p) with (p_e p * p_e p * 1) by ring; rewrite <- T1; ring).
    rewrite B', C'. replace (p_e q * p_e q) with (p_e q * p_e q * 1) by ring. rewrite <- T2. ring. }
  rewrite <- Ee in B', C'. apply Rmult_eq_reg_l in B', C'; [|lra|lra].
  assert (Ef : 2 * p_phi p = 2 * p_phi q).
  { apply same_direction; [exact B'|exact C'|]. replace (2 * p_phi p - 2 * p_phi q) with (2 * (p_phi p - p_phi q)) by ring.
    rewrite Rabs_mult, (Rabs_right 2) by lra. lra. }
  destruct p as ((t, e), f), q as ((t', e'), f'). unfold p_t, p_e, p_phi in *. cbn [fst snd] in *. repeat f_equal; lra.
Qed.

Lemma not_all_dark angles p : three_different angles -> 0 < p_t p -> ~ dark (map (passed p) angles).
Proof.
  intros (x & y & z & Ix & Iy & Iz & Dxy & Dyz & Dxz) Tp D. unfold dark in D. rewrite Forall_forall in D.
  assert (G : forall u, In u angles -> passed p u = 0) by (intros u Hu; apply D, in_map; exact Hu).
  pose proof (G x Ix) as Gx. pose proof (G y Iy) as Gy. pose proof (G z Iz) as Gz. rewrite !passed_form in Gx, Gy, Gz.
  destruct (malus_zero _ _ _ x y z (different_sin _ _ Dxy) (different_sin _ _ Dyz) (different_sin _ _ Dxz) Gx Gy Gz) as (A & _). lra.
Qed.

Lemma exact_unique S k angles p q : three_different angles -> positive_bounds S ->
  explains angles (map (passed p) angles) (search_box S k) p ->
  explains angles (map (passed p) angles) (search_box S k) q -> q = p.
Proof.
  intros H3 (Ht & He) (Bp & _) (Bq & E). pose proof PI_RGT_0 as P.
  unfold in_box, search_box in Bp, Bq. unfold p_t, p_e, p_phi in *. cbn [fst snd] in *.
  symmetry. apply (parameters_unique angles p q H3); unfold p_t, p_e, p_phi; try lra; [|exact E].
  apply Rabs_def1; lra.
Qed.

Lemma series_same h w f g Y X k : (0 <= Y < h)%Z -> (0 <= X < w)%Z -> (0 <= k < 4)%Z -> same_images h w f g ->
  map (fun image => image (2 * Y + k / 2)%Z (2 * X + k mod 2)%Z) f = map (fun image => image (2 * Y + k / 2)%Z (2 * X + k mod 2)%Z) g.
Proof.
  intros HY HX Hk Hs. assert (Hq : (0 <= k / 2 <= 1 /\ 0 <= k mod 2 <= 1)%Z).
  { pose proof (Z.mod_pos_bound k 2 ltac:(lia)). pose proof (Z.div_mod k 2 ltac:(lia)). lia. }
  induction Hs as [|a b f g E Hs IH]; [reflexivity|]. cbn [map]. rewrite IH, E by lia. reflexivity.
Qed.

Lemma m_entry_34 m i k : (0 <= i < 3)%Z -> m_entry m i k = entry34 m i k.
Proof.
  intros Hi. destruct m as ((r0, r1), r2). unfold m_entry, entry34. destruct (i =? 0)%Z; [reflexivity|]. destruct (i =? 1)%Z; reflexivity.
Qed.

Lemma pipeline W args os fs ps images dark norms h w hy hx (p : Z -> Z -> four param3) :
  Permutation ps (combine os fs) -> by_orientation ps -> ps <> [] ->
  (1 <= a_binning args)%Z -> (0 <= h)%Z -> (0 <= w)%Z ->
  Forall2 (fun p r => file_image W (a_binning args) h w (snd p) r) ps images ->
  dark_is W args h w dark -> a_flat args = None -> a_occulter args = None ->
  norms_are W args dark ps images h w norms -> 0 < a_gain args ->
  (forall r y x, In r images -> (0 <= y < 2 * h)%Z -> (0 <= x < 2 * w)%Z -> 0 <= level dark r y x) ->
  (0 < a_ny args)%Z -> (0 < a_nx args)%Z -> (a_ny args * hy = h)%Z -> (a_nx args * hx = w)%Z ->
  Permutation (finish W) (zrange (a_ny args * a_nx args)) ->
  let S := settings_of W args ps in
  three_different (angles_rad S) -> positive_bounds S -> (forall k, (0 <= k < 4)%Z -> finds_exact (fit W) (angles_rad S) (search_box S k)) ->
  (forall Y X k, (0 <= Y < h)%Z -> (0 <= X < w)%Z -> (0 <= k < 4)%Z ->
     in_box (f4 (p Y X) k) (search_box S k) /\
     map (fun image => image (2 * Y + k / 2)%Z (2 * X + k mod 2)%Z) (relative dark images norms) =
     map (passed (f4 (p Y X) k)) (angles_rad S)) ->
  exists o, evaluates (fun fuel => calibrate W args fuel os fs) o /\ maps_shape o h w /\
    forall Y X, (0 <= Y < h)%Z -> (0 <= X < w)%Z ->
      (forall k, (0 <= k < 4)%Z -> pixel_of (o_tk o) Y X k = p_t (f4 (p Y X) k) /\
         pixel_of (o_eff o) Y X k = p_e (f4 (p Y X) k) /\ pixel_of (o_phase o) Y X k = p_phi (f4 (p Y X) k)) /\
      (within_100 (inverse W (modulation_of (p Y X))) ->
       cell (o_m o) Y X = inverse W (modulation_of (p Y X)) /\ cell (o_found o) Y X = 1).
Proof.
  intros Hp Hord Hne Hb Hh Hw Himg Hdark Hflat Hocc Hnorm Hgain Hlev Hny Hnx Ehy Ehx Hfin S H3 Hpos Hfit Htrue.
  destruct (c75_matched W args os fs ps images dark norms h w hy hx Hp Hord Hne Hb Hh Hw Himg Hdark Hflat Hnorm Hgain Hlev Hny Hnx Ehy Ehx Hfin)
    as (c & o & Ev & Hser & Hmaps & Hdat & _ & Hoc & Hcal).
  exists o. split; [exact Ev|]. split; [exact Hmaps|]. intros Y X HY HX.
  assert (Hvis : ~ occulted c Y X).
  { rewrite Hocc in Hoc. injection Hoc as Eo. intros (k & _ & Hk). apply Hk. unfold pixel_of. rewrite <- Eo. reflexivity. }
  assert (Hg : forall k, (0 <= k < 4)%Z -> exists v, fit_gives S c Y X k (f4 (p Y X) k) v).
  { intros k Hk. destruct (Htrue Y X k HY HX Hk) as (Bx & Es).
    assert (Esc : series c Y X k = map (passed (f4 (p Y X) k)) (angles_rad S)).
    { unfold series. rewrite (series_same h w _ _ Y X k HY HX Hk Hdat). exact Es. }
    assert (Hx : explains (angles_rad S) (map (passed (f4 (p Y X) k)) (angles_rad S)) (search_box S k) (f4 (p Y X) k)) by (split; [exact Bx|reflexivity]).
    destruct (Hfit k Hk (series c Y X k) (first_guess S k) (errors c Y X k) (f4 (p Y X) k)) as (v & Ef).
    - rewrite Esc. exact Hx.
    - intros q Hq. rewrite Esc in Hq. exact (exact_unique S k _ _ q H3 Hpos Hx Hq).
    - exists v. split; [|exact Ef]. rewrite Esc. apply not_all_dark; [exact H3|]. destruct Bx as ((B1 & _) & _).
      destruct Hpos as (Ht & _). unfold search_box in B1. unfold p_t, p_e in *. cbn [fst snd] in *. lra. }
  destruct (Hcal Y X HY HX) as [(Hno & _)|(_ & p0 & p1 & p2 & p3 & v & Hall & Hmat & Hpar)].
  { exfalso. destruct Hno as [Ho|(k & Hk & Hno)]; [exact (Hvis Ho)|]. destruct (Hg k Hk) as (v & Hv). exact (Hno _ _ Hv). }
  assert (Ep : forall k, (0 <= k < 4)%Z -> f4 (mkfour p0 p1 p2 p3) k = f4 (p Y X) k).
  { intros k Hk. destruct (Hall k Hk) as [_ E1]. destruct (Hg k Hk) as (v' & _ & E2). fold S in E1. rewrite E2 in E1.
    injection E1 as E1 _. symmetry. exact E1. }
  split.
  - intros k Hk. destruct (Hpar k Hk) as (A & B & C & _). rewrite <- (Ep k Hk). auto.
  - intros Hw100. pose proof (Ep 0%Z ltac:(lia)) as q0. pose proof (Ep 1%Z ltac:(lia)) as q1.
    pose proof (Ep 2%Z ltac:(lia)) as q2. pose proof (Ep 3%Z ltac:(lia)) as q3. cbn in q0, q1, q2, q3. subst p0 p1 p2 p3.
    change (matrix_of (settings_of W args ps) (f_0 (p Y X)) (f_1 (p Y X)) (f_2 (p Y X)) (f_3 (p Y X)))
      with (inverse W (modulation_of (p Y X))) in Hmat.
    destruct Hmat as [(_ & A & B)|(A & _)]; [split; assumption|contradiction].
Qed.

(** From calibration images to Stokes parameters, through the files. *)
Lemma end_to_end W args os fs ps images dark norms h w hy hx (p : Z -> Z -> four param3) :
  Permutation ps (combine os fs) -> by_orientation ps -> ps <> [] ->
  (1 <= a_binning args)%Z -> (0 <= h)%Z -> (0 <= w)%Z ->
  Forall2 (fun p r => file_image W (a_binning args) h w (snd p) r) ps images ->
  dark_is W args h w dark -> a_flat args = None -> a_occulter args = None ->
  norms_are W args dark ps images h w norms -> 0 < a_gain args ->
  (forall r y x, In r images -> (0 <= y < 2 * h)%Z -> (0 <= x < 2 * w)%Z -> 0 <= level dark r y x) ->
  (0 < a_ny args)%Z -> (0 < a_nx args)%Z -> (a_ny args * hy = h)%Z -> (a_nx args * hx = w)%Z ->
  Permutation (finish W) (zrange (a_ny args * a_nx args)) ->
  let S := settings_of W args ps in
  three_different (angles_rad S) -> positive_bounds S -> (forall k, (0 <= k < 4)%Z -> finds_exact (fit W) (angles_rad S) (search_box S k)) ->
  (forall Y X k, (0 <= Y < h)%Z -> (0 <= X < w)%Z -> (0 <= k < 4)%Z ->
     in_box (f4 (p Y X) k) (search_box S k) /\
     map (fun image => image (2 * Y + k / 2)%Z (2 * X + k mod 2)%Z) (relative dark images norms) =
     map (passed (f4 (p Y X) k)) (angles_rad S)) ->
  exists o, evaluates (fun fuel => calibrate W args fuel os fs) o /\
    forall files, Permutation files (written_files (results o)) ->
    exists d t e f, load files = Ok d /\ tk files = Ok t /\ eff files = Ok e /\ phi files = Ok f /\
      (forall Y X k, (0 <= Y < h)%Z -> (0 <= X < w)%Z -> (0 <= k < 4)%Z ->
         pixel_of t Y X k = p_t (f4 (p Y X) k) /\ pixel_of e Y X k = p_e (f4 (p Y X) k) /\
         pixel_of f Y X k = degrees (p_phi (f4 (p Y X) k))) /\
      forall (data : arr R) old (I Q U : Z -> Z -> R),
        mosaic data -> rows data = (2 * h)%Z -> cols data = (2 * w)%Z ->
        (rows (sI old) = h /\ cols (sI old) = w) -> (rows (sQ old) = h /\ cols (sQ old) = w) ->
        (rows (sU old) = h /\ cols (sU old) = w) ->
        exists s, demod_raw d data old = Ok s /\
          forall Y X, (0 <= Y < h)%Z -> (0 <= X < w)%Z ->
            within_100 (inverse W (modulation_of (p Y X))) ->
            pseudo_inverse (entry43 (modulation_of (p Y X))) (entry34 (inverse W (modulation_of (p Y X)))) ->
            rank3 (entry43 (modulation_of (p Y X))) ->
            (forall k, (0 <= k < 4)%Z ->
               sample data k Y X =
               recorded (p_t (f4 (p Y X) k)) (p_e (f4 (p Y X) k)) (p_phi (f4 (p Y X) k)) (I Y X) (Q Y X) (U Y X)) ->
            cell (sI s) Y X = I Y X /\ cell (sQ s) Y X = Q Y X /\ cell (sU s) Y X = U Y X.
Proof.
  intros Hp Hord Hne Hb Hh Hw Himg Hdark Hflat Hocc Hnorm Hgain Hlev Hny Hnx Ehy Ehx Hfin S H3 Hpos Hfit Htrue.
  destruct (pipeline W args os fs ps images dark norms h w hy hx p Hp Hord Hne Hb Hh Hw Himg Hdark Hflat Hocc Hnorm Hgain Hlev Hny Hnx Ehy Ehx Hfin H3 Hpos Hfit Htrue)
    as (o & Ev & Hmaps & Hres).
  exists o. split; [exact Ev|]. intros files Hperm.
  assert (Hnd : NoDup (map fst files)).
  { apply (Permutation_NoDup (l := map fst (written_files (results o)))); [apply Permutation_map, Permutation_sym, Hperm|].
    vm_compute. repeat (constructor; [cbn; intuition discriminate|]). constructor. }
  rewrite <- (app_nil_r (written_files (results o))) in Hperm.
  destruct (c27_roundtrip (results o) [] files Hperm Hnd ltac:(intros n g [])) as (d & El & (Tr & Tc & Tv) & Fl).
  destruct (c98_maps (results o) [] files Hperm Hnd) as (E1 & E2 & E3).
  destruct Hmaps as ((Rm & Cm) & (Rf & Cf) & (Rt & Ct) & (Re & Ce) & (Rp & Cp) & _).
  exists d, (o_tk o), (o_eff o), (amap rad2deg (o_phase o)). repeat (split; [assumption|]). split.
  - intros Y X k HY HX Hk. destruct (proj1 (Hres Y X HY HX) k Hk) as (A & B & C). split; [exact A|]. split; [exact B|].
    unfold pixel_of in *. cbn [amap cell]. rewrite C. unfold rad2deg, degrees. field. apply PI_neq0.
  - intros data old I Q U Hm Rd Cd O1 O2 O3.
    assert (Eh : h = (rows data / 2)%Z) by (rewrite Rd, Z.mul_comm, Z.div_mul; lia).
    assert (Ew : w = (cols data / 2)%Z) by (rewrite Cd, Z.mul_comm, Z.div_mul; lia).
    cbn [results k_m k_found t_rows t_cols t_cell] in Tr, Tc, Tv, Fl. rewrite Rm in Tr, Tv. rewrite Cm in Tc, Tv.
    assert (Hfl : forall g, fit_found_flags d = Some g ->
       (rows g = h /\ cols g = w) /\ (rows (sI old) = h /\ cols (sI old) = w) /\
       (rows (sQ old) = h /\ cols (sQ old) = w) /\ (rows (sU old) = h /\ cols (sU old) = w)).
    { intros g Eg. rewrite Fl in Eg. injection Eg as <-. auto. }
    destruct (c25_invert d data old h w (inverse W) p I Q U Hm Eh Ew Tr Tc Hfl) as (s & Es & Hinv).
    exists s. split; [exact Es|]. intros Y X HY HX Hw100 Hpi Hr Hrec.
    destruct (proj2 (Hres Y X HY HX) Hw100) as (A & B).
    apply Hinv; try assumption.
    + intros g Eg. rewrite Fl in Eg. injection Eg as <-. exact B.
    + intros i j Hi Hj. rewrite Tv by assumption. rewrite m_entry_34 by exact Hi. rewrite A. reflexivity.
Qed.

Lemma c100_pipeline W args os fs ps images dark norms h w (p : Z -> Z -> four param3) :
  calibration_input W args os fs ps images dark norms h w ->
  let S := settings_of W args ps in
  three_different (angles_rad S) -> positive_bounds S ->
  (forall k, (0 <= k < 4)%Z -> finds_exact (fit W) (angles_rad S) (search_box S k)) ->
  lamp_recorded S (relative dark images norms) h w p ->
  exists o, evaluates (fun fuel => calibrate W args fuel os fs) o /\
    forall files, Permutation files (written_files (results o)) ->
    exists d t e f, load files = Ok d /\ tk files = Ok t /\ eff files = Ok e /\ phi files = Ok f /\
      (forall Y X k, (0 <= Y < h)%Z -> (0 <= X < w)%Z -> (0 <= k < 4)%Z ->
         pixel_of t Y X k = p_t (f4 (p Y X) k) /\ pixel_of e Y X k = p_e (f4 (p Y X) k) /\
         pixel_of f Y X k = degrees (p_phi (f4 (p Y X) k))) /\
      forall (data : arr R) old (I Q U : Z -> Z -> R),
        mosaic data -> rows data = (2 * h)%Z -> cols data = (2 * w)%Z ->
        (rows (sI old) = h /\ cols (sI old) = w) -> (rows (sQ old) = h /\ cols (sQ old) = w) ->
        (rows (sU old) = h /\ cols (sU old) = w) ->
        exists s, demod_raw d data old = Ok s /\
          forall Y X, (0 <= Y < h)%Z -> (0 <= X < w)%Z ->
            within_100 (inverse W (modulation_of (p Y X))) ->
            pseudo_inverse (entry43 (modulation_of (p Y X))) (entry34 (inverse W (modulation_of (p Y X)))) ->
            rank3 (entry43 (modulation_of (p Y X))) ->
            (forall k, (0 <= k < 4)%Z ->
               sample data k Y X =
               recorded (p_t (f4 (p Y X) k)) (p_e (f4 (p Y X) k)) (p_phi (f4 (p Y X) k)) (I Y X) (Q Y X) (U Y X)) ->
            cell (sI s) Y X = I Y X /\ cell (sQ s) Y X = Q Y X /\ cell (sU s) Y X = U Y X.
Proof.
  intros (H1 & H2 & H4 & H5 & H6 & H7 & H8 & H9 & H10 & H11 & H12 & H13 & H14 & H15 & H16 & H17 & H18 & H19) S A B C D.
  apply (end_to_end W args os fs ps images dark norms h w (h / a_ny args) (w / a_nx args) p); try assumption.
  - pose proof (Z.div_mod h (a_ny args) ltac:(lia)). lia.
  - pose proof (Z.div_mod w (a_nx args) ltac:(lia)). lia.
Qed.

Lemma c100_determined S k angles samples p q : three_different angles -> positive_bounds S ->
  explains angles samples (search_box S k) p -> explains angles samples (search_box S k) q -> q = p.
Proof.
  intros H3 Hpos Hp Hq. destruct Hp as (Bp & Es). subst samples. exact (exact_unique S k angles p q H3 Hpos (conj Bp eq_refl) Hq).
Qed.

(** The covariances of the fits, through the files. *)
Lemma cov_results_read o h w files : maps_shape o h w -> Permutation files (cov_results o) ->
  exists m, Cij files = Ok (Some m) /\
    forall Y X k i j, (0 <= Y < h)%Z -> (0 <= X < w)%Z -> (0 <= k < 4)%Z -> (0 <= i < 3)%Z -> (0 <= j < 3)%Z ->
      t_cell m i j (2 * Y + k / 2) (2 * X + k mod 2) = pixel_of (o_cov o) Y X k i j.
Proof.
  intros (_ & _ & _ & _ & _ & (Rv & Cv) & (Rx & Cx)) Hp. unfold cov_results in Hp.
  edestruct (c98_cov (mktensor (rows (o_cov o)) (cols (o_cov o)) (fun i j y x => cell (o_cov o) y x i j)) (o_chisq o) [] files)
    as (m & Em & _ & _ & Hm).
  - cbn [t_rows]. congruence.
  - cbn [t_cols]. congruence.
  - rewrite app_nil_r. exact Hp.
  - intros n f [].
  - exists m. split; [exact Em|]. intros Y X k i j HY HX Hk Hi Hj.
    assert (0 <= k / 2 < 2)%Z by (split; [apply Z.div_pos; lia|apply Z.div_lt_upper_bound; lia]).
    pose proof (Z.mod_pos_bound k 2 ltac:(lia)).
    rewrite Hm; [reflexivity|lia|lia|cbn [t_rows]; lia|cbn [t_cols]; lia].
Qed.

Lemma c98_calibrated W args os fs ps images dark norms h w :
  calibration_input W args os fs ps images dark norms h w ->
  let S := settings_of W args ps in
  exists c o, evaluates (fun fuel => calibrate W args fuel os fs) o /\
    same_images h w (c_data c) (relative dark images norms) /\
    same_images h w (c_err c) (noise dark (a_gain args) images norms) /\
    forall files, Permutation files (cov_results o) ->
    exists m, Cij files = Ok (Some m) /\
      forall Y X, (0 <= Y < h)%Z -> (0 <= X < w)%Z ->
        forall k i j, (0 <= k < 4)%Z -> (0 <= i < 3)%Z -> (0 <= j < 3)%Z ->
        (no_fit S c Y X -> t_cell m i j (2 * Y + k / 2) (2 * X + k mod 2) = 0) /\
        (~ no_fit S c Y X -> exists p v, fit_gives S c Y X k p v /\
           t_cell m i j (2 * Y + k / 2) (2 * X + k mod 2) = v i j).
Proof.
  intros (H1 & H2 & H4 & H5 & H6 & H7 & H8 & H9 & H10 & H11 & H12 & H13 & H14 & H15 & H16 & H17 & H18 & H19) S.
  destruct (c75_matched W args os fs ps images dark norms h w (h / a_ny args) (w / a_nx args)) as (c & o & Ev & _ & Hmaps & Hd & He & _ & Hcal);
    try assumption.
  { pose proof (Z.div_mod h (a_ny args) ltac:(lia)). lia. }
  { pose proof (Z.div_mod w (a_nx args) ltac:(lia)). lia. }
  exists c, o. split; [exact Ev|]. split; [exact Hd|]. split; [exact He|]. intros files Hp.
  destruct (cov_results_read o h w files Hmaps Hp) as (m & Em & Hm).
  exists m. split; [exact Em|]. intros Y X HY HX k i j Hk Hi Hj. rewrite (Hm Y X k i j HY HX Hk Hi Hj).
  destruct (Hcal Y X HY HX) as [(Hno & _ & _ & Hz)|(Hoc & p0 & p1 & p2 & p3 & v & Hall & _ & Hpar)].
  - split; [|intros N; contradiction]. intros _. destruct (Hz k Hk) as (_ & _ & _ & Ev' & _). rewrite Ev'. reflexivity.
  - destruct (Hpar k Hk) as (_ & _ & _ & Ec & _). split.
    + intros [O|(k' & Hk' & N)]; [contradiction|]. exfalso. exact (N _ _ (Hall k' Hk')).
    + intros _. exists (f4 (mkfour p0 p1 p2 p3) k), (f4 v k). split; [exact (Hall k Hk)|]. rewrite Ec. reflexivity.
Qed.
