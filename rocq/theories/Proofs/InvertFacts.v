(** C25: demodulation inverts the measured modulation. *)
From Coq Require Import Reals Lra.
From Verif Require Import Base.Base Base.BaseFacts Base.Num Model.Stokes Model.Demodulate Model.DemodFit
  Spec.MosaicSpec Spec.StokesSpec Spec.DemodSpec Spec.FitSpec
  Proofs.MosaicFacts Proofs.DemodFacts Proofs.FitFacts Proofs.GridFacts.
Local Open Scope R_scope.

Lemma recorded_row p k I Q U :
  (0 <= k < 4)%Z ->
  recorded (p_t (f4 p k)) (p_e (f4 p k)) (p_phi (f4 p k)) I Q U =
  entry43 (modulation_of p) k 0 * I + entry43 (modulation_of p) k 1 * Q
  + entry43 (modulation_of p) k 2 * U.
Proof.
  intros Hk. unfold recorded.
  destruct (f4_cases k Hk) as [-> | [-> | [-> | ->]]]; cbn; field.
Qed.

Lemma c25_invert (d : demodulator R) (data : arr R) old h w
    (pinv : mat43 -> mat34) (p : Z -> Z -> four param3) (I Q U : Z -> Z -> R) :
  mosaic data -> h = (rows data / 2)%Z -> w = (cols data / 2)%Z ->
  t_rows (mij d) = h -> t_cols (mij d) = w ->
  (forall f, fit_found_flags d = Some f ->
     (rows f = h /\ cols f = w) /\ (rows (sI old) = h /\ cols (sI old) = w) /\
     (rows (sQ old) = h /\ cols (sQ old) = w) /\ (rows (sU old) = h /\ cols (sU old) = w)) ->
  exists s, demod_raw d data old = Ok s /\
    forall Y X, (0 <= Y < h)%Z -> (0 <= X < w)%Z ->
      (forall f, fit_found_flags d = Some f -> cell f Y X = 1) ->
      (forall i j, (0 <= i < 3)%Z -> (0 <= j < 4)%Z ->
         t_cell (mij d) i j Y X = entry34 (pinv (modulation_of (p Y X))) i j) ->
      pseudo_inverse (entry43 (modulation_of (p Y X))) (entry34 (pinv (modulation_of (p Y X)))) ->
      rank3 (entry43 (modulation_of (p Y X))) ->
      (forall k, (0 <= k < 4)%Z ->
         sample data k Y X =
         recorded (p_t (f4 (p Y X) k)) (p_e (f4 (p Y X) k)) (p_phi (f4 (p Y X) k)) (I Y X) (Q Y X) (U Y X)) ->
      cell (sI s) Y X = I Y X /\ cell (sQ s) Y X = Q Y X /\ cell (sU s) Y X = U Y X.
Proof.
  intros Hm Eh Ew Et1 Et2 Hf.
  destruct (c24_product d data old h w Hm Eh Ew Et1 Et2 Hf) as (s & Es & _ & _ & _ & Hs).
  exists s. split; [exact Es|]. intros Y X HY HX Hfl Hmat Hpi Hr Hrec.
  destruct (Hs Y X HY HX) as (e1 & e2 & e3). rewrite e1, e2, e3.
  assert (F : match fit_found_flags d with None => true | Some f => neqb (cell f Y X) n1 end = true).
  { destruct (fit_found_flags d) as [f|]; [|reflexivity]. rewrite (Hfl f eq_refl).
    change (Reqb 1 1 = true). unfold Reqb. destruct (Req_EM_T 1 1); congruence. }
  rewrite F.
  destruct (pinv_left_inverse _ _ (I Y X) (Q Y X) (U Y X) Hpi Hr) as (l1 & l2 & l3).
  unfold row_product, sum4 in *.
  rewrite !Hmat, !Hrec, !recorded_row by lia.
  cbn [nadd nmul Num_R]. auto.
Qed.

(** The tensor and flags a calibration writes, as a demodulator *)
Lemma c25_end_to_end S whole h w ny nx order hy hx o (data : arr R) old
    (p : Z -> Z -> four param3) (v : Z -> Z -> four mat33) (I Q U : Z -> Z -> R) :
  series_shape whole h w -> (0 < ny)%Z -> (0 < nx)%Z -> (ny * hy = h)%Z -> (nx * hx = w)%Z ->
  Permutation.Permutation order (zrange (ny * nx)) ->
  compute_grid S whole ny nx order = Ok o ->
  mosaic data -> rows data = (2 * h)%Z -> cols data = (2 * w)%Z ->
  (rows (sI old) = h /\ cols (sI old) = w) -> (rows (sQ old) = h /\ cols (sQ old) = w) ->
  (rows (sU old) = h /\ cols (sU old) = w) ->
  exists s,
    demod_raw (mkdemodulator (mktensor h w (fun i j Y X => entry34 (cell (o_m o) Y X) i j)) (Some (o_found o)))
      data old = Ok s /\
    forall Y X, (0 <= Y < h)%Z -> (0 <= X < w)%Z ->
      (** the superpixel was visible and the fits found its true parameters *)
      ~ occulted whole Y X ->
      (forall k, (0 <= k < 4)%Z -> fit_gives S whole Y X k (f4 (p Y X) k) (f4 (v Y X) k)) ->
      within_100 (pinv S (modulation_of (p Y X))) ->
      pseudo_inverse (entry43 (modulation_of (p Y X))) (entry34 (pinv S (modulation_of (p Y X)))) ->
      rank3 (entry43 (modulation_of (p Y X))) ->
      (forall k, (0 <= k < 4)%Z ->
         sample data k Y X =
         recorded (p_t (f4 (p Y X) k)) (p_e (f4 (p Y X) k)) (p_phi (f4 (p Y X) k)) (I Y X) (Q Y X) (U Y X)) ->
      cell (sI s) Y X = I Y X /\ cell (sQ s) Y X = Q Y X /\ cell (sU s) Y X = U Y X.
Proof.
  intros Hs Hny Hnx Ehy Ehx Hp Eo Hm Rd Cd O1 O2 O3.
  destruct (c29_grid S whole h w ny nx order hy hx Hs Hny Hnx Ehy Ehx Hp)
    as (o' & o1 & Eo' & _ & Hsh & _ & Hv).
  assert (o' = o) by congruence. subst o'. clear Eo'.
  destruct Hsh as (_ & Hfd & _).
  set (d := mkdemodulator _ _).
  assert (Eh : h = (rows data / 2)%Z) by (rewrite Rd, Z.mul_comm, Z.div_mul; lia).
  assert (Ew : w = (cols data / 2)%Z) by (rewrite Cd, Z.mul_comm, Z.div_mul; lia).
  assert (Hfl : forall f, fit_found_flags d = Some f ->
     (rows f = h /\ cols f = w) /\ (rows (sI old) = h /\ cols (sI old) = w) /\
     (rows (sQ old) = h /\ cols (sQ old) = w) /\ (rows (sU old) = h /\ cols (sU old) = w)).
  { intros f Ef. injection Ef as <-. repeat (split; [assumption|]). assumption. }
  destruct (c25_invert d data old h w (pinv S) p I Q U Hm Eh Ew eq_refl eq_refl Hfl) as (s & Es & Hinv).
  exists s. split; [exact Es|]. intros Y X HY HX Hocc Hfit Hw Hpi Hr Hrec.
  assert (Hcal : cell (o_m o) Y X = pinv S (modulation_of (p Y X)) /\ cell (o_found o) Y X = 1).
  { destruct (Hv Y X HY HX) as [_ [(Hno & _)|(_ & p0 & p1 & p2 & p3 & c & Hg & Hmat & _)]].
    - exfalso. destruct Hno as [Ho|(k & Hk & Hno)]; [contradiction|]. exact (Hno _ _ (Hfit k Hk)).
    - assert (Ep : forall k, (0 <= k < 4)%Z -> f4 (mkfour p0 p1 p2 p3) k = f4 (p Y X) k).
      { intros k Hk. destruct (Hg k Hk) as [_ a]. destruct (Hfit k Hk) as [_ b]. congruence. }
      pose proof (Ep 0%Z ltac:(lia)) as q0. pose proof (Ep 1%Z ltac:(lia)) as q1.
      pose proof (Ep 2%Z ltac:(lia)) as q2. pose proof (Ep 3%Z ltac:(lia)) as q3.
      cbn in q0, q1, q2, q3. subst p0 p1 p2 p3.
      change (matrix_of S (f_0 (p Y X)) (f_1 (p Y X)) (f_2 (p Y X)) (f_3 (p Y X)))
        with (pinv S (modulation_of (p Y X))) in Hmat.
      destruct Hmat as [(_ & a & b)|(a & _)]; [split; assumption|contradiction]. }
  destruct Hcal as [Hcm Hcf].
  apply Hinv; try assumption.
  - intros f Ef. injection Ef as <-. exact Hcf.
  - intros i j _ _. cbn [d mij t_cell]. rewrite Hcm. reflexivity.
Qed.

(** Ideal micropolarizers at 0, 45, -45, 90 degrees and their pseudo-inverse *)
Definition ideal_params : four param3 :=
  mkfour (1, 1, 0) (1, 1, PI / 4) (1, 1, - (PI / 4)) (1, 1, PI / 2).
Definition ideal_inverse : mat34 :=
  (mkfour (1/2) (1/2) (1/2) (1/2), mkfour 1 0 0 (-1), mkfour 0 1 (-1) 0).

Lemma ideal_modulation :
  modulation_of ideal_params =
  mkfour (1/2, 1/2, 0) (1/2, 0, 1/2) (1/2, 0, -1/2) (1/2, -1/2, 0).
Proof.
  unfold modulation_of, row_of, ideal_params, p_t, p_e, p_phi; cbn [f_0 f_1 f_2 f_3 fst snd].
  replace (2 * 0) with 0 by ring. replace (2 * (PI / 4)) with (PI / 2) by field.
  replace (2 * (- (PI / 4))) with (- (PI / 2)) by field. replace (2 * (PI / 2)) with PI by field.
  rewrite cos_neg, sin_neg, cos_0, sin_0, cos_PI2, sin_PI2, cos_PI, sin_PI.
  f_equal; (apply (f_equal2 pair); [apply (f_equal2 pair)|]); lra.
Qed.

Lemma ideal_rank3 : rank3 (entry43 (modulation_of ideal_params)).
Proof.
  rewrite ideal_modulation. intros a b c H.
  pose proof (H 0%Z ltac:(lia)) as h0. pose proof (H 1%Z ltac:(lia)) as h1.
  pose proof (H 2%Z ltac:(lia)) as h2. pose proof (H 3%Z ltac:(lia)) as h3.
  cbn in h0, h1, h2, h3. lra.
Qed.

Lemma ideal_pseudo : pseudo_inverse (entry43 (modulation_of ideal_params)) (entry34 ideal_inverse).
Proof.
  rewrite ideal_modulation. unfold pseudo_inverse. repeat split; unfold sum3, sum4.
  - intros k j Hk Hj. assert (j = 0 \/ j = 1 \/ j = 2)%Z as Dj by lia.
    destruct (f4_cases k Hk) as [-> | [-> | [-> | ->]]]; destruct Dj as [-> | [-> | ->]]; cbn; lra.
  - intros i k Hi Hk. assert (i = 0 \/ i = 1 \/ i = 2)%Z as Di by lia.
    destruct (f4_cases k Hk) as [-> | [-> | [-> | ->]]]; destruct Di as [-> | [-> | ->]]; cbn; lra.
  - intros k l Hk Hl.
    destruct (f4_cases k Hk) as [-> | [-> | [-> | ->]]]; destruct (f4_cases l Hl) as [-> | [-> | [-> | ->]]];
      cbn; lra.
  - intros i j Hi Hj. assert (i = 0 \/ i = 1 \/ i = 2)%Z as Di by lia.
    assert (j = 0 \/ j = 1 \/ j = 2)%Z as Dj by lia.
    destruct Di as [-> | [-> | ->]]; destruct Dj as [-> | [-> | ->]]; cbn; lra.
Qed.

Lemma ideal_within : within_100 ideal_inverse.
Proof.
  intros i k Hi Hk. assert (i = 0 \/ i = 1 \/ i = 2)%Z as Di by lia.
  destruct Di as [-> | [-> | ->]]; destruct (f4_cases k Hk) as [-> | [-> | [-> | ->]]]; cbn; lra.
Qed.
