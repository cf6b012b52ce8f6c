(** Demodulation amplifies noise least (C129). *)
From Coq Require Import Reals Lra Lia.
From Verif Require Import Base.Base Base.Num Model.Stokes Model.Demodulate Model.DemodFit
  Spec.MosaicSpec Spec.StokesSpec Spec.DemodSpec Spec.FitSpec Spec.LeastSpec Spec.NoiseSpec
  Proofs.StokesFacts Proofs.DemodFacts Proofs.InvertFacts Proofs.NearFacts Proofs.SymmetryFacts Proofs.LeastFacts.
Local Open Scope R_scope.

Lemma orthogonal M P e i : pseudo_inverse M P -> (0 <= i < 3)%Z -> (forall j, (0 <= j < 3)%Z -> sum4 (fun k => e k * M k j) = 0) ->
  sum4 (fun k => e k * P i k) = 0.
Proof.
  intros (_ & H2 & H3 & _) Hi He. cbv zeta in H2, H3.
  set (MP := fun k l => sum3 (fun i => M k i * P i l)) in *.
  assert (S : forall a b, (0 <= a < 4)%Z -> (0 <= b < 4)%Z -> MP a b = MP b a) by exact H3.
  assert (E : forall k, (0 <= k < 4)%Z -> P i k = sum3 (fun j => M k j * sum4 (fun l => P i l * P j l))).
  { intros k Hk. rewrite <- (H2 i k Hi Hk). transitivity (sum4 (fun l => P i l * MP l k)); [unfold MP, sum4, sum3; ring|].
    unfold sum4. rewrite (S 0%Z k), (S 1%Z k), (S 2%Z k), (S 3%Z k) by lia. unfold MP, sum3, sum4. ring. }
  unfold sum4 at 1. rewrite (E 0%Z), (E 1%Z), (E 2%Z), (E 3%Z) by lia.
  transitivity (sum3 (fun j => sum4 (fun k => e k * M k j) * sum4 (fun l => P i l * P j l))); [unfold sum3, sum4; ring|].
  unfold sum3. rewrite !He by lia. ring.
Qed.

Lemma unbiased_columns p i w : unbiased p i w -> forall j, (0 <= j < 3)%Z ->
  sum4 (fun k => w k * entry43 (modulation_of p) k j) = if (i =? 0)%Z then (if (j =? 0)%Z then 1 else 0) else if (i =? 1)%Z then (if (j =? 1)%Z then 1 else 0) else if (j =? 2)%Z then 1 else 0.
Proof.
  intros U j Hj.
  assert (E : forall a b c, sum4 (fun k => w k * apply43 (entry43 (modulation_of p)) a b c k) = component i a b c).
  { intros a b c. rewrite <- (U a b c). unfold sum4. rewrite !recorded_apply by lia. reflexivity. }
  assert (j = 0 \/ j = 1 \/ j = 2)%Z as [-> |[-> | ->]] by lia.
  - specialize (E 1 0 0). unfold component in E. unfold apply43 in E. replace (sum4 (fun k => w k * entry43 (modulation_of p) k 0)) with (sum4 (fun k => w k * (entry43 (modulation_of p) k 0 * 1 + entry43 (modulation_of p) k 1 * 0 + entry43 (modulation_of p) k 2 * 0))) by (unfold sum4; ring).
    rewrite E. cbn. destruct (i =? 0)%Z, (i =? 1)%Z; reflexivity.
  - specialize (E 0 1 0). unfold component in E. unfold apply43 in E. replace (sum4 (fun k => w k * entry43 (modulation_of p) k 1)) with (sum4 (fun k => w k * (entry43 (modulation_of p) k 0 * 0 + entry43 (modulation_of p) k 1 * 1 + entry43 (modulation_of p) k 2 * 0))) by (unfold sum4; ring).
    rewrite E. cbn. destruct (i =? 0)%Z, (i =? 1)%Z; reflexivity.
  - specialize (E 0 0 1). unfold component in E. unfold apply43 in E. replace (sum4 (fun k => w k * entry43 (modulation_of p) k 2)) with (sum4 (fun k => w k * (entry43 (modulation_of p) k 0 * 0 + entry43 (modulation_of p) k 1 * 0 + entry43 (modulation_of p) k 2 * 1))) by (unfold sum4; ring).
    rewrite E. cbn. destruct (i =? 0)%Z, (i =? 1)%Z; reflexivity.
Qed.

Lemma pinv_unbiased p P i : pseudo_inverse (entry43 (modulation_of p)) P -> rank3 (entry43 (modulation_of p)) -> (0 <= i < 3)%Z -> unbiased p i (P i).
Proof.
  intros Hp Hr Hi I Q U. pose proof (pinv_left_inverse _ _ I Q U Hp Hr) as L. cbv zeta in L. destruct L as (L0 & L1 & L2).
  assert (E : forall i, sum4 (fun k => P i k * recorded (p_t (f4 p k)) (p_e (f4 p k)) (p_phi (f4 p k)) I Q U) =
    sum4 (fun k => P i k * (entry43 (modulation_of p) k 0 * I + entry43 (modulation_of p) k 1 * Q + entry43 (modulation_of p) k 2 * U))).
  { intros i'. unfold sum4. rewrite !recorded_row by lia. reflexivity. }
  rewrite E. assert (i = 0 \/ i = 1 \/ i = 2)%Z as [-> |[-> | ->]] by lia; assumption.
Qed.

Lemma least_noise p P i w s : pseudo_inverse (entry43 (modulation_of p)) P -> rank3 (entry43 (modulation_of p)) -> (0 <= i < 3)%Z -> unbiased p i w ->
  variance (fun _ => s) w = variance (fun _ => s) (P i) + variance (fun _ => s) (fun k => w k - P i k).
Proof.
  intros Hp Hr Hi U. pose proof (pinv_unbiased p P i Hp Hr Hi) as UP.
  assert (O : sum4 (fun k => (w k - P i k) * P i k) = 0).
  { apply (orthogonal _ P (fun k => w k - P i k) i Hp Hi). intros j Hj. pose proof (unbiased_columns p i w U j Hj) as C. pose proof (unbiased_columns p i (P i) UP j Hj) as C'.
    transitivity (sum4 (fun k => w k * entry43 (modulation_of p) k j) - sum4 (fun k => P i k * entry43 (modulation_of p) k j)); [unfold sum4; ring|]. rewrite C, C'. ring. }
  unfold variance. transitivity (sum4 (fun k => Rsqr (P i k) * s) + sum4 (fun k => Rsqr (w k - P i k) * s) + 2 * s * sum4 (fun k => (w k - P i k) * P i k)).
  - unfold sum4, Rsqr. ring.
  - rewrite O. ring.
Qed.

Lemma bumped_sample (d : arr R) k Y X delta k' Y' X' : (0 <= k < 4)%Z -> (0 <= k' < 4)%Z ->
  sample (bumped (2 * Y + k / 2) (2 * X + k mod 2) delta d) k' Y' X' =
  (if ((Y' =? Y) && (X' =? X) && (k' =? k))%Z then sample d k' Y' X' + delta else sample d k' Y' X').
Proof.
  intros Hk Hk'. unfold sample, bumped. cbn [cell].
  assert (E : ((2 * Y' + k' / 2 =? 2 * Y + k / 2) && (2 * X' + k' mod 2 =? 2 * X + k mod 2) = (Y' =? Y) && (X' =? X) && (k' =? k))%Z).
  { destruct (Z.eqb_spec Y' Y) as [->|NY]; [destruct (Z.eqb_spec X' X) as [->|NX]; [destruct (Z.eqb_spec k' k) as [->|Nk]|]|]; cbn [andb].
    - rewrite !Z.eqb_refl. reflexivity.
    - apply Bool.andb_false_iff. destruct (Z.eq_dec (k' / 2) (k / 2)); [right|left]; apply Z.eqb_neq; Z.to_euclidean_division_equations; lia.
    - apply Bool.andb_false_iff. right. apply Z.eqb_neq. Z.to_euclidean_division_equations; lia.
    - apply Bool.andb_false_iff. left. apply Z.eqb_neq. Z.to_euclidean_division_equations; lia. }
  rewrite E. reflexivity.
Qed.

Lemma c129_response (d : demodulator R) (data : arr R) old Y X k delta : fits d data old ->
  (0 <= Y < rows data / 2)%Z -> (0 <= X < cols data / 2)%Z -> (0 <= k < 4)%Z -> (forall f, fit_found_flags d = Some f -> cell f Y X = 1) ->
  exists s s', demod_raw d data old = Ok s /\ demod_raw d (bumped (2 * Y + k / 2) (2 * X + k mod 2) delta data) old = Ok s' /\
    forall i, (0 <= i < 3)%Z -> stokes_at s' i Y X = stokes_at s i Y X + t_cell (mij d) i k Y X * delta.
Proof.
  intros (Hm & Et1 & Et2 & Hf) HY HX Hk Hfl.
  destruct (c24_product d data old _ _ Hm eq_refl eq_refl Et1 Et2 Hf) as (s & Es & _ & _ & _ & V).
  set (data' := bumped (2 * Y + k / 2) (2 * X + k mod 2) delta data).
  destruct (c24_product d data' old _ _ Hm eq_refl eq_refl Et1 Et2 Hf) as (s' & Es' & _ & _ & _ & V').
  exists s, s'. split; [exact Es|]. split; [exact Es'|]. intros i Hi.
  destruct (V Y X HY HX) as (e1 & e2 & e3). destruct (V' Y X HY HX) as (e1' & e2' & e3').
  assert (F : match fit_found_flags d with None => true | Some f => neqb (cell f Y X) n1 end = true).
  { destruct (fit_found_flags d) as [f|]; [|reflexivity]. rewrite (Hfl f eq_refl).
    change (Reqb 1 1 = true). unfold Reqb. destruct (Req_EM_T 1 1); congruence. }
  rewrite F in *.
  assert (K : forall j, row_product (fun i j => t_cell (mij d) i j Y X) (fun k => sample data' k Y X) j =
    row_product (fun i j => t_cell (mij d) i j Y X) (fun k => sample data k Y X) j + t_cell (mij d) j k Y X * delta).
  { intros j. unfold row_product, data'. rewrite !bumped_sample by lia. rewrite !Z.eqb_refl. cbn [andb nadd nmul Num_R].
    destruct (four_cases k Hk) as [-> | [-> | [-> | ->]]]; cbn [Z.eqb Pos.eqb]; ring. }
  unfold stokes_at, component. rewrite e1, e2, e3, e1', e2', e3', !K.
  assert (i = 0 \/ i = 1 \/ i = 2)%Z as [-> |[-> | ->]] by lia; reflexivity.
Qed.

Lemma c129_least (d : demodulator R) p Y X i : calibrated d p Y X -> (0 <= i < 3)%Z ->
  let P := t_cell (mij d) i in
  unbiased p i (fun k => P k Y X) /\
  forall s w, 0 < s -> unbiased p i w ->
    variance (fun _ => s) (fun k => P k Y X) <= variance (fun _ => s) w /\
    (variance (fun _ => s) w = variance (fun _ => s) (fun k => P k Y X) -> forall k, (0 <= k < 4)%Z -> w k = P k Y X).
Proof.
  intros (_ & Hp & Hr) Hi P. split; [exact (pinv_unbiased p _ i Hp Hr Hi)|]. intros s w Hs U.
  pose proof (least_noise p _ i w s Hp Hr Hi U) as L. cbv beta in L. change (fun k => t_cell (mij d) i k Y X) with (fun k => P k Y X) in L.
  assert (E : variance (fun _ => s) (fun k => w k - P k Y X) = s * sum4 (fun k => Rsqr (w k - P k Y X))) by (unfold variance, sum4; ring).
  change (fun k => w k - t_cell (mij d) i k Y X) with (fun k => w k - P k Y X) in L. rewrite E in L.
  assert (N : 0 <= sum4 (fun k => Rsqr (w k - P k Y X))) by (unfold sum4; repeat apply Rplus_le_le_0_compat; apply Rle_0_sqr).
  split; [pose proof (Rmult_le_pos s _ (Rlt_le _ _ Hs) N); lra|]. intros Eq k Hk.
  assert (Z : s * sum4 (fun k => Rsqr (w k - P k Y X)) = 0) by lra. apply Rmult_integral in Z as [Z|Z]; [lra|].
  pose proof (sum4_sqr_zero (fun k => w k - P k Y X) Z k Hk) as W. cbv beta in W. lra.
Qed.

(** ** Without a demodulator *)
Lemma eqb_sides a : arrangement_ok a ->
  ((p0 a =? p90 a) = false /\ (p90 a =? p0 a) = false /\ (p45 a =? pm45 a) = false /\ (pm45 a =? p45 a) = false /\
   (p45 a =? p0 a) = false /\ (p45 a =? p90 a) = false /\ (pm45 a =? p0 a) = false /\ (pm45 a =? p90 a) = false /\
   (p0 a =? p45 a) = false /\ (p0 a =? pm45 a) = false /\ (p90 a =? p45 a) = false /\ (p90 a =? pm45 a) = false)%Z.
Proof.
  intros (_ & _ & _ & _ & N). repeat split; apply Z.eqb_neq; lia.
Qed.

Lemma theoretical_sum a i (f : Z -> R) : arrangement_ok a -> (0 <= i < 3)%Z ->
  sum4 (fun k => theoretical a i k * f k) = component i (/ 2 * (f (p0 a) + f (p45 a) + f (pm45 a) + f (p90 a))) (f (p0 a) - f (p90 a)) (f (p45 a) - f (pm45 a)).
Proof.
  intros Ha Hi. unfold sum4. rewrite (arrangement_sum a (fun k => theoretical a i k * f k) Ha).
  destruct (eqb_sides a Ha) as (E1 & E2 & E3 & E4 & E5 & E6 & E7 & E8 & E9 & E10 & E11 & E12).
  unfold theoretical, component. assert (i = 0 \/ i = 1 \/ i = 2)%Z as [-> |[-> | ->]] by lia; cbn [Z.eqb Pos.eqb].
  - field.
  - rewrite !Z.eqb_refl, E2, E5, E6, E7, E8. ring.
  - rewrite !Z.eqb_refl, E4, E9, E10, E11, E12. ring.
Qed.

Lemma c129_theoretical_response dic a (d : arr R) Y X k delta : describes dic a -> mosaic d ->
  (0 <= Y < rows d / 2)%Z -> (0 <= X < cols d / 2)%Z -> (0 <= k < 4)%Z ->
  exists s s', data_stokes dic d = Ok s /\ data_stokes dic (bumped (2 * Y + k / 2) (2 * X + k mod 2) delta d) = Ok s' /\
    forall i, (0 <= i < 3)%Z -> stokes_at s' i Y X = stokes_at s i Y X + theoretical a i k * delta.
Proof.
  intros Hd Hm HY HX Hk. pose proof (proj1 Hd) as Ha. destruct (data_stokes_spec dic a d Hd Hm) as (s & Es & _ & _ & _ & V).
  set (d' := bumped (2 * Y + k / 2) (2 * X + k mod 2) delta d). assert (Hm' : mosaic d') by exact Hm.
  destruct (data_stokes_spec dic a d' Hd Hm') as (s' & Es' & _ & _ & _ & V'). exists s, s'. split; [exact Es|]. split; [exact Es'|]. intros i Hi.
  assert (W : forall (e : arr R) t, (cell (sI t) Y X = nhalf *! (((sample e 0 Y X +! sample e 1 Y X) +! sample e 2 Y X) +! sample e 3 Y X) /\
     cell (sQ t) Y X = sample e (p0 a) Y X -! sample e (p90 a) Y X /\ cell (sU t) Y X = sample e (p45 a) Y X -! sample e (pm45 a) Y X) ->
     stokes_at t i Y X = sum4 (fun k => theoretical a i k * sample e k Y X)).
  { intros e t (e1 & e2 & e3). rewrite (theoretical_sum a i (fun k => sample e k Y X) Ha Hi), <- (arrangement_sum a (fun k => sample e k Y X) Ha).
    unfold stokes_at. rewrite e1, e2, e3. unfold nhalf. cbn [nadd nmul nsub ndiv nofZ Num_R].
    f_equal. field. }
  rewrite (W d s (V Y X HY HX)), (W d' s' (V' Y X HY HX)). unfold d', sum4. rewrite !bumped_sample by lia. rewrite !Z.eqb_refl. cbn [andb].
  destruct (four_cases k Hk) as [-> | [-> | [-> | ->]]]; cbn [Z.eqb Pos.eqb]; ring.
Qed.

Lemma ideal_recorded a p I Q U : ideal_at a p -> arrangement_ok a ->
  let r := fun k => recorded (p_t (f4 p k)) (p_e (f4 p k)) (p_phi (f4 p k)) I Q U in
  r (p0 a) = (I + Q) / 2 /\ r (p90 a) = (I - Q) / 2 /\ r (p45 a) = (I + U) / 2 /\ r (pm45 a) = (I - U) / 2.
Proof.
  intros Hi Ha r. destruct (ideal_entries a p Hi Ha) as ((a1 & a2 & a3) & (b1 & b2 & b3) & (c1 & c2 & c3) & (d1 & d2 & d3)).
  destruct Ha as (A1 & A2 & A3 & A4 & _). unfold r. rewrite !recorded_apply by assumption. unfold apply43.
  rewrite a1, a2, a3, b1, b2, b3, c1, c2, c3, d1, d2, d3. repeat split; field.
Qed.

Lemma c129_theoretical a p i : ideal_at a p -> arrangement_ok a -> (0 <= i < 3)%Z ->
  unbiased p i (theoretical a i) /\
  forall s w, 0 < s -> unbiased p i w ->
    variance (fun _ => s) (theoretical a i) = (if (i =? 0)%Z then s else 2 * s) /\
    variance (fun _ => s) (theoretical a i) <= variance (fun _ => s) w /\
    (variance (fun _ => s) w = variance (fun _ => s) (theoretical a i) -> forall k, (0 <= k < 4)%Z -> w k = theoretical a i k).
Proof.
  intros Hp Ha Hi.
  assert (UP : unbiased p i (theoretical a i)).
  { intros I Q U. destruct (ideal_recorded a p I Q U Hp Ha) as (r0 & r90 & r45 & rm45).
    rewrite (theoretical_sum a i (fun k => recorded (p_t (f4 p k)) (p_e (f4 p k)) (p_phi (f4 p k)) I Q U) Ha Hi). rewrite r0, r90, r45, rm45.
    f_equal; field. }
  split; [exact UP|]. intros s w Hs Uw.
  set (e := fun k => w k - theoretical a i k).
  assert (Z : forall I Q U, e (p0 a) * ((I + Q) / 2) + e (p45 a) * ((I + U) / 2) + e (pm45 a) * ((I - U) / 2) + e (p90 a) * ((I - Q) / 2) = 0).
  { intros I Q U. destruct (ideal_recorded a p I Q U Hp Ha) as (r0 & r90 & r45 & rm45). rewrite <- r0, <- r90, <- r45, <- rm45.
    pose proof (Uw I Q U) as K. pose proof (UP I Q U) as K'. set (r := fun k => recorded (p_t (f4 p k)) (p_e (f4 p k)) (p_phi (f4 p k)) I Q U) in *.
    change (e (p0 a) * r (p0 a) + e (p45 a) * r (p45 a) + e (pm45 a) * r (pm45 a) + e (p90 a) * r (p90 a) = 0).
    rewrite <- (arrangement_sum a (fun k => e k * r k) Ha). unfold e. unfold sum4 in K, K'.
    change (w 0%Z * r 0%Z + w 1%Z * r 1%Z + w 2%Z * r 2%Z + w 3%Z * r 3%Z = component i I Q U) in K.
    change (theoretical a i 0%Z * r 0%Z + theoretical a i 1%Z * r 1%Z + theoretical a i 2%Z * r 2%Z + theoretical a i 3%Z * r 3%Z = component i I Q U) in K'. lra. }
  assert (O : sum4 (fun k => theoretical a i k * e k) = 0).
  { rewrite (theoretical_sum a i e Ha Hi). pose proof (Z 2 0 0). pose proof (Z 0 2 0). pose proof (Z 0 0 2). unfold component.
    destruct (i =? 0)%Z; [lra|]. destruct (i =? 1)%Z; lra. }
  assert (V : variance (fun _ => s) (theoretical a i) = if (i =? 0)%Z then s else 2 * s).
  { unfold variance. transitivity (s * sum4 (fun k => theoretical a i k * theoretical a i k)); [unfold sum4, Rsqr; ring|].
    rewrite (theoretical_sum a i (theoretical a i) Ha Hi). destruct (eqb_sides a Ha) as (E1 & E2 & E3 & E4 & _).
    unfold component, theoretical. assert (i = 0 \/ i = 1 \/ i = 2)%Z as [-> |[-> | ->]] by lia; cbn [Z.eqb Pos.eqb].
    - field.
    - rewrite !Z.eqb_refl, E2. ring.
    - rewrite !Z.eqb_refl, E4. ring. }
  assert (E : variance (fun _ => s) w = variance (fun _ => s) (theoretical a i) + s * sum4 (fun k => Rsqr (e k))).
  { unfold variance. transitivity (sum4 (fun k => Rsqr (theoretical a i k) * s) + s * sum4 (fun k => Rsqr (e k)) + 2 * s * sum4 (fun k => theoretical a i k * e k)).
    - unfold e, sum4, Rsqr. ring.
    - rewrite O. ring. }
  assert (N : 0 <= sum4 (fun k => Rsqr (e k))) by (unfold sum4; repeat apply Rplus_le_le_0_compat; apply Rle_0_sqr).
  split; [exact V|]. split; [pose proof (Rmult_le_pos s _ (Rlt_le _ _ Hs) N); lra|]. intros Eq k Hk.
  assert (S : s * sum4 (fun k => Rsqr (e k)) = 0) by lra. apply Rmult_integral in S as [S|S]; [lra|].
  pose proof (sum4_sqr_zero e S k Hk) as W. unfold e in W. lra.
Qed.
