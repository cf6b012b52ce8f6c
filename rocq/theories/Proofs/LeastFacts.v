(** Demodulation is the least-squares fit to four pixels (C126). *)
From Coq Require Import Reals Lra Lia.
From Verif Require Import Base.Base Base.Num Base.BaseFacts Model.Demosaic Model.Stokes Model.Pol Model.Demodulate Model.DemodFit
  Spec.MosaicSpec Spec.StokesSpec Spec.DemodSpec Spec.FitSpec Spec.SymmetrySpec Spec.LeastSpec
  Proofs.MosaicFacts Proofs.StokesFacts Proofs.DemodFacts Proofs.PolFacts Proofs.InvertFacts Proofs.NearFacts Proofs.SymmetryFacts.
Local Open Scope R_scope.

(** ** Normal equations of a 4x3 matrix *)
Definition apply43 (M : Z -> Z -> R) (a b c : R) (k : Z) : R := M k 0%Z * a + M k 1%Z * b + M k 2%Z * c.
Definition normal (M : Z -> Z -> R) (v : Z -> R) (a b c : R) : Prop :=
  forall j, (0 <= j < 3)%Z -> sum4 (fun k => M k j * (v k - apply43 M a b c k)) = 0.

Lemma normal_pinv M P v : pseudo_inverse M P -> normal M v (sum4 (fun k => P 0%Z k * v k)) (sum4 (fun k => P 1%Z k * v k)) (sum4 (fun k => P 2%Z k * v k)).
Proof.
  intros (H1 & _ & H3 & _) j Hj. cbv zeta in H1, H3.
  set (MP := fun k l => sum3 (fun i => M k i * P i l)) in *.
  assert (E : forall l, (0 <= l < 4)%Z -> sum4 (fun k => MP k l * M k j) = M l j).
  { intros l Hl. rewrite <- (H1 l j Hl Hj). unfold sum4. fold (MP l 0%Z) (MP l 1%Z) (MP l 2%Z) (MP l 3%Z).
    change (sum3 (fun i => M l i * P i 0%Z)) with (MP l 0%Z). change (sum3 (fun i => M l i * P i 1%Z)) with (MP l 1%Z).
    change (sum3 (fun i => M l i * P i 2%Z)) with (MP l 2%Z). change (sum3 (fun i => M l i * P i 3%Z)) with (MP l 3%Z).
    assert (S : forall a b, (0 <= a < 4)%Z -> (0 <= b < 4)%Z -> MP a b = MP b a) by exact H3.
    rewrite (S 0%Z l), (S 1%Z l), (S 2%Z l), (S 3%Z l) by lia. reflexivity. }
  transitivity (sum4 (fun l => v l * (M l j - sum4 (fun k => MP k l * M k j)))).
  - unfold apply43, MP, sum4, sum3. ring.
  - unfold sum4 at 1. rewrite !E by lia. ring.
Qed.

Lemma pythagoras M v a b c a' b' c' : normal M v a b c ->
  sum4 (fun k => Rsqr (v k - apply43 M a' b' c' k)) =
  sum4 (fun k => Rsqr (v k - apply43 M a b c k)) + sum4 (fun k => Rsqr (apply43 M (a' - a) (b' - b) (c' - c) k)).
Proof.
  intros Hn. pose proof (Hn 0%Z ltac:(lia)) as N0. pose proof (Hn 1%Z ltac:(lia)) as N1. pose proof (Hn 2%Z ltac:(lia)) as N2.
  transitivity (sum4 (fun k => Rsqr (v k - apply43 M a b c k)) + sum4 (fun k => Rsqr (apply43 M (a' - a) (b' - b) (c' - c) k))
    - 2 * ((a' - a) * sum4 (fun k => M k 0%Z * (v k - apply43 M a b c k)) + (b' - b) * sum4 (fun k => M k 1%Z * (v k - apply43 M a b c k))
           + (c' - c) * sum4 (fun k => M k 2%Z * (v k - apply43 M a b c k)))).
  - unfold sum4, Rsqr, apply43. ring.
  - rewrite N0, N1, N2. ring.
Qed.

Lemma sum4_sqr_zero f : sum4 (fun k => Rsqr (f k)) = 0 -> forall k, (0 <= k < 4)%Z -> f k = 0.
Proof.
  unfold sum4. intros E k Hk. pose proof (Rle_0_sqr (f 0%Z)). pose proof (Rle_0_sqr (f 1%Z)). pose proof (Rle_0_sqr (f 2%Z)). pose proof (Rle_0_sqr (f 3%Z)).
  destruct (four_cases k Hk) as [-> | [-> | [-> | ->]]]; apply Rsqr_0_uniq; lra.
Qed.

Lemma normal_unique M v a b c a' b' c' : rank3 M -> normal M v a b c -> normal M v a' b' c' -> a' = a /\ b' = b /\ c' = c.
Proof.
  intros Hr N N'. pose proof (pythagoras M v a b c a' b' c' N) as P1. pose proof (pythagoras M v a' b' c' a b c N') as P2.
  assert (E : sum4 (fun k => Rsqr (apply43 M (a - a') (b - b') (c - c') k)) = sum4 (fun k => Rsqr (apply43 M (a' - a) (b' - b) (c' - c) k)))
    by (unfold sum4, Rsqr, apply43; ring).
  assert (Z : sum4 (fun k => Rsqr (apply43 M (a' - a) (b' - b) (c' - c) k)) = 0) by lra.
  destruct (Hr (a' - a) (b' - b) (c' - c)) as (Z0 & Z1 & Z2); [exact (sum4_sqr_zero _ Z)|]. lra.
Qed.

(** ** What demodulation returns *)
Lemma recorded_apply p I Q U k : (0 <= k < 4)%Z ->
  recorded (p_t (f4 p k)) (p_e (f4 p k)) (p_phi (f4 p k)) I Q U = apply43 (entry43 (modulation_of p)) I Q U k.
Proof. intros Hk. rewrite (recorded_row p k I Q U Hk). reflexivity. Qed.
Lemma residual_apply p v I Q U : residual p v I Q U = sum4 (fun k => Rsqr (v k - apply43 (entry43 (modulation_of p)) I Q U k)).
Proof. unfold residual, sum4. rewrite !recorded_apply by lia. reflexivity. Qed.

Lemma demodulated (d : demodulator R) (data : arr R) old : fits d data old ->
  exists s, demod_raw d data old = Ok s /\
    forall Y X p, (0 <= Y < rows data / 2)%Z -> (0 <= X < cols data / 2)%Z -> calibrated d p Y X ->
      normal (entry43 (modulation_of p)) (fun k => sample data k Y X) (cell (sI s) Y X) (cell (sQ s) Y X) (cell (sU s) Y X).
Proof.
  intros (Hm & Et1 & Et2 & Hf). destruct (c24_product d data old _ _ Hm eq_refl eq_refl Et1 Et2 Hf) as (s & Es & _ & _ & _ & Hs).
  exists s. split; [exact Es|]. intros Y X p HY HX (Hfl & Hpi & _).
  destruct (Hs Y X HY HX) as (e1 & e2 & e3). rewrite e1, e2, e3.
  assert (F : match fit_found_flags d with None => true | Some f => neqb (cell f Y X) n1 end = true).
  { destruct (fit_found_flags d) as [f|]; [|reflexivity]. rewrite (Hfl f eq_refl).
    change (Reqb 1 1 = true). unfold Reqb. destruct (Req_EM_T 1 1); congruence. }
  rewrite F. exact (normal_pinv _ _ (fun k => sample data k Y X) Hpi).
Qed.

Lemma c126_least (d : demodulator R) (data : arr R) old : fits d data old ->
  exists s, demod_raw d data old = Ok s /\
    forall Y X p I Q U, (0 <= Y < rows data / 2)%Z -> (0 <= X < cols data / 2)%Z -> calibrated d p Y X ->
      let r := residual p (fun k => sample data k Y X) in
      let i := cell (sI s) Y X in let q := cell (sQ s) Y X in let u := cell (sU s) Y X in
      r I Q U = r i q u + residual p (fun _ => 0) (I - i) (Q - q) (U - u) /\
      r i q u <= r I Q U /\ (r I Q U = r i q u -> I = i /\ Q = q /\ U = u).
Proof.
  intros Hfit. destruct (demodulated d data old Hfit) as (s & Es & Hs). exists s. split; [exact Es|].
  intros Y X p I Q U HY HX Hc r i q u. pose proof (Hs Y X p HY HX Hc) as N. fold i q u in N. destruct Hc as (_ & _ & Hr).
  set (M := entry43 (modulation_of p)) in *.
  pose proof (pythagoras M _ _ _ _ I Q U N) as P.
  assert (E0 : residual p (fun _ => 0) (I - i) (Q - q) (U - u) = sum4 (fun k => Rsqr (apply43 M (I - i) (Q - q) (U - u) k))).
  { rewrite residual_apply. fold M. unfold sum4, Rsqr. ring. }
  assert (E1 : r I Q U = r i q u + residual p (fun _ => 0) (I - i) (Q - q) (U - u)) by (rewrite E0; unfold r; rewrite !residual_apply; exact P).
  assert (E2 : 0 <= residual p (fun _ => 0) (I - i) (Q - q) (U - u)).
  { rewrite E0. unfold sum4. repeat apply Rplus_le_le_0_compat; apply Rle_0_sqr. }
  split; [exact E1|]. split; [lra|]. intros Heq. assert (Z : residual p (fun _ => 0) (I - i) (Q - q) (U - u) = 0) by lra.
  rewrite E0 in Z. destruct (Hr (I - i) (Q - q) (U - u)) as (Z0 & Z1 & Z2); [exact (sum4_sqr_zero _ Z)|]. lra.
Qed.

(** ** Changes of the calibration *)
Lemma entry_row p k : (0 <= k < 4)%Z -> entry43 (modulation_of p) k 0 = 1 / 2 * p_t (f4 p k) /\
  entry43 (modulation_of p) k 1 = 1 / 2 * p_t (f4 p k) * p_e (f4 p k) * cos (2 * p_phi (f4 p k)) /\
  entry43 (modulation_of p) k 2 = 1 / 2 * p_t (f4 p k) * p_e (f4 p k) * sin (2 * p_phi (f4 p k)).
Proof. intros Hk. destruct (four_cases k Hk) as [-> | [-> | [-> | ->]]]; repeat split; reflexivity. Qed.

Lemma sum4_ext f g : (forall k, (0 <= k < 4)%Z -> f k = g k) -> sum4 f = sum4 g.
Proof. intros E. unfold sum4. rewrite !E by lia. reflexivity. Qed.

Lemma normal_turned theta p p' v a b c : turned_by theta p p' -> normal (entry43 (modulation_of p')) v a b c ->
  normal (entry43 (modulation_of p)) v a (b * cos (2 * theta) + c * sin (2 * theta)) (c * cos (2 * theta) - b * sin (2 * theta)).
Proof.
  intros Ht N. set (M := entry43 (modulation_of p)). set (M' := entry43 (modulation_of p')) in *.
  assert (R0 : forall k, (0 <= k < 4)%Z -> M' k 0%Z = M k 0%Z /\ M' k 1%Z = M k 1%Z * cos (2 * theta) - M k 2%Z * sin (2 * theta) /\
     M' k 2%Z = M k 2%Z * cos (2 * theta) + M k 1%Z * sin (2 * theta)).
  { intros k Hk. destruct (entry_row p k Hk) as (E0 & E1 & E2). destruct (entry_row p' k Hk) as (F0 & F1 & F2).
    fold M in E0, E1, E2. fold M' in F0, F1, F2. destruct (Ht k Hk) as (T1 & T2 & T3). rewrite T1, T2, T3 in *.
    replace (2 * (p_phi (f4 p k) + theta)) with (2 * p_phi (f4 p k) + 2 * theta) in F1, F2 by ring. rewrite cos_plus in F1. rewrite sin_plus in F2.
    rewrite F0, F1, F2, E0, E1, E2. repeat split; ring. }
  set (co := cos (2 * theta)) in *. set (si := sin (2 * theta)) in *.
  assert (CS : co * co + si * si = 1) by (pose proof (sin2_cos2 (2 * theta)) as S; unfold Rsqr in S; fold co si in S; lra).
  assert (A : forall k, (0 <= k < 4)%Z -> apply43 M a (b * co + c * si) (c * co - b * si) k = apply43 M' a b c k).
  { intros k Hk. unfold apply43. destruct (R0 k Hk) as (-> & -> & ->). ring. }
  assert (B : forall k, (0 <= k < 4)%Z -> M k 1%Z = co * M' k 1%Z + si * M' k 2%Z /\ M k 2%Z = co * M' k 2%Z - si * M' k 1%Z).
  { intros k Hk. destruct (R0 k Hk) as (_ & -> & ->). split.
    - replace (co * (M k 1%Z * co - M k 2%Z * si) + si * (M k 2%Z * co + M k 1%Z * si)) with ((co * co + si * si) * M k 1%Z) by ring. rewrite CS. ring.
    - replace (co * (M k 2%Z * co + M k 1%Z * si) - si * (M k 1%Z * co - M k 2%Z * si)) with ((co * co + si * si) * M k 2%Z) by ring. rewrite CS. ring. }
  pose proof (N 0%Z ltac:(lia)) as N0. pose proof (N 1%Z ltac:(lia)) as N1. pose proof (N 2%Z ltac:(lia)) as N2.
  intros j Hj. assert (J : j = 0%Z \/ j = 1%Z \/ j = 2%Z) by lia. destruct J as [-> | [-> | ->]].
  - rewrite <- N0. apply sum4_ext. intros k Hk. rewrite (A k Hk). destruct (R0 k Hk) as (-> & _ & _). reflexivity.
  - transitivity (co * sum4 (fun k => M' k 1%Z * (v k - apply43 M' a b c k)) + si * sum4 (fun k => M' k 2%Z * (v k - apply43 M' a b c k))).
    + transitivity (sum4 (fun k => co * (M' k 1%Z * (v k - apply43 M' a b c k)) + si * (M' k 2%Z * (v k - apply43 M' a b c k)))).
      * apply sum4_ext. intros k Hk. rewrite (A k Hk). destruct (B k Hk) as (-> & _). ring.
      * unfold sum4. ring.
    + rewrite N1, N2. ring.
  - transitivity (co * sum4 (fun k => M' k 2%Z * (v k - apply43 M' a b c k)) - si * sum4 (fun k => M' k 1%Z * (v k - apply43 M' a b c k))).
    + transitivity (sum4 (fun k => co * (M' k 2%Z * (v k - apply43 M' a b c k)) - si * (M' k 1%Z * (v k - apply43 M' a b c k)))).
      * apply sum4_ext. intros k Hk. rewrite (A k Hk). destruct (B k Hk) as (_ & ->). ring.
      * unfold sum4. ring.
    + rewrite N1, N2. ring.
Qed.

Lemma normal_brighter m p p' v a b c : m <> 0 -> brighter_by m p p' -> normal (entry43 (modulation_of p')) v a b c ->
  normal (entry43 (modulation_of p)) v (m * a) (m * b) (m * c).
Proof.
  intros Hm Ht N. set (M := entry43 (modulation_of p)). set (M' := entry43 (modulation_of p')) in *.
  assert (R0 : forall k, (0 <= k < 4)%Z -> M' k 0%Z = m * M k 0%Z /\ M' k 1%Z = m * M k 1%Z /\ M' k 2%Z = m * M k 2%Z).
  { intros k Hk. destruct (entry_row p k Hk) as (E0 & E1 & E2). destruct (entry_row p' k Hk) as (F0 & F1 & F2).
    fold M in E0, E1, E2. fold M' in F0, F1, F2. destruct (Ht k Hk) as (T1 & T2 & T3). rewrite T1, T2, T3 in *.
    rewrite F0, F1, F2, E0, E1, E2. repeat split; ring. }
  intros j Hj. apply (Rmult_eq_reg_l m); [|exact Hm]. rewrite Rmult_0_r. rewrite <- (N j Hj).
  transitivity (sum4 (fun k => m * (M k j * (v k - apply43 M (m * a) (m * b) (m * c) k)))); [unfold sum4; ring|].
  apply sum4_ext. intros k Hk. assert (MJ : M' k j = m * M k j).
  { destruct (R0 k Hk) as (E0 & E1 & E2). assert (J : j = 0%Z \/ j = 1%Z \/ j = 2%Z) by lia. destruct J as [-> | [-> | ->]]; assumption. }
  rewrite MJ. unfold apply43. destruct (R0 k Hk) as (-> & -> & ->). ring.
Qed.

Lemma pB_of q u q' u' (s t : stokes R) Y X : cell (sQ s) Y X = q -> cell (sU s) Y X = u -> cell (sQ t) Y X = q' -> cell (sU t) Y X = u' ->
  q' * q' + u' * u' = q * q + u * u -> cell (pB t) Y X = cell (pB s) Y X.
Proof. intros <- <- <- <- E. rewrite !pB_cell. f_equal. exact E. Qed.

Lemma c126_turned theta (d d' : demodulator R) (data : arr R) old old' : fits d data old -> fits d' data old' ->
  exists s t, demod_raw d data old = Ok s /\ demod_raw d' data old' = Ok t /\
    forall Y X p p', (0 <= Y < rows data / 2)%Z -> (0 <= X < cols data / 2)%Z -> calibrated d p Y X -> calibrated d' p' Y X -> turned_by theta p p' ->
      cell (sI t) Y X = cell (sI s) Y X /\ cell (pB t) Y X = cell (pB s) Y X /\ cell (DoLP t) Y X = cell (DoLP s) Y X /\
      (0 < cell (pB s) Y X -> same_direction (cell (AoLP t) Y X) (cell (AoLP s) Y X + theta)).
Proof.
  intros F1 F2. destruct (demodulated d data old F1) as (s & Es & Hs). destruct (demodulated d' data old' F2) as (t & Et & Ht).
  exists s, t. split; [exact Es|]. split; [exact Et|]. intros Y X p p' HY HX Hc Hc' Htu.
  pose proof (Hs Y X p HY HX Hc) as N. pose proof (normal_turned theta p p' _ _ _ _ Htu (Ht Y X p' HY HX Hc')) as N'.
  destruct Hc as (_ & _ & Hr). destruct (normal_unique _ _ _ _ _ _ _ _ Hr N N') as (EI & EQ & EU).
  set (co := cos (2 * theta)) in *. set (si := sin (2 * theta)) in *. set (q' := cell (sQ t) Y X) in *. set (u' := cell (sU t) Y X) in *.
  assert (CS : co * co + si * si = 1) by (pose proof (sin2_cos2 (2 * theta)) as S; unfold Rsqr in S; fold co si in S; lra).
  assert (EP : cell (pB t) Y X = cell (pB s) Y X).
  { apply (pB_of _ _ q' u' s t Y X (eq_sym EQ) (eq_sym EU) eq_refl eq_refl).
    replace ((q' * co + u' * si) * (q' * co + u' * si) + (u' * co - q' * si) * (u' * co - q' * si)) with ((co * co + si * si) * (q' * q' + u' * u')) by ring.
    rewrite CS. ring. }
  split; [exact EI|]. split; [exact EP|]. split; [apply DoLP_same; assumption|]. intros Hp.
  destruct (c19_polar s Y X) as (_ & _ & Q1 & U1 & _). destruct (c19_polar t Y X) as (_ & _ & Q2 & U2 & _). fold q' in Q2. fold u' in U2.
  apply (direction _ _ _ _ Hp); rewrite <- EP at 1; rewrite <- ?Q2, <- ?U2.
  - rewrite cos_plus. fold co si. rewrite Rmult_minus_distr_l, <- !Rmult_assoc, <- Q1, <- U1, <- EQ, <- EU.
    replace ((q' * co + u' * si) * co - (u' * co - q' * si) * si) with ((co * co + si * si) * q') by ring. rewrite CS. ring.
  - rewrite sin_plus. fold co si. rewrite Rmult_plus_distr_l, <- !Rmult_assoc, <- Q1, <- U1, <- EQ, <- EU.
    replace ((u' * co - q' * si) * co + (q' * co + u' * si) * si) with ((co * co + si * si) * u') by ring. rewrite CS. ring.
Qed.

Lemma c126_brighter m (d d' : demodulator R) (data : arr R) old old' : 0 < m -> fits d data old -> fits d' data old' ->
  exists s t, demod_raw d data old = Ok s /\ demod_raw d' data old' = Ok t /\
    forall Y X p p', (0 <= Y < rows data / 2)%Z -> (0 <= X < cols data / 2)%Z -> calibrated d p Y X -> calibrated d' p' Y X -> brighter_by m p p' ->
      cell (sI s) Y X = m * cell (sI t) Y X /\ cell (sQ s) Y X = m * cell (sQ t) Y X /\ cell (sU s) Y X = m * cell (sU t) Y X /\
      cell (pB s) Y X = m * cell (pB t) Y X /\ cell (DoLP t) Y X = cell (DoLP s) Y X /\ cell (AoLP t) Y X = cell (AoLP s) Y X.
Proof.
  intros Hm F1 F2. destruct (demodulated d data old F1) as (s & Es & Hs). destruct (demodulated d' data old' F2) as (t & Et & Ht).
  exists s, t. split; [exact Es|]. split; [exact Et|]. intros Y X p p' HY HX Hc Hc' Htu.
  pose proof (Hs Y X p HY HX Hc) as N. pose proof (normal_brighter m p p' _ _ _ _ ltac:(lra) Htu (Ht Y X p' HY HX Hc')) as N'.
  destruct Hc as (_ & _ & Hr). destruct (normal_unique _ _ _ _ _ _ _ _ Hr N N') as (EI & EQ & EU).
  assert (EP : cell (pB s) Y X = m * cell (pB t) Y X).
  { rewrite !pB_cell, <- EQ, <- EU. set (q' := cell (sQ t) Y X) in *. set (u' := cell (sU t) Y X) in *.
    replace (m * q' * (m * q') + m * u' * (m * u')) with ((m * m) * (q' * q' + u' * u')) by ring.
    rewrite sqrt_mult by nra. rewrite sqrt_square by lra. reflexivity. }
  split; [symmetry; exact EI|]. split; [symmetry; exact EQ|]. split; [symmetry; exact EU|]. split; [exact EP|]. split.
  - destruct (c20_def s Y X) as [S1 S2]. destruct (c20_def t Y X) as [T1 T2].
    destruct (Req_dec (cell (sI t) Y X) 0) as [Z|Nz].
    + rewrite S2, T2 by (rewrite <- ?EI, ?Z; ring). reflexivity.
    + rewrite S1, T1 by (try rewrite <- EI; nra). rewrite EP, <- EI. field. split; lra.
  - unfold AoLP. cbn [amap2 cell]. rewrite <- EQ, <- EU. rewrite !Rmult_1_l. rewrite atan2_scale by exact Hm. reflexivity.
Qed.


(** ** The Stokes parameters that need no calibration *)
Lemma ideal_entries a p : ideal_at a p -> arrangement_ok a -> let M := entry43 (modulation_of p) in
  (M (p0 a) 0%Z = 1/2 /\ M (p0 a) 1%Z = 1/2 /\ M (p0 a) 2%Z = 0) /\ (M (p45 a) 0%Z = 1/2 /\ M (p45 a) 1%Z = 0 /\ M (p45 a) 2%Z = 1/2) /\
  (M (pm45 a) 0%Z = 1/2 /\ M (pm45 a) 1%Z = 0 /\ M (pm45 a) 2%Z = - (1/2)) /\ (M (p90 a) 0%Z = 1/2 /\ M (p90 a) 1%Z = - (1/2) /\ M (p90 a) 2%Z = 0).
Proof.
  intros (E0 & E1 & E2 & E3) (A1 & A2 & A3 & A4 & _) M.
  assert (K : forall k phi, (0 <= k < 4)%Z -> f4 p k = (1, 1, phi) -> M k 0%Z = 1/2 /\ M k 1%Z = 1/2 * cos (2 * phi) /\ M k 2%Z = 1/2 * sin (2 * phi)).
  { intros k phi Hk E. destruct (entry_row p k Hk) as (F0 & F1 & F2). rewrite E in *. cbn [p_t p_e p_phi fst snd] in *. fold M in F0, F1, F2. rewrite F0, F1, F2. repeat split; ring. }
  destruct (K _ _ A1 E0) as (-> & -> & ->). destruct (K _ _ A2 E1) as (-> & -> & ->). destruct (K _ _ A3 E2) as (-> & -> & ->). destruct (K _ _ A4 E3) as (-> & -> & ->).
  rewrite Rmult_0_r, cos_0, sin_0. replace (2 * (PI / 4)) with (PI / 2) by field. replace (2 * - (PI / 4)) with (- (PI / 2)) by field.
  replace (2 * (PI / 2)) with PI by field. rewrite cos_neg, sin_neg, cos_PI2, sin_PI2, cos_PI, sin_PI. repeat split; ring.
Qed.

Lemma ideal_at_rank3 a p : ideal_at a p -> arrangement_ok a -> rank3 (entry43 (modulation_of p)).
Proof.
  intros Hi Ha u v w Hz. destruct (ideal_entries a p Hi Ha) as ((a1 & a2 & a3) & (b1 & b2 & b3) & _ & (d1 & d2 & d3)).
  destruct Ha as (A1 & A2 & A3 & A4 & _). pose proof (Hz _ A1) as Z1. pose proof (Hz _ A2) as Z2. pose proof (Hz _ A4) as Z4.
  rewrite a1, a2, a3 in Z1. rewrite b1, b2, b3 in Z2. rewrite d1, d2, d3 in Z4. lra.
Qed.

Lemma normal_ideal a p v : ideal_at a p -> arrangement_ok a ->
  normal (entry43 (modulation_of p)) v (/ 2 * (v 0%Z + v 1%Z + v 2%Z + v 3%Z)) (v (p0 a) - v (p90 a)) (v (p45 a) - v (pm45 a)).
Proof.
  intros Hi Ha j Hj. destruct (ideal_entries a p Hi Ha) as ((a1 & a2 & a3) & (b1 & b2 & b3) & (c1 & c2 & c3) & (d1 & d2 & d3)).
  rewrite (arrangement_sum a v Ha). unfold sum4. rewrite (arrangement_sum a (fun k => entry43 (modulation_of p) k j * (v k - apply43 (entry43 (modulation_of p)) _ _ _ k)) Ha).
  unfold apply43. assert (J : j = 0%Z \/ j = 1%Z \/ j = 2%Z) by lia.
  rewrite a1, a2, a3, b1, b2, b3, c1, c2, c3, d1, d2, d3.
  destruct J as [-> | [-> | ->]]; rewrite ?a1, ?a2, ?a3, ?b1, ?b2, ?b3, ?c1, ?c2, ?c3, ?d1, ?d2, ?d3; field.
Qed.

Lemma c126_theoretical dic a (d : arr R) p : describes dic a -> mosaic d -> ideal_at a p ->
  exists s, data_stokes dic d = Ok s /\
    forall Y X I Q U, (0 <= Y < rows d / 2)%Z -> (0 <= X < cols d / 2)%Z ->
      let r := residual p (fun k => sample d k Y X) in
      let i := cell (sI s) Y X in let q := cell (sQ s) Y X in let u := cell (sU s) Y X in
      r i q u = Rsqr (sample d (p0 a) Y X + sample d (p90 a) Y X - sample d (p45 a) Y X - sample d (pm45 a) Y X) / 4 /\
      r i q u <= r I Q U /\ (r I Q U = r i q u -> I = i /\ Q = q /\ U = u).
Proof.
  intros Hd Hm Hi. pose proof (proj1 Hd) as Ha. destruct (data_stokes_spec dic a d Hd Hm) as (s & Es & _ & _ & _ & Hs). exists s. split; [exact Es|].
  intros Y X I Q U HY HX r i q u. destruct (Hs Y X HY HX) as (e1 & e2 & e3).
  set (v := fun k => sample d k Y X). change (r i q u) with (residual p v i q u). change (r I Q U) with (residual p v I Q U).
  assert (N : normal (entry43 (modulation_of p)) v i q u).
  { unfold i, q, u. rewrite e1, e2, e3. pose proof (normal_ideal a p v Hi Ha) as N.
    replace (nhalf *! (((sample d 0 Y X +! sample d 1 Y X) +! sample d 2 Y X) +! sample d 3 Y X)) with (/ 2 * (v 0%Z + v 1%Z + v 2%Z + v 3%Z)); [exact N|].
    unfold v. cbn [nadd nmul Num_R nhalf]. unfold nhalf. cbn [ndiv nofZ Num_R]. field. }
  split.
  - rewrite residual_apply. unfold sum4. rewrite (arrangement_sum a (fun k => Rsqr (v k - apply43 _ _ _ _ k)) Ha).
    assert (Ei : i = / 2 * (v (p0 a) + v (p45 a) + v (pm45 a) + v (p90 a))).
    { rewrite <- (arrangement_sum a v Ha). unfold i. rewrite e1. unfold v. cbn [nadd nmul Num_R nhalf]. unfold nhalf. cbn [ndiv nofZ Num_R]. field. }
    assert (Eq : q = v (p0 a) - v (p90 a)) by exact e2. assert (Eu : u = v (p45 a) - v (pm45 a)) by exact e3.
    destruct (ideal_entries a p Hi Ha) as ((a1 & a2 & a3) & (b1 & b2 & b3) & (c1 & c2 & c3) & (d1 & d2 & d3)).
    unfold apply43. rewrite a1, a2, a3, b1, b2, b3, c1, c2, c3, d1, d2, d3, Ei, Eq, Eu. fold (v (p0 a)) (v (p45 a)) (v (pm45 a)) (v (p90 a)). unfold Rsqr. field.
  - pose proof (pythagoras _ _ _ _ _ I Q U N) as P. rewrite !residual_apply.
    set (z := sum4 (fun k => Rsqr (apply43 (entry43 (modulation_of p)) (I - i) (Q - q) (U - u) k))) in *.
    assert (Z : 0 <= z) by (unfold z, sum4; repeat apply Rplus_le_le_0_compat; apply Rle_0_sqr).
    split; [lra|]. intros E. assert (Z0 : z = 0) by lra.
    destruct (ideal_at_rank3 a p Hi Ha (I - i) (Q - q) (U - u)) as (Z1 & Z2 & Z3); [exact (sum4_sqr_zero _ Z0)|]. lra.
Qed.

(** ** Cases: ideal micropolarizers turned by 90 degrees, and with half the throughput *)
Definition turned_params : four param3 := mkfour (1, 1, 0 + PI / 2) (1, 1, PI / 4 + PI / 2) (1, 1, - (PI / 4) + PI / 2) (1, 1, PI / 2 + PI / 2).
Definition turned_inverse : mat34 := (mkfour (1/2) (1/2) (1/2) (1/2), mkfour (-1) 0 0 1, mkfour 0 (-1) 1 0).
Definition dim_params : four param3 := mkfour (1/2 * 1, 1, 0) (1/2 * 1, 1, PI / 4) (1/2 * 1, 1, - (PI / 4)) (1/2 * 1, 1, PI / 2).
Definition dim_inverse : mat34 := (mkfour 1 1 1 1, mkfour 2 0 0 (-2), mkfour 0 2 (-2) 0).

Lemma turned_modulation : modulation_of turned_params = mkfour (1/2, -1/2, 0) (1/2, 0, -1/2) (1/2, 0, 1/2) (1/2, 1/2, 0).
Proof.
  unfold modulation_of, row_of, turned_params, p_t, p_e, p_phi; cbn [f_0 f_1 f_2 f_3 fst snd].
  replace (2 * (0 + PI / 2)) with PI by field. replace (2 * (PI / 4 + PI / 2)) with (PI / 2 + PI) by field.
  replace (2 * (- (PI / 4) + PI / 2)) with (PI / 2) by field. replace (2 * (PI / 2 + PI / 2)) with (2 * PI) by field.
  rewrite neg_cos, neg_sin, cos_2PI, sin_2PI, cos_PI2, sin_PI2, cos_PI, sin_PI.
  f_equal; (apply (f_equal2 pair); [apply (f_equal2 pair)|]); lra.
Qed.
Lemma dim_modulation : modulation_of dim_params = mkfour (1/4, 1/4, 0) (1/4, 0, 1/4) (1/4, 0, -1/4) (1/4, -1/4, 0).
Proof.
  unfold modulation_of, row_of, dim_params, p_t, p_e, p_phi; cbn [f_0 f_1 f_2 f_3 fst snd].
  replace (2 * 0) with 0 by ring. replace (2 * (PI / 4)) with (PI / 2) by field.
  replace (2 * (- (PI / 4))) with (- (PI / 2)) by field. replace (2 * (PI / 2)) with PI by field.
  rewrite cos_neg, sin_neg, cos_0, sin_0, cos_PI2, sin_PI2, cos_PI, sin_PI.
  f_equal; (apply (f_equal2 pair); [apply (f_equal2 pair)|]); lra.
Qed.
Ltac penrose := unfold pseudo_inverse; repeat split; unfold sum3, sum4;
  [ intros k j Hk Hj; assert (j = 0 \/ j = 1 \/ j = 2)%Z as Dj by lia;
    destruct (four_cases k Hk) as [-> | [-> | [-> | ->]]]; destruct Dj as [-> | [-> | ->]]; cbn; lra
  | intros i k Hi Hk; assert (i = 0 \/ i = 1 \/ i = 2)%Z as Di by lia;
    destruct (four_cases k Hk) as [-> | [-> | [-> | ->]]]; destruct Di as [-> | [-> | ->]]; cbn; lra
  | intros k l Hk Hl;
    destruct (four_cases k Hk) as [-> | [-> | [-> | ->]]]; destruct (four_cases l Hl) as [-> | [-> | [-> | ->]]]; cbn; lra
  | intros i j Hi Hj; assert (i = 0 \/ i = 1 \/ i = 2)%Z as Di by lia; assert (j = 0 \/ j = 1 \/ j = 2)%Z as Dj by lia;
    destruct Di as [-> | [-> | ->]]; destruct Dj as [-> | [-> | ->]]; cbn; lra ].
Ltac rank := intros a b c H; pose proof (H 0%Z ltac:(lia)) as h0; pose proof (H 1%Z ltac:(lia)) as h1;
  pose proof (H 2%Z ltac:(lia)) as h2; pose proof (H 3%Z ltac:(lia)) as h3; cbn in h0, h1, h2, h3; lra.
Definition only (m : mat34) : demodulator R := mkdemodulator (mktensor 1 1 (fun i j _ _ => entry34 m i j)) None.
Lemma calibrated_ideal : calibrated (only ideal_inverse) ideal_params 0 0.
Proof. split; [discriminate|]. split; [exact ideal_pseudo|exact ideal_rank3]. Qed.
Lemma calibrated_turned : calibrated (only turned_inverse) turned_params 0 0.
Proof. split; [discriminate|]. rewrite turned_modulation. split; [penrose|rank]. Qed.
Lemma calibrated_dim : calibrated (only dim_inverse) dim_params 0 0.
Proof. split; [discriminate|]. rewrite dim_modulation. split; [penrose|rank]. Qed.
