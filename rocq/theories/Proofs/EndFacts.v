(** From counts through a calibration to the polarization of the light, in binary64 (C150). *)
From Coq Require Import ZArith Reals Lra Lia Floats.SpecFloat.
From Flocq Require Import Core Relative Sterbenz BinarySingleNaN.
From Verif Require Import Base.Base Base.Num Base.Bcast Model.Utils Model.Stokes Model.Pol Model.PolFloat Model.Demodulate Model.FlatFloat Model.MeanFloat Model.DemodFit
  Spec.AngleSpec Spec.FloatSpec Spec.SumSpec Spec.DemodSpec Spec.FitSpec Spec.CorrectSpec Spec.NearSpec Spec.MeanSpec Spec.ObserveSpec Spec.PixelSpec Spec.MosaicSpec Spec.AngleErr Spec.PolErrSpec Spec.EndSpec
  Proofs.DemodFacts Proofs.InvertFacts Proofs.NearFacts Proofs.ObserveFacts Proofs.PolFacts Proofs.FloatFacts Proofs.ExactFacts Proofs.RoundFacts Proofs.RoundImages Proofs.RoundPol Proofs.AngleErrFacts Proofs.CorrectFloatFacts Proofs.ObserveFloatFacts Proofs.PolErrFacts.
From Verif Require Import Spec.NearSpec Spec.MosaicSpec.
Local Open Scope R_scope.

Lemma light_parts I Q U : light I Q U -> Rabs Q <= I /\ Rabs U <= I.
Proof.
  intros (HI & HP). pose proof (Rle_0_sqr Q) as q0. pose proof (Rle_0_sqr U) as u0. unfold Rsqr in q0, u0.
  split; apply Rsqr_incr_0_var; try exact HI; rewrite <- Rsqr_abs; unfold Rsqr; lra.
Qed.

Lemma light_scaled g I Q U : 0 <= g -> light I Q U -> light (g * I) (g * Q) (g * U).
Proof.
  intros g0 (L1 & L2). split; [apply Rmult_le_pos; assumption|].
  replace (g * Q * (g * Q) + g * U * (g * U)) with (g * g * (Q * Q + U * U)) by ring.
  replace (g * I * (g * I)) with (g * g * (I * I)) by ring. apply Rmult_le_compat_l; [apply Rmult_le_pos; assumption|exact L2].
Qed.

(** A matrix that nearly undoes the micropolarizers, applied to pixels that are nearly those of the light *)
Lemma nearly_undone dl (N M : Z -> Z -> R) (v : Z -> R) b i I Q U : undoes dl N M -> (0 <= i < 3)%Z -> light I Q U ->
  (forall k, (0 <= k < 4)%Z -> Rabs (v k - (N k 0%Z * I + N k 1%Z * Q + N k 2%Z * U)) <= b) ->
  Rabs (sum4 (fun k => M i k * v k) - (if (i =? 0)%Z then I else if (i =? 1)%Z then Q else U)) <= row_sum M i * b + 3 * dl * I.
Proof.
  intros HU Hi L Hv. pose proof (weighted_le (M i) _ b Hv) as B.
  pose proof (HU i 0%Z Hi ltac:(lia)) as U0. pose proof (HU i 1%Z Hi ltac:(lia)) as U1. pose proof (HU i 2%Z Hi ltac:(lia)) as U2.
  destruct (light_parts _ _ _ L) as (LQ & LU). pose proof (proj1 L) as LI.
  set (d0 := sum4 (fun k => M i k * N k 0%Z) - _) in U0. set (d1 := sum4 (fun k => M i k * N k 1%Z) - _) in U1. set (d2 := sum4 (fun k => M i k * N k 2%Z) - _) in U2.
  assert (E : sum4 (fun k => M i k * v k) - (if (i =? 0)%Z then I else if (i =? 1)%Z then Q else U) =
    sum4 (fun k => M i k * (v k - (N k 0%Z * I + N k 1%Z * Q + N k 2%Z * U))) + (d0 * I + d1 * Q + d2 * U)).
  { unfold d0, d1, d2, sum4. assert (i = 0 \/ i = 1 \/ i = 2)%Z as [-> |[-> | ->]] by (clear - Hi; lia); cbn [Z.eqb Pos.eqb]; ring. }
  rewrite E.
  assert (P : forall d x, Rabs d <= dl -> Rabs x <= I -> Rabs (d * x) <= dl * I) by (intros d x A1 A2; rewrite Rabs_mult; apply Rmult_le_compat; try apply Rabs_pos; assumption).
  assert (LI' : Rabs I <= I) by (rewrite Rabs_pos_eq; lra).
  pose proof (P _ _ U0 LI') as P0. pose proof (P _ _ U1 LQ) as P1. pose proof (P _ _ U2 LU) as P2.
  unfold row_sum. change (sum4 (fun k => Rabs (M i k))) with (sum4 (fun k => Rabs (M i k))) in *.
  apply Rabs_le_inv in B, P0, P1, P2. apply Rabs_le. lra.
Qed.

Lemma abs_row_le (M : Z -> Z -> b64) v b i : (forall k, (0 <= k < 4)%Z -> 0 <= v k <= b) -> abs_row M v i <= row_sum (fun i j => fval (M i j)) i * b.
Proof.
  intros H. unfold abs_row, row_product, row_sum, sum4. cbn [nadd nmul Num_R].
  assert (T : forall k, (0 <= k < 4)%Z -> Rabs (fval (M i k)) * v k <= Rabs (fval (M i k)) * b) by (intros k Hk; apply Rmult_le_compat_l; [apply Rabs_pos|apply (H k Hk)]).
  pose proof (T 0%Z ltac:(lia)). pose proof (T 1%Z ltac:(lia)). pose proof (T 2%Z ltac:(lia)). pose proof (T 3%Z ltac:(lia)). lra.
Qed.

Lemma row_sum_pos M i : 0 <= row_sum M i.
Proof. unfold row_sum, sum4. repeat apply Rplus_le_le_0_compat; apply Rabs_pos. Qed.

Lemma row_error_pos eps : 0 <= eps <= / 2 -> 0 <= row_error eps.
Proof.
  intros He. pose proof (flat_error_bounds eps He) as (e0 & _). unfold row_error.
  assert (0 <= powerRZ 2 (-50)) by (apply powerRZ_le; lra). assert (0 <= powerRZ 2 (-50) * (1 + flat_error eps)) by (apply Rmult_le_pos; lra). lra.
Qed.

Lemma c150_stokes (m : b64) eps junk (dd : demodulator b64) (data dark flat : arr b64) old n gain low bright noise p I Q U h w :
  same_shape data dark -> same_shape data flat -> (0 <= n < 2 ^ 53)%Z -> counts n data -> counts n dark -> sensible flat ->
  FloatSpec.within eps m (amean (values flat)) -> moderate (fval m) -> 0 <= eps <= / 2 ->
  mosaic data -> (0 < rows data)%Z -> (0 < cols data)%Z -> rows gain = rows data -> cols gain = cols data ->
  flat_of low bright gain (values flat) -> observed noise p gain (values dark) (values data) I Q U ->
  h = (rows data / 2)%Z -> w = (cols data / 2)%Z -> t_rows (mij dd) = h -> t_cols (mij dd) = w -> tensor_bounded (powerRZ 2 300) (mij dd) ->
  (forall f, fit_found_flags dd = Some f ->
     (rows f = h /\ cols f = w) /\ (rows (sI old) = h /\ cols (sI old) = w) /\
     (rows (sQ old) = h /\ cols (sQ old) = w) /\ (rows (sU old) = h /\ cols (sU old) = w)) ->
  (forall Y X, (0 <= Y < h)%Z -> (0 <= X < w)%Z -> light (I Y X) (Q Y X) (U Y X) /\ forall k, (0 <= k < 4)%Z -> polarizer (f4 (p Y X) k)) ->
  0 < mean_of gain /\
  exists c f s, dark_data data dark = Ok c /\ flat_data_with m junk c flat = Ok f /\ demod_raw dd f old = Ok s /\
    forall Y X q dl dt de df, (0 <= Y < h)%Z -> (0 <= X < w)%Z ->
      (forall f, fit_found_flags dd = Some f -> neqb (cell f Y X) n1 = true) ->
      let M i j := fval (t_cell (mij dd) i j Y X) in
      undoes dl (entry43 (modulation_of q)) M ->
      (forall k, (0 <= k < 4)%Z -> polarizer (f4 q k) /\ near dt de df (f4 (p Y X) k) (f4 q k)) ->
      let g := mean_of gain in
      let e i := g * light_error dl (dt + de / 2 + df) (noise / low) (row_error eps) (I Y X) M i + powerRZ 2 (-1070) in
      off_by (e 0%Z) (cell (sI s) Y X) (g * I Y X) /\ off_by (e 1%Z) (cell (sQ s) Y X) (g * Q Y X) /\ off_by (e 2%Z) (cell (sU s) Y X) (g * U Y X).
Proof.
  intros Sd Sf Hn Cd Ck Hf Hw Hm He Mo H0 W0 Rg Cg HF HO Eh Ew T1 T2 Tb Fl HL.
  set (junk' := fun _ _ : Z => 0).
  destruct (c127_demodulated m eps junk junk' dd data dark flat old n h w Sd Sf Hn Cd Ck Hf Hw Hm He Mo Eh Ew T1 T2 Tb Fl)
    as (c & f & s & cr & fr & Ec & Ef & Es & Ecr & Efr & V).
  assert (HP : forall Y X, (0 <= Y < rows (values data) / 2)%Z -> (0 <= X < cols (values data) / 2)%Z -> light (I Y X) (Q Y X) (U Y X) /\
    forall k, (0 <= k < 4)%Z -> polarizer (f4 (p Y X) k)).
  { change (rows (values data)) with (rows data). change (cols (values data)) with (cols data). rewrite <- Eh, <- Ew. exact HL. }
  destruct (corrected junk' (values data) (values dark) (values flat) gain low bright noise p I Q U Mo Sd Sf (conj (eq_sym Rg) (eq_sym Cg)) H0 W0 HF HO HP)
    as (Gl & cr' & fr' & Ecr' & Efr' & _ & _ & Vr).
  rewrite Ecr in Ecr'. injection Ecr' as <-. rewrite Efr in Efr'. injection Efr' as <-.
  change (rows (values data)) with (rows data) in Vr. change (cols (values data)) with (cols data) in Vr. rewrite <- Eh, <- Ew in Vr.
  assert (g0 : 0 < mean_of gain) by (destruct HF as (Hl & _); lra).
  split; [exact g0|]. exists c, f, s. split; [exact Ec|]. split; [exact Ef|]. split; [exact Es|].
  intros Y X q dl dt de df HY HX Hfl M HU Hq g e. fold g in g0. destruct (V Y X HY HX Hfl) as (VI & VQ & VU). clear V.
  destruct (HL Y X HY HX) as (L & P). pose proof (light_scaled g _ _ _ (Rlt_le _ _ g0) L) as Lg.
  set (v := g * (noise / low)). set (near_ := dt + de / 2 + df) in *.
  (* pixels *)
  assert (Hp : forall k, (0 <= k < 4)%Z ->
    Rabs (sample fr k Y X - (entry43 (modulation_of q) k 0 * (g * I Y X) + entry43 (modulation_of q) k 1 * (g * Q Y X) + entry43 (modulation_of q) k 2 * (g * U Y X))) <= near_ * (g * I Y X) + v /\
    0 <= Rabs (sample fr k Y X) <= g * I Y X + v).
  { intros k Hk. pose proof (Vr Y X k HY HX Hk) as E. cbv zeta in E. fold g in E. fold v in E. destruct (Hq k Hk) as (Pq & Nk). specialize (P k Hk).
    rewrite <- (recorded_row q k (g * I Y X) (g * Q Y X) (g * U Y X) Hk).
    pose proof (recorded_near dt de df _ _ _ _ _ Lg P Pq Nk) as B. fold near_ in B.
    pose proof (recorded_pos _ _ _ _ P Lg) as Rp. pose proof (recorded_le _ _ _ _ P Lg) as Rl.
    set (a := recorded (p_t (f4 (p Y X) k)) _ _ _ _ _) in *. set (b := recorded (p_t (f4 q k)) _ _ _ _ _) in *.
    split; [|split; [apply Rabs_pos|]]; apply Rabs_le_inv in E, B; apply Rabs_le; lra. }
  assert (W : forall i x, (0 <= i < 3)%Z ->
    off_by (row_error eps * abs_row (fun i j => t_cell (mij dd) i j Y X) (fun k => Rabs (sample fr k Y X)) i + powerRZ 2 (-1070)) x
      (exact_row (fun i j => t_cell (mij dd) i j Y X) (fun k => sample fr k Y X) i) ->
    off_by (e i) x (if (i =? 0)%Z then g * I Y X else if (i =? 1)%Z then g * Q Y X else g * U Y X)).
  { intros i x Hi (O1 & O2 & O3). split; [exact O1|]. split; [exact O2|].
    pose proof (nearly_undone dl _ M (fun k => sample fr k Y X) (near_ * (g * I Y X) + v) i _ _ _ HU Hi Lg (fun k Hk => proj1 (Hp k Hk))) as D.
    pose proof (abs_row_le (fun i j => t_cell (mij dd) i j Y X) (fun k => Rabs (sample fr k Y X)) _ i (fun k Hk => proj2 (Hp k Hk))) as A.
    fold M in A. pose proof (row_error_pos eps He) as r0.
    pose proof (Rmult_le_compat_l _ _ _ r0 A) as A'. clear A.
    change (exact_row (fun i j => t_cell (mij dd) i j Y X) (fun k => sample fr k Y X) i) with (sum4 (fun k => M i k * sample fr k Y X)) in O3.
    replace (e i) with (row_error eps * (row_sum M i * (g * I Y X + v)) + (row_sum M i * (near_ * (g * I Y X) + v) + 3 * dl * (g * I Y X)) + powerRZ 2 (-1070))
      by (unfold e, light_error, v; ring).
    cbv beta in D. fold g in D. set (l := if (i =? 0)%Z then _ else _) in *. set (z := sum4 (fun k => M i k * sample fr k Y X)) in *.
    cbv beta in A'. fold M in A'. apply Rabs_le_inv in O3, D. apply Rabs_le. lra. }
  split; [exact (W 0%Z _ ltac:(lia) VI)|]. split; [exact (W 1%Z _ ltac:(lia) VQ)|exact (W 2%Z _ ltac:(lia) VU)].
Qed.

Lemma c150_light eps2 at2 (m : b64) eps junk (dd : demodulator b64) (data dark flat : arr b64) old n gain low bright noise p I Q U h w :
  same_shape data dark -> same_shape data flat -> (0 <= n < 2 ^ 53)%Z -> counts n data -> counts n dark -> sensible flat ->
  FloatSpec.within eps m (amean (values flat)) -> moderate (fval m) -> 0 <= eps <= / 2 ->
  mosaic data -> (0 < rows data)%Z -> (0 < cols data)%Z -> rows gain = rows data -> cols gain = cols data ->
  flat_of low bright gain (values flat) -> observed noise p gain (values dark) (values data) I Q U ->
  h = (rows data / 2)%Z -> w = (cols data / 2)%Z -> t_rows (mij dd) = h -> t_cols (mij dd) = w -> tensor_bounded (powerRZ 2 300) (mij dd) ->
  (forall f, fit_found_flags dd = Some f ->
     (rows f = h /\ cols f = w) /\ (rows (sI old) = h /\ cols (sI old) = w) /\
     (rows (sQ old) = h /\ cols (sQ old) = w) /\ (rows (sU old) = h /\ cols (sU old) = w)) ->
  (forall Y X, (0 <= Y < h)%Z -> (0 <= X < w)%Z -> light (I Y X) (Q Y X) (U Y X) /\ forall k, (0 <= k < 4)%Z -> polarizer (f4 (p Y X) k)) ->
  exists c f s, dark_data data dark = Ok c /\ flat_data_with m junk c flat = Ok f /\ demod_raw dd f old = Ok s /\
    forall Y X q dl dt de df, (0 <= Y < h)%Z -> (0 <= X < w)%Z ->
      (forall f, fit_found_flags dd = Some f -> neqb (cell f Y X) n1 = true) ->
      let M i j := fval (t_cell (mij dd) i j Y X) in
      undoes dl (entry43 (modulation_of q)) M ->
      (forall k, (0 <= k < 4)%Z -> polarizer (f4 q k) /\ near dt de df (f4 (p Y X) k) (f4 q k)) ->
      let g := mean_of gain in
      let e i := g * light_error dl (dt + de / 2 + df) (noise / low) (row_error eps) (I Y X) M i + powerRZ 2 (-1070) in
      let l := scene h w I Q U in let r := scene h w (fun Y X => g * I Y X) (fun Y X => g * Q Y X) (fun Y X => g * U Y X) in
      g * I Y X + e 1%Z <= powerRZ 2 460 -> g * I Y X + e 2%Z <= powerRZ 2 460 ->
      polarization_known eps2 at2 s r Y X (e 0%Z) (e 1%Z + e 2%Z) /\
      0 < g /\ cell (pB r) Y X = g * cell (pB l) Y X /\ cell (DoLP r) Y X = cell (DoLP l) Y X /\ cell (AoLP r) Y X = cell (AoLP l) Y X.
Proof.
  intros Sd Sf Hn Cd Ck Hf Hw Hm He Mo H0 W0 Rg Cg HF HO Eh Ew T1 T2 Tb Fl HL.
  destruct (c150_stokes m eps junk dd data dark flat old n gain low bright noise p I Q U h w Sd Sf Hn Cd Ck Hf Hw Hm He Mo H0 W0 Rg Cg HF HO Eh Ew T1 T2 Tb Fl HL)
    as (g0 & c & f & s & Ec & Ef & Es & V).
  exists c, f, s. split; [exact Ec|]. split; [exact Ef|]. split; [exact Es|].
  intros Y X q dl dt de df HY HX Hfl M HU Hq g e l r B1 B2. fold g in g0.
  destruct (V Y X q dl dt de df HY HX Hfl HU Hq) as (VI & VQ & VU). fold g in VI, VQ, VU.
  destruct (light_parts _ _ _ (light_scaled g _ _ _ (Rlt_le _ _ g0) (proj1 (HL Y X HY HX)))) as (LQ & LU).
  split; [|split; [exact g0|exact (scene_scaled g h w I Q U Y X g0)]].
  apply (c148_pixel eps2 at2 s r Y X (e 0%Z) (e 1%Z) (e 2%Z) VI VQ VU).
  - change (cell (sQ r) Y X) with (g * Q Y X). lra.
  - change (cell (sU r) Y X) with (g * U Y X). lra.
Qed.

(** ** Inverses *)
Lemma modulation_half q k l : (0 <= k < 4)%Z -> (0 <= l < 3)%Z -> (forall j, (0 <= j < 4)%Z -> polarizer (f4 q j)) -> Rabs (entry43 (modulation_of q) k l) <= / 2.
Proof.
  intros Hk Hl Hq. destruct (Hq k Hk) as (T & E).
  assert (R : forall I Q U, recorded (p_t (f4 q k)) (p_e (f4 q k)) (p_phi (f4 q k)) I Q U =
    entry43 (modulation_of q) k 0 * I + entry43 (modulation_of q) k 1 * Q + entry43 (modulation_of q) k 2 * U) by (intros I Q U; apply recorded_row, Hk).
  unfold recorded in R. set (t := p_t (f4 q k)) in *. set (e := p_e (f4 q k)) in *. set (c := cos _) in R. set (s := sin _) in R.
  pose proof (COS_bound (2 * p_phi (f4 q k))) as C. pose proof (SIN_bound (2 * p_phi (f4 q k))) as S. fold c in C. fold s in S.
  pose proof (R 1 0 0) as R0. pose proof (R 0 1 0) as R1. pose proof (R 0 0 1) as R2.
  assert (B : forall x, -1 <= x <= 1 -> Rabs (t / 2 * (e * x)) <= / 2).
  { intros x Hx. assert (X : Rabs x <= 1) by (apply Rabs_le; lra). rewrite !Rabs_mult, (Rabs_pos_eq (t / 2)), (Rabs_pos_eq e) by lra.
    assert (X1 : e * Rabs x <= 1 * 1) by (apply Rmult_le_compat; try apply Rabs_pos; lra). assert (X2 : 0 <= e * Rabs x) by (apply Rmult_le_pos; [lra|apply Rabs_pos]).
    assert (X3 : t / 2 * (e * Rabs x) <= / 2 * (1 * 1)) by (apply Rmult_le_compat; lra). lra. }
  assert (l = 0 \/ l = 1 \/ l = 2)%Z as [-> |[-> | ->]] by (clear - Hl; lia).
  - replace (entry43 (modulation_of q) k 0) with (t / 2) by lra. rewrite Rabs_pos_eq; lra.
  - replace (entry43 (modulation_of q) k 1) with (t / 2 * (e * c)) by lra. apply B, C.
  - replace (entry43 (modulation_of q) k 2) with (t / 2 * (e * s)) by lra. apply B, S.
Qed.

Lemma c150_inverse q (P M : Z -> Z -> R) dm :
  (forall k, (0 <= k < 4)%Z -> polarizer (f4 q k)) ->
  pseudo_inverse (entry43 (modulation_of q)) P -> rank3 (entry43 (modulation_of q)) ->
  (forall i k, (0 <= i < 3)%Z -> (0 <= k < 4)%Z -> Rabs (M i k - P i k) <= dm) ->
  undoes (2 * dm) (entry43 (modulation_of q)) M.
Proof.
  intros Hq Hp Hr HM i l Hi Hl. set (N := entry43 (modulation_of q)) in *.
  assert (E : sum4 (fun k => P i k * N k l) = if (i =? l)%Z then 1 else 0).
  { destruct (pinv_left_inverse N P (if (l =? 0)%Z then 1 else 0) (if (l =? 1)%Z then 1 else 0) (if (l =? 2)%Z then 1 else 0) Hp Hr) as (E0 & E1 & E2).
    unfold sum4 in *. assert (l = 0 \/ l = 1 \/ l = 2)%Z as [-> |[-> | ->]] by (clear - Hl; lia); assert (i = 0 \/ i = 1 \/ i = 2)%Z as [-> |[-> | ->]] by (clear - Hi; lia);
      cbn [Z.eqb Pos.eqb] in *; lra. }
  rewrite <- E. replace (sum4 (fun k => M i k * N k l) - sum4 (fun k => P i k * N k l)) with (sum4 (fun k => N k l * (M i k - P i k))) by (unfold sum4; ring).
  pose proof (weighted_le (fun k => N k l) (fun k => M i k - P i k) dm (fun k Hk => HM i k Hi Hk)) as B. cbv beta in B. refine (Rle_trans _ _ _ B _).
  assert (d0 : 0 <= dm) by (eapply Rle_trans; [|exact (HM i 0%Z Hi ltac:(lia))]; apply Rabs_pos). apply Rmult_le_compat_r; [exact d0|].
  unfold sum4, N. pose proof (fun k Hk => modulation_half q k l Hk Hl Hq) as H.
  pose proof (H 0%Z ltac:(lia)). pose proof (H 1%Z ltac:(lia)). pose proof (H 2%Z ltac:(lia)). pose proof (H 3%Z ltac:(lia)). lra.
Qed.
