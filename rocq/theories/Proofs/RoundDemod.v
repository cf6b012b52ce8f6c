(** Rounding errors of demodulated images and of sums and means of files. *)
From Coq Require Import ZArith Reals Lra Lia Floats.SpecFloat String.
From Flocq Require Import Core Relative BinarySingleNaN.
From Verif Require Import Base.Base Base.Num Base.BaseFacts Model.Demosaic Model.Ifov Model.Stokes Model.Demodulate Model.Keywords Model.FileInit
  Spec.Terminates Spec.AngleSpec Spec.MosaicSpec Spec.StokesSpec Spec.SumSpec Spec.DemodSpec Spec.FloatSpec Spec.FilesSpec Spec.CleanSpec
  Proofs.FloatFacts Proofs.DemodFacts Proofs.CleanFacts Proofs.FilesFacts Proofs.ExactFacts Proofs.RoundFacts Proofs.RoundImages.
Local Open Scope R_scope.

#[local] Existing Instance Hprec.
#[local] Existing Instance Hmax.
#[local] Existing Instance fexp64_valid.
#[local] Existing Instance fexp64_mono.

(** ** Products *)
Lemma near_times n e x r a c k t : near n e x r a -> is_value c k -> a <= t -> (1 + u) ^ n <= 2 -> Rabs k * (2 * t + e) <= huge ->
  near (S n) (2 * (Rabs k * e) + eta) (c *! x) (k * r) (Rabs k * a).
Proof.
  intros Hx Vc Ha G Hb. pose proof (near_size _ _ _ _ _ Hx) as Sz. destruct Hx as (Vx & B & E0 & E). set (v := fval x) in *.
  pose proof (Rabs_pos k) as K0. pose proof (Rabs_pos v) as V0. pose proof (Rabs_pos r) as R0. pose proof u_half as [U _]. pose proof u_small as U'. pose proof (bpow_gt_0 radix2 (-1075)) as Eta.
  assert (Sz' : Rabs v <= 2 * t + e) by (pose proof (Rmult_le_compat_r a _ _ ltac:(lra) G); lra).
  assert (K : Rabs (k * v) <= huge) by (rewrite Rabs_mult; pose proof (Rmult_le_compat_l (Rabs k) _ _ K0 Sz'); lra).
  pose proof (mul_value c x k v Vc Vx (rnd_huge _ K)) as V. pose proof (value_val _ _ V) as Ev.
  pose proof (Rmult_le_pos _ _ K0 E0) as KE. split; [rewrite Ev; exact V|].
  split; [rewrite Rabs_mult; apply Rmult_le_compat_l; assumption|]. split; [lra|]. rewrite Ev.
  pose proof (rnd_err (k * v)) as R1. rewrite Rabs_mult in R1.
  replace (rnd (k * v) - k * r) with ((rnd (k * v) - k * v) + k * (v - r)) by ring.
  apply Rle_trans with (1 := Rabs_triang _ _). rewrite (Rabs_mult k (v - r)).
  pose proof (Rmult_le_compat_l (Rabs k) _ _ K0 E) as P1. pose proof (Rmult_le_compat_l (Rabs k) _ _ K0 Sz) as P2.
  pose proof (Rmult_le_compat_l u _ _ ltac:(lra) P2) as P3. pose proof (Rmult_le_compat_r (Rabs k * e) u 1 KE ltac:(lra)) as P4. rewrite growth_S. lra.
Qed.
Lemma row_near n e t K (m : Z -> Z -> b64) (x : Z -> b64) (v a : Z -> R) i : 0 <= K -> 0 <= t ->
  (forall j, (0 <= j < 4)%Z -> is_value (m i j) (fval (m i j)) /\ Rabs (fval (m i j)) <= K) ->
  (forall j, (0 <= j < 4)%Z -> near n e (x j) (v j) (a j) /\ a j <= t) -> e <= 1 -> K * t <= bpow radix2 1000 -> K * e <= 1 ->
  INR (n + 5) * u <= / 2 ->
  near (n + 4) (22 * (2 * (K * e) + eta)) (row_product m x i) (exact_row m v i) (abs_row m a i).
Proof.
  intros HK Ht Hm Hx He HKt HKe Hn.
  assert (H1000 : 100 * bpow radix2 1000 <= huge).
  { pose proof (bpow_gt_0 radix2 1000). apply Rle_trans with (128 * bpow radix2 1000); [lra|]. change 128 with (bpow radix2 7). rewrite <- bpow_plus. apply bpow_le. lia. }
  assert (H1 : 1 <= bpow radix2 1000) by (apply (bpow_le radix2 0); lia). assert (Eta : eta <= 1) by (apply (bpow_le radix2 (-1075) 0); lia).
  pose proof (bpow_gt_0 radix2 (-1075)) as Eta0.
  assert (G0 : (1 + u) ^ n <= 2) by (apply (small_growth n 5); exact Hn).
  assert (P : forall j, (0 <= j < 4)%Z -> near (S n) (2 * (K * e) + eta) (m i j *! x j) (fval (m i j) * v j) (Rabs (fval (m i j)) * a j) /\ Rabs (fval (m i j)) * a j <= K * t).
  { intros j Hj. destruct (Hm j Hj) as (V & B). destruct (Hx j Hj) as (N & A). pose proof N as (_ & B' & E0 & _). pose proof (Rabs_pos (v j)). pose proof (Rabs_pos (fval (m i j))) as M0.
    pose proof (Rmult_le_compat (Rabs (fval (m i j))) K (a j) t M0 ltac:(lra) B A) as Q1.
    pose proof (Rmult_le_compat_r e _ _ E0 B) as Q2.
    assert (Q3 : Rabs (fval (m i j)) * t <= K * t) by (apply Rmult_le_compat_r; lra).
    pose proof (near_times n e _ _ _ _ _ t N V A G0 ltac:(lra)) as T. split; [|exact Q1].
    eapply near_weaken; [exact T|lia|lra|lra]. }
  destruct (P 0%Z ltac:(lia)) as (P0 & T0). destruct (P 1%Z ltac:(lia)) as (P1 & T1). destruct (P 2%Z ltac:(lia)) as (P2 & T2). destruct (P 3%Z ltac:(lia)) as (P3 & T3).
  replace (n + 4)%nat with (S n + 3)%nat by lia.
  apply (near_sum4 (S n) (2 * (K * e) + eta) _ _ _ _ _ _ _ _ _ _ _ _ (K * t) P0 P1 P2 P3 T0 T1 T2 T3); [replace (S n + 4)%nat with (n + 5)%nat by lia; exact Hn|].
  destruct (Hx 0%Z ltac:(lia)) as ((_ & _ & E0 & _) & _). pose proof (Rmult_le_pos K e HK E0). lra.
Qed.

(** ** Demodulation *)
Lemma c105_raw (d : demodulator b64) (data : arr b64) old h w K t :
  bounded t data -> tensor_bounded K (mij d) -> 0 <= K -> 0 <= t -> K * t <= powerRZ 2 1000 ->
  mosaic data -> h = (rows data / 2)%Z -> w = (cols data / 2)%Z -> t_rows (mij d) = h -> t_cols (mij d) = w ->
  (forall f, fit_found_flags d = Some f ->
     (rows f = h /\ cols f = w) /\ (rows (sI old) = h /\ cols (sI old) = w) /\
     (rows (sQ old) = h /\ cols (sQ old) = w) /\ (rows (sU old) = h /\ cols (sU old) = w)) ->
  exists s, demod_raw d data old = Ok s /\
    forall Y X, (0 <= Y < h)%Z -> (0 <= X < w)%Z ->
      (forall f, fit_found_flags d = Some f -> neqb (cell f Y X) n1 = true) ->
      let off i x := off_by (powerRZ 2 (-50) * abs_row (fun i j => t_cell (mij d) i j Y X) (fun k => sample (absolute data) k Y X) i + powerRZ 2 (-1070))
                       x (exact_row (fun i j => t_cell (mij d) i j Y X) (fun k => sample (values data) k Y X) i) in
      off 0%Z (cell (sI s) Y X) /\ off 1%Z (cell (sQ s) Y X) /\ off 2%Z (cell (sU s) Y X).
Proof.
  rewrite !power2. intros Hd Ht HK H0 HKt Hm Eh Ew T1 T2 Hf.
  destruct (c24_product d data old h w Hm Eh Ew T1 T2 Hf) as (s & Es & (_ & _ & _ & V)). exists s. split; [exact Es|].
  intros Y X HY HX Hfound off. destruct (V Y X HY HX) as (E1 & E2 & E3). clear V.
  assert (Fd : match fit_found_flags d with None => true | Some f => neqb (cell f Y X) n1 end = true) by (destruct (fit_found_flags d) as [f|]; [exact (Hfound f eq_refl)|reflexivity]).
  cbv beta in E1, E2, E3. rewrite Fd in E1, E2, E3.
  assert (P : forall i, (0 <= i < 3)%Z -> off i (row_product (fun i j => t_cell (mij d) i j Y X) (fun k => sample data k Y X) i)).
  { intros i Hi. unfold off.
    assert (N : near (0 + 4) (22 * (2 * (K * 0) + eta)) (row_product (fun i j => t_cell (mij d) i j Y X) (fun k => sample data k Y X) i)
      (exact_row (fun i j => t_cell (mij d) i j Y X) (fun k => sample (values data) k Y X) i) (abs_row (fun i j => t_cell (mij d) i j Y X) (fun k => sample (absolute data) k Y X) i)).
    { apply (row_near 0 0 t K); [exact HK|exact H0| | |lra|exact HKt|lra|apply few; lia].
      - intros j Hj. destruct (Ht i j Y X Hi Hj) as (A1 & A2 & A3); [rewrite T1; exact HY|rewrite T2; exact HX|]. split; [|exact A3]. split; [exact A1|]. split; [exact A2|reflexivity].
      - intros j Hj. apply (sample_near 0 0 t data (values data) (absolute data)); [apply bounded_nimg, Hd|exact Hm|exact Hj| |]; [rewrite Eh in HY; exact HY|rewrite Ew in HX; exact HX]. }
    pose proof N as (_ & B & _). destruct (near_off _ _ _ _ _ N) as (V1 & V2 & V3). split; [exact V1|]. split; [exact V2|]. apply Rle_trans with (1 := V3).
    pose proof (bpow_gt_0 radix2 (-1075)) as Eta.
    replace (bpow radix2 (-1070)) with (bpow radix2 5 * eta) by (rewrite <- bpow_plus; reflexivity). change (bpow radix2 5) with 32.
    assert (G4 : (1 + u) ^ (0 + 4) - 1 <= bpow radix2 (-50)).
    { apply Rle_trans with (1 := growth_bound 4 (few 4 ltac:(lia))). replace (INR 4) with 4 by (cbn; lra).
      apply Req_le. replace (2 * 4 * u) with (bpow radix2 3 * u) by (cbn; lra). rewrite <- bpow_plus. reflexivity. }
    match type of B with _ <= ?a => set (A := a) in *; assert (A0 : 0 <= A) by (eapply Rle_trans; [apply Rabs_pos|exact B]) end.
    pose proof (Rmult_le_compat_r A _ _ A0 G4). lra. }
  rewrite E1, E2, E3. split; [apply P; lia|]. split; apply P; lia.
Qed.
Lemma c105_demosaiced dic a (d : demodulator b64) (data : arr b64) f h w K t :
  bounded t data -> tensor_bounded K (mij d) -> 0 <= K <= powerRZ 2 50 -> 0 <= t <= powerRZ 2 900 ->
  describes dic a -> mosaic data -> h = (rows data / 2)%Z -> w = (cols data / 2)%Z -> t_rows (mij d) = h -> t_cols (mij d) = w ->
  fit_found_flags d = Some f -> rows f = h -> cols f = w ->
  exists s, demod_with_demosaic dic d data = Ok s /\
    forall y x, (0 <= y < rows data)%Z -> (0 <= x < cols data)%Z -> neqb (cell f (y / 2)%Z (x / 2)%Z) n1 = true ->
      let off i p := off_by (powerRZ 2 (-49) * abs_row (fun i j => t_cell (mij d) i j (y / 2)%Z (x / 2)%Z) (fun k => interpolated (absolute data) k y x) i + powerRZ 2 (-1000))
                       p (exact_row (fun i j => t_cell (mij d) i j (y / 2)%Z (x / 2)%Z) (fun k => interpolated (values data) k y x) i) in
      off 0%Z (cell (sI s) y x) /\ off 1%Z (cell (sQ s) y x) /\ off 2%Z (cell (sU s) y x).
Proof.
  rewrite !power2. intros Hd Ht HK H0 Hdic Hm Eh Ew T1 T2 Ef F1 F2.
  destruct (c26_demosaic dic a d data f h w Hdic Hm Eh Ew T1 T2 Ef F1 F2) as (s & Es & (_ & _ & _ & V)). exists s. split; [exact Es|].
  intros y x Hy Hx Hfound off. destruct (V y x Hy Hx) as (E1 & E2 & E3). clear V. cbv beta in E1, E2, E3. rewrite Hfound in E1, E2, E3.
  pose proof (bpow_gt_0 radix2 (-1075)) as Eta.
  assert (KE : K * eta <= bpow radix2 (-1025)).
  { replace (bpow radix2 (-1025)) with (bpow radix2 50 * eta) by (rewrite <- bpow_plus; reflexivity). apply Rmult_le_compat_r; [lra|apply HK]. }
  assert (P : forall i, (0 <= i < 3)%Z -> off i (row_product (fun i j => t_cell (mij d) i j (y / 2)%Z (x / 2)%Z) (fun k => interpolated data k y x) i)).
  { intros i Hi. unfold off.
    assert (N : near (4 + 4) (22 * (2 * (K * eta) + eta)) (row_product (fun i j => t_cell (mij d) i j (y / 2)%Z (x / 2)%Z) (fun k => interpolated data k y x) i)
      (exact_row (fun i j => t_cell (mij d) i j (y / 2)%Z (x / 2)%Z) (fun k => interpolated (values data) k y x) i)
      (abs_row (fun i j => t_cell (mij d) i j (y / 2)%Z (x / 2)%Z) (fun k => interpolated (absolute data) k y x) i)).
    { apply (row_near 4 eta t K); [apply HK|apply H0| | |apply (bpow_le radix2 (-1075) 0); lia| | |apply few; lia].
      - intros j Hj. destruct Hm as (_ & _ & M1 & M2). destruct (Ht i j (y / 2)%Z (x / 2)%Z Hi Hj) as (A1 & A2 & A3); [rewrite T1, Eh; apply half_in; assumption|rewrite T2, Ew; apply half_in; assumption|].
        split; [|exact A3]. split; [exact A1|]. split; [exact A2|reflexivity].
      - intros j Hj. apply (interpolated_near 0 t data (values data) (absolute data)); [apply bounded_nimg, Hd|exact Hm|exact Hj|exact Hy|exact Hx|apply few; lia|].
        apply Rle_trans with (8 * bpow radix2 900); [lra|]. change 8 with (bpow radix2 3). rewrite <- bpow_plus. apply bpow_le. lia.
      - apply Rle_trans with (bpow radix2 50 * bpow radix2 900); [apply Rmult_le_compat; lra|]. rewrite <- bpow_plus. apply bpow_le. lia.
      - apply Rle_trans with (1 := KE). apply (bpow_le radix2 (-1025) 0). lia. }
    pose proof N as (_ & B & _). destruct (near_off _ _ _ _ _ N) as (V1 & V2 & V3). split; [exact V1|]. split; [exact V2|]. apply Rle_trans with (1 := V3).
    assert (S1 : 64 * bpow radix2 (-1025) <= bpow radix2 (-1000)) by (change 64 with (bpow radix2 6); rewrite <- bpow_plus; apply bpow_le; lia).
    assert (S2 : eta <= bpow radix2 (-1025) * / 1000).
    { apply Rle_trans with (bpow radix2 (-1025) * bpow radix2 (-50)); [rewrite <- bpow_plus; apply bpow_le; lia|]. apply Rmult_le_compat_l; [apply bpow_ge_0|].
      apply Rle_trans with (bpow radix2 (-10)); [apply bpow_le; lia|cbn; lra]. }
    pose proof (bpow_gt_0 radix2 (-1025)).
    assert (G8 : (1 + u) ^ (4 + 4) - 1 <= bpow radix2 (-49)).
    { apply Rle_trans with (1 := growth_bound 8 (few 8 ltac:(lia))). replace (INR 8) with 8 by (cbn; lra).
      apply Req_le. replace (2 * 8 * u) with (bpow radix2 4 * u) by (cbn; lra). rewrite <- bpow_plus. reflexivity. }
    match type of B with _ <= ?a => set (A := a) in *; assert (A0 : 0 <= A) by (eapply Rle_trans; [apply Rabs_pos|exact B]) end.
    pose proof (Rmult_le_compat_r A _ _ A0 G8). lra. }
  rewrite E1, E2, E3. split; [apply P; lia|]. split; apply P; lia.
Qed.

(** ** Sums and means of files *)
Lemma near_part x r c k : is_value x r -> is_value c k -> 1 <= k -> Rabs r <= huge -> near 1 eta (x /! c) (r / k) (Rabs r / k).
Proof.
  intros V Vc Hk Hr. assert (Ab : Rabs (r / k) = Rabs r / k) by (unfold Rdiv; rewrite Rabs_mult; f_equal; apply Rabs_pos_eq; left; apply Rinv_0_lt_compat; lra).
  assert (Le : Rabs r / k <= Rabs r).
  { apply Rmult_le_reg_r with k; [lra|]. unfold Rdiv. rewrite Rmult_assoc, Rinv_l, Rmult_1_r by lra. pose proof (Rmult_le_compat_l _ _ _ (Rabs_pos r) Hk). lra. }
  assert (Hb : Rabs (r / k) <= huge) by (rewrite Ab; lra).
  pose proof (div_value x c r k V Vc ltac:(lra) (rnd_huge _ Hb)) as V'. pose proof (value_val _ _ V') as Ev. split; [rewrite Ev; exact V'|].
  split; [rewrite Ab; lra|]. split; [apply bpow_ge_0|]. rewrite Ev. pose proof (rnd_err (r / k)) as E. rewrite Ab in E. cbn [pow]. lra.
Qed.
Lemma fold_parts (names : list string) (f : string -> b64) (c : b64) k : is_value c k -> 1 <= k ->
  (forall name, In name names -> is_value (f name) (fval (f name)) /\ Rabs (fval (f name)) <= huge) ->
  forall m acc r a, near m ((1 + u) ^ m * (INR m * eta)) acc r a -> (1 <= m)%nat -> INR (m + length names) * u <= / 2 ->
    2 * fold_left (fun s name => s + Rabs (fval (f name)) / k) names a + 1 <= huge ->
    let q := (m + length names)%nat in
    near q ((1 + u) ^ q * (INR q * eta))
      (fold_left (fun s name => s +! (f name /! c)) names acc) (fold_left (fun s name => s + fval (f name) / k) names r)
      (fold_left (fun s name => s + Rabs (fval (f name)) / k) names a).
Proof.
  intros Vc Hk. induction names as [|name names IH]; intros Hf m acc r a Ha Hm Hn Hb q; cbn [fold_left length] in *.
  - unfold q. rewrite Nat.add_0_r. exact Ha.
  - destruct (Hf name (or_introl eq_refl)) as (V & B). pose proof (near_part _ _ _ _ V Vc Hk B) as P.
    assert (Pos : forall nm, 0 <= Rabs (fval (f nm)) / k) by (intros nm; apply Rmult_le_pos; [apply Rabs_pos|left; apply Rinv_0_lt_compat; lra]).
    assert (Mono : forall l b, b <= fold_left (fun s nm => s + Rabs (fval (f nm)) / k) l b).
    { induction l as [|nm l IHl]; intros b; cbn [fold_left]; [lra|]. apply Rle_trans with (2 := IHl _). pose proof (Pos nm). lra. }
    pose proof (Mono names (a + Rabs (fval (f name)) / k)) as Mn. pose proof (Pos name) as Pk.
    pose proof Ha as (_ & Ba & E0 & _). pose proof (bpow_gt_0 radix2 (-1075)) as Eta. pose proof (Rabs_pos r). pose proof u_half as U.
    unfold q. replace (m + S (length names))%nat with (S m + length names)%nat in * by lia.
    assert (Mu : INR m * u <= / 2).
    { pose proof (le_INR m (S m + length names) ltac:(lia)) as Le. pose proof (Rmult_le_compat_r u _ _ ltac:(lra) Le). lra. }
    pose proof (growth_2 m Mu) as Gm.
    assert (Small : INR m * eta <= / 8).
    { assert (Eu : eta <= u * / 8) by (change (/ 8) with (bpow radix2 (-3)); rewrite <- bpow_plus; apply bpow_le; lia).
      pose proof (Rmult_le_compat_l _ _ _ (pos_INR m) Eu). lra. }
    assert (Em : (1 + u) ^ m * (INR m * eta) <= / 4).
    { pose proof (Rmult_le_compat_r (INR m * eta) _ _ ltac:(apply Rmult_le_pos; [apply pos_INR|lra]) Gm). lra. }
    assert (Eta8 : eta <= / 8) by (change (/ 8) with (bpow radix2 (-3)); apply bpow_le; lia).
    assert (N : near (S m) ((1 + u) * ((1 + u) ^ m * (INR m * eta) + eta)) (acc +! (f name /! c)) (r + fval (f name) / k) (a + Rabs (fval (f name)) / k)).
    { apply near_add; [exact Ha|eapply near_weaken; [exact P|lia|lra|lra]|].
      pose proof (Rmult_le_compat_r (a + Rabs (fval (f name)) / k) _ _ ltac:(lra) Gm). lra. }
    apply IH; [exact (fun nm Hin => Hf nm (or_intror Hin))| |lia|exact Hn|exact Hb].
    eapply near_weaken; [exact N|lia| |lra]. rewrite S_INR, growth_S. pose proof (growth_pos m) as G1.
    pose proof (Rmult_le_compat_r ((1 + u) * eta) _ _ ltac:(apply Rmult_le_pos; lra) G1). lra.
Qed.
Lemma c105_files (rd : reader b64) names (avg : bool) ht wd content head time t :
  series rd names ht wd content head time -> (2 <= length names)%nat -> (forall name, In name names -> bounded t (content name)) ->
  0 <= t -> INR (length names) * t <= powerRZ 2 1000 -> INR (length names) <= powerRZ 2 52 ->
  exists im, image_from_list rd names avg = Ok im /\ rows (l_data im) = ht /\ cols (l_data im) = wd /\
    forall y x, (0 <= y < ht)%Z -> (0 <= x < wd)%Z ->
      let n := INR (length names) in
      let k := if avg then n else 1 in
      off_by (n * powerRZ 2 (-52) * (total (map (fun name => Rabs (fval (cell (content name) y x))) names) / k) + n * powerRZ 2 (-1074))
        (cell (l_data im) y x) (total (map (fun name => fval (cell (content name) y x)) names) / k).
Proof.
  rewrite !power2. intros Hs Hn Hc H0 Hb Hl. destruct names as [|first [|second rest]] eqn:E; [cbn in Hn; lia|cbn in Hn; lia|]. rewrite <- E in *.
  destruct (list_ok rd names ht wd content head time Hs first second rest avg E) as (im & Ei & R1 & C1 & V & _).
  exists im. split; [exact Ei|]. split; [exact R1|]. split; [exact C1|]. intros y x Hy Hx n k. rewrite (V y x Hy Hx). clear V.
  set (f := fun name => cell (content name) y x). change (cell (content first) y x) with (f first).
  set (K := if avg then Z.of_nat (length names) else 1%Z) in *.
  assert (EK : k = IZR K) by (unfold k, K, n; destruct avg; [apply INR_IZR_INZ|reflexivity]).
  assert (HN : 2 <= n) by (unfold n; apply (le_INR 2 (length names)); lia).
  assert (K1 : 1 <= k) by (unfold k; destruct avg; lra).
  assert (VK : is_value (nofZ K) k).
  { rewrite EK. apply ofZ_value. assert (IZR K <= bpow radix2 52) by (rewrite <- EK; unfold k; destruct avg; [exact Hl|apply (bpow_le radix2 0); lia]).
    change (bpow radix2 52) with (IZR (2 ^ 52)) in H. apply le_IZR in H. rewrite EK in K1. apply le_IZR in K1. lia. }
  destruct Hs as (_ & Hs).
  assert (t1000 : t <= bpow radix2 1000) by (pose proof (Rmult_le_compat_r t 1 n H0 ltac:(lra)); fold n in Hb; lra).
  assert (H1000 : bpow radix2 1000 <= huge) by (apply bpow_le; lia).
  assert (Hf : forall name, In name names -> is_value (f name) (fval (f name)) /\ Rabs (fval (f name)) <= t).
  { intros name Hin. destruct (Hs name Hin) as (_ & Rn & Cn & _). destruct (Hc name Hin y x) as (A1 & A2 & A3); [lia|lia|]. split; [|exact A3]. split; [exact A1|]. split; [exact A2|reflexivity]. }
  assert (In1 : In first names) by (rewrite E; left; reflexivity).
  destruct (Hf first In1) as (V1 & B1).
  pose proof (near_part (f first) _ (nofZ K) k V1 VK K1 ltac:(lra)) as N1.
  assert (L : length names = (1 + length (second :: rest))%nat) by (rewrite E; reflexivity).
  assert (U : 0 < u) by apply bpow_gt_0. assert (Eta : 0 < eta) by apply bpow_gt_0.
  assert (Hnu : INR (length names) * u <= / 2).
  { replace (/ 2) with (bpow radix2 52 * u) by (rewrite <- bpow_plus; reflexivity). apply Rmult_le_compat_r; [lra|exact Hl]. }
  assert (Kinv : 0 < / k <= 1) by (split; [apply Rinv_0_lt_compat; lra|rewrite <- Rinv_1; apply Rinv_le_contravar; lra]).
  assert (Tot : fold_left (fun s name => s + Rabs (fval (f name)) / k) (second :: rest) (Rabs (fval (f first)) / k) = total (map (fun name => Rabs (fval (f name))) names) / k).
  { rewrite (fold_div (second :: rest) (fun name => Rabs (fval (f name)))). rewrite E. cbn [map]. rewrite (total_cons (Rabs (fval (f first)))). unfold Rdiv. ring. }
  assert (Tot' : fold_left (fun s name => s + fval (f name) / k) (second :: rest) (fval (f first) / k) = total (map (fun name => fval (f name)) names) / k).
  { rewrite (fold_div (second :: rest) (fun name => fval (f name))). rewrite E. cbn [map]. rewrite (total_cons (fval (f first))). unfold Rdiv. ring. }
  assert (TB : 0 <= total (map (fun name => Rabs (fval (f name))) names) <= n * t).
  { unfold n. clear - Hf H0. induction names as [|a l IH]; [cbn; lra|]. cbn [map]. rewrite total_cons. cbn [length]. rewrite S_INR.
    specialize (IH (fun nm Hin => Hf nm (or_intror Hin))). destruct (Hf a (or_introl eq_refl)) as (_ & A). pose proof (Rabs_pos (fval (f a))). lra. }
  set (T := total (map (fun name => Rabs (fval (f name))) names)) in *.
  assert (TK : 0 <= T / k <= T) by (unfold Rdiv; split; [apply Rmult_le_pos; lra|pose proof (Rmult_le_compat_l T _ _ (proj1 TB) (proj2 Kinv)); lra]).
  assert (N : near (1 + length (second :: rest)) ((1 + u) ^ (1 + length (second :: rest)) * (INR (1 + length (second :: rest)) * eta))
      (fold_left (fun s name => s +! (f name /! nofZ K)) (second :: rest) (f first /! nofZ K)) (fold_left (fun s name => s + fval (f name) / k) (second :: rest) (fval (f first) / k))
      (fold_left (fun s name => s + Rabs (fval (f name)) / k) (second :: rest) (Rabs (fval (f first)) / k))).
  { apply (fold_parts (second :: rest) f (nofZ K) k VK K1); [| |lia|rewrite <- L; exact Hnu|].
    - intros name Hin. destruct (Hf name) as (A1 & A2); [rewrite E; right; exact Hin|]. split; [exact A1|lra].
    - eapply near_weaken; [exact N1|lia| |lra]. cbn [pow INR]. pose proof (Rmult_lt_0_compat u eta U Eta). lra.
    - rewrite Tot. fold n in Hb. apply Rle_trans with (2 * bpow radix2 1000 + 2 * bpow radix2 1000); [pose proof (bpow_le radix2 0 1000 ltac:(lia)) as Q; change (bpow radix2 0) with 1 in Q; lra|].
      replace (2 * bpow radix2 1000 + 2 * bpow radix2 1000) with (bpow radix2 2 * bpow radix2 1000) by (change (bpow radix2 2) with 4; ring). rewrite <- bpow_plus. apply bpow_le. lia. }
  rewrite Tot, Tot' in N. rewrite <- L in N. fold n in N. pose proof (growth_2 _ Hnu) as G2. pose proof (growth_bound _ Hnu) as G1. fold n in G1.
  destruct (near_off _ _ _ _ _ N) as (V2 & V3 & V4). split; [exact V2|]. split; [exact V3|]. apply Rle_trans with (1 := V4).
  replace (bpow radix2 (-52)) with (2 * u) by (change 2 with (bpow radix2 1); rewrite <- bpow_plus; reflexivity).
  replace (bpow radix2 (-1074)) with (2 * eta) by (change 2 with (bpow radix2 1); rewrite <- bpow_plus; reflexivity).
  pose proof (Rmult_le_compat_r (T / k) _ _ (proj1 TK) G1). pose proof (Rmult_le_compat_r (n * eta) _ _ ltac:(apply Rmult_le_pos; lra) G2).
  change (map (fun name : string => Rabs (fval (cell (content name) y x))) names) with (map (fun name => Rabs (fval (f name))) names). fold T. lra.
Qed.
