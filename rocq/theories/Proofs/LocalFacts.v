(** Which pixels a result depends on (C119). *)
From Coq Require Import String.
From Verif Require Import Base.Base Base.Num Base.BaseFacts Model.Demosaic Model.Rebin Model.Ifov Model.Stokes Model.Pol Model.Demodulate
  Spec.Terminates Spec.MosaicSpec Spec.SumSpec Spec.StokesSpec Spec.DemodSpec Spec.FloatSpec Spec.LocalSpec
  Proofs.MosaicFacts Proofs.MosaicProps Proofs.DemosaicFacts Proofs.DemodFacts Proofs.RoundImages Proofs.StokesProps.
Local Open Scope Z_scope.

Section Local.
  Context {A : Type} {NA : Num A}.

  Lemma same_light_intro y x (s t : stokes A) :
    cell (sI s) y x = cell (sI t) y x -> cell (sQ s) y x = cell (sQ t) y x -> cell (sU s) y x = cell (sU t) y x -> same_light y x s t.
  Proof.
    intros EI EQ EU. unfold same_light. split; [exact EI|]. split; [exact EQ|]. split; [exact EU|].
    unfold DoLP, pB, amap2. cbn [cell]. rewrite EI, EQ, EU. split; reflexivity.
  Qed.

  (** theo_stokes works pixel by pixel *)
  Lemma get_local (q q' : quad A) y x i : (forall k, 0 <= k < 4 -> cell (qnth q k) y x = cell (qnth q' k) y x) ->
    same_outcome (fun a a' : arr A => cell a y x = cell a' y x) (quad_get q i) (quad_get q' i).
  Proof.
    intros Hq. unfold quad_get. destruct (Z_lt_le_dec i 4) as [L4|L4], (Z_lt_le_dec i 0) as [L0|L0], (Z_lt_le_dec i (-4)) as [M4|M4]; try lia.
    - rewrite norm_idx_out by lia. reflexivity.
    - rewrite norm_idx_neg by lia. apply Hq. lia.
    - rewrite norm_idx_in by lia. apply Hq. lia.
    - rewrite norm_idx_out by lia. reflexivity.
  Qed.
  Lemma theo_local dic (q q' : quad A) y x : (forall k, 0 <= k < 4 -> cell (qnth q k) y x = cell (qnth q' k) y x) ->
    same_outcome (same_light y x) (theo_stokes dic q) (theo_stokes dic q').
  Proof.
    intros Hq. unfold theo_stokes.
    assert (G : forall i, same_outcome (fun a a' : arr A => cell a y x = cell a' y x) (quad_get q i) (quad_get q' i)) by (intros i; apply get_local, Hq).
    destruct (dict_get dic 0) as [i0| |]; cbn [bind same_outcome]; [|reflexivity|exact I].
    pose proof (G i0) as G0. destruct (quad_get q i0) as [s0| |], (quad_get q' i0) as [s0'| |]; cbn [bind same_outcome] in G0 |- *; try contradiction; try assumption.
    destruct (dict_get dic 90) as [i9| |]; cbn [bind same_outcome]; [|reflexivity|exact I].
    pose proof (G i9) as G9. destruct (quad_get q i9) as [s9| |], (quad_get q' i9) as [s9'| |]; cbn [bind same_outcome] in G9 |- *; try contradiction; try assumption.
    destruct (dict_get dic 45) as [i4| |]; cbn [bind same_outcome]; [|reflexivity|exact I].
    pose proof (G i4) as G4. destruct (quad_get q i4) as [s4| |], (quad_get q' i4) as [s4'| |]; cbn [bind same_outcome] in G4 |- *; try contradiction; try assumption.
    destruct (dict_get dic (-45)) as [im| |]; cbn [bind same_outcome]; [|reflexivity|exact I].
    pose proof (G im) as Gm. destruct (quad_get q im) as [sm| |], (quad_get q' im) as [sm'| |]; cbn [bind same_outcome] in Gm |- *; try contradiction; try assumption.
    apply same_light_intro; cbn [sI sQ sU amap2 half_sum cell].
    - pose proof (Hq 0 ltac:(lia)) as H0. pose proof (Hq 1 ltac:(lia)) as H1. pose proof (Hq 2 ltac:(lia)) as H2. pose proof (Hq 3 ltac:(lia)) as H3.
      cbn [qnth Z.eqb Pos.eqb] in H0, H1, H2, H3. rewrite H0, H1, H2, H3. reflexivity.
    - rewrite G0, G9. reflexivity.
    - rewrite G4, Gm. reflexivity.
  Qed.

  Lemma agree_mosaic P (d d' : arr A) : agree P d d' -> mosaic d -> mosaic d'.
  Proof. intros (R & C & _). unfold mosaic. rewrite R, C. tauto. Qed.

  Lemma sample_agree b (d d' : arr A) k Y X : mosaic d -> agree (bin 1 Y X) d d' -> 0 <= k < 4 -> 0 <= Y < rows d / 2 -> 0 <= X < cols d / 2 ->
    b = 1 -> sample d k Y X = sample d' k Y X.
  Proof.
    intros (R0 & C0 & R2 & C2) (_ & _ & E) Hk HY HX _. unfold sample. apply E; unfold bin; Z.to_euclidean_division_equations; lia.
  Qed.

  Lemma c119_raw dic (d d' : arr A) Y X : mosaic d -> agree (bin 1 Y X) d d' -> 0 <= Y < rows d / 2 -> 0 <= X < cols d / 2 ->
    same_outcome (same_light Y X) (data_stokes dic d) (data_stokes dic d').
  Proof.
    intros Hm Ha HY HX. pose proof (agree_mosaic _ _ _ Ha Hm) as Hm'. pose proof Ha as (R & C & _). unfold data_stokes.
    destruct (c01_split d) as (S & _); [apply Hm..|]. destruct (S Hm) as (q & Eq & Q).
    destruct (c01_split d') as (S' & _); [apply Hm'..|]. destruct (S' Hm') as (q' & Eq' & Q'). rewrite Eq, Eq'. cbn [bind].
    apply theo_local. intros k Hk. destruct (Q k Hk) as (_ & _ & V). destruct (Q' k Hk) as (_ & _ & V').
    rewrite V, V' by (rewrite <- ?R, <- ?C; assumption). apply (sample_agree 1 d d' k Y X Hm Ha Hk HY HX eq_refl).
  Qed.

  Lemma ahead_sample (d d' : arr A) k Y X Y' X' : mosaic d -> agree (bins_ahead 1 Y X) d d' -> 0 <= k < 4 ->
    0 <= Y' < rows d / 2 -> 0 <= X' < cols d / 2 -> Y <= Y' <= Y + 1 -> X <= X' <= X + 1 -> sample d k Y' X' = sample d' k Y' X'.
  Proof.
    intros (R0 & C0 & R2 & C2) (_ & _ & E) Hk HY HX LY LX. unfold sample. apply E; unfold bins_ahead; Z.to_euclidean_division_equations; lia.
  Qed.

  Lemma interpolated_local (d d' : arr A) k y x : mosaic d -> agree (bins_ahead 1 (y / 2) (x / 2)) d d' -> 0 <= k < 4 ->
    0 <= y < rows d -> 0 <= x < cols d -> interpolated d k y x = interpolated d' k y x.
  Proof.
    intros Hm Ha Hk Hy Hx. pose proof Ha as (R & C & _). unfold interpolated. rewrite <- R, <- C.
    destruct Hm as (R0 & C0 & R2 & C2). assert (Hm : mosaic d) by (repeat split; assumption).
    assert (HY : 0 <= y / 2 < rows d / 2) by (Z.to_euclidean_division_equations; lia).
    assert (HX : 0 <= x / 2 < cols d / 2) by (Z.to_euclidean_division_equations; lia).
    assert (HY' : 0 <= next (rows d / 2) (y / 2) < rows d / 2 /\ y / 2 <= next (rows d / 2) (y / 2) <= y / 2 + 1) by (unfold next; lia).
    assert (HX' : 0 <= next (cols d / 2) (x / 2) < cols d / 2 /\ x / 2 <= next (cols d / 2) (x / 2) <= x / 2 + 1) by (unfold next; lia).
    cbv zeta. set (Y := y / 2) in *. set (X := x / 2) in *. set (Y' := next (rows d / 2) Y) in *. set (X' := next (cols d / 2) X) in *.
    assert (E : forall V W, 0 <= V < rows d / 2 -> 0 <= W < cols d / 2 -> Y <= V <= Y + 1 -> X <= W <= X + 1 -> sample d k V W = sample d' k V W)
      by (intros V W HV HW LV LW; apply (ahead_sample d d' k Y X V W Hm Ha Hk); assumption).
    rewrite (E Y X), (E Y' X), (E Y X'), (E Y' X') by lia. reflexivity.
  Qed.

  (** a demosaiced pixel depends on its superpixel and the next ones *)
  Lemma demosaic_local (d d' : arr A) o y x : mosaic d -> (o = "mean" \/ o = "adjacent")%string -> agree (bins_ahead 1 (y / 2) (x / 2)) d d' ->
    0 <= y < rows d -> 0 <= x < cols d ->
    exists q q', demosaic d o = Ok q /\ demosaic d' o = Ok q' /\ forall k, 0 <= k < 4 -> cell (qnth q k) y x = cell (qnth q' k) y x.
  Proof.
    intros Hm Ho Ha Hy Hx. pose proof (agree_mosaic _ _ _ Ha Hm) as Hm'. pose proof Ha as (R & C & _). destruct Ho as [-> | ->].
    - destruct (demosaic_mean_spec d Hm) as (q & Eq & Q). destruct (demosaic_mean_spec d' Hm') as (q' & Eq' & Q').
      exists q, q'. split; [exact Eq|]. split; [exact Eq'|]. intros k Hk. destruct (Q k Hk) as (_ & _ & V). destruct (Q' k Hk) as (_ & _ & V').
      rewrite V, V' by (rewrite <- ?R, <- ?C; assumption). f_equal. apply (ahead_sample d d' k (y / 2) (x / 2)); try assumption; try lia;
        destruct Hm as (? & ? & ? & ?); Z.to_euclidean_division_equations; lia.
    - destruct (demosaic_adjacent_spec d Hm) as (q & Eq & Q). destruct (demosaic_adjacent_spec d' Hm') as (q' & Eq' & Q').
      exists q, q'. split; [exact Eq|]. split; [exact Eq'|]. intros k Hk. destruct (Q k Hk) as (_ & _ & V). destruct (Q' k Hk) as (_ & _ & V').
      rewrite V, V' by (rewrite <- ?R, <- ?C; assumption). apply interpolated_local; assumption.
  Qed.

  (** a pixel of the binned image depends on its bin *)
  Lemma in_bin b n m Y : 1 <= b -> 0 <= Y -> Y < 2 * (n / (2 * b)) -> 0 <= m < b ->
    0 <= 2 * b * (Y / 2) + Y mod 2 + 2 * m < n /\ (2 * b * (Y / 2) + Y mod 2 + 2 * m) / (2 * b) = Y / 2.
  Proof.
    intros Hb HY HYn Hm. pose proof (Z.mod_pos_bound Y 2 ltac:(lia)) as Hr. pose proof (Z.div_mod Y 2 ltac:(lia)) as HD.
    set (Z := Y / 2) in *. set (r := Y mod 2) in *.
    assert (Q : 0 <= Z) by lia. split.
    - assert (L : Z <= n / (2 * b) - 1) by lia. pose proof (Z.mul_div_le n (2 * b) ltac:(lia)) as M.
      assert (K : 2 * b * Z + 2 * b <= 2 * b * (n / (2 * b))) by (replace (2 * b * Z + 2 * b) with (2 * b * (Z + 1)) by ring; apply Z.mul_le_mono_nonneg_l; lia).
      pose proof (Z.mul_nonneg_nonneg (2 * b) Z ltac:(lia) Q). lia.
    - symmetry. apply Z.div_unique with (r + 2 * m); lia.
  Qed.

  Lemma rebin_local (d d' : arr A) b (P : Z -> Z -> Prop) : mosaic d -> 1 <= b ->
    agree (fun j i => P (j / (2 * b)) (i / (2 * b))) d d' ->
    exists r r', evaluates (fun fuel => micropolarray_rebin fuel d b) r /\ evaluates (fun fuel => micropolarray_rebin fuel d' b) r' /\
      mosaic r /\ rows r = 2 * (rows d / (2 * b)) /\ cols r = 2 * (cols d / (2 * b)) /\ agree (fun Y X => P (Y / 2) (X / 2)) r r'.
  Proof.
    intros Hm Hb Ha. pose proof (agree_mosaic _ _ _ Ha Hm) as Hm'. pose proof Ha as (R & C & E).
    destruct (returns_evaluates _ _ (c04_rebin d b Hm Hb)) as (r & Ev & R1 & C1 & V).
    destruct (returns_evaluates _ _ (c04_rebin d' b Hm' Hb)) as (r' & Ev' & R1' & C1' & V').
    exists r, r'. split; [exact Ev|]. split; [exact Ev'|].
    assert (M1 : 0 <= rows d / (2 * b)) by (apply Z.div_pos; [apply Hm|lia]). assert (M2 : 0 <= cols d / (2 * b)) by (apply Z.div_pos; [apply Hm|lia]).
    split; [repeat split; try lia; rewrite ?R1, ?C1, Z.mul_comm, Z.mod_mul by lia; reflexivity|]. split; [exact R1|]. split; [exact C1|].
    split; [rewrite R1, R1', R; reflexivity|]. split; [rewrite C1, C1', C; reflexivity|].
    intros Y X HY HX HP. rewrite V, V' by (rewrite ?R1', ?C1', <- ?R, <- ?C, <- ?R1, <- ?C1; assumption).
    unfold lsum, family_block. f_equal. apply map_ext_in. intros (m & n) Hin. apply in_prod_iff in Hin as (Hi & Hj).
    apply in_zrange in Hi, Hj. cbn [fst snd].
    destruct (in_bin b (rows d) m Y Hb ltac:(lia) ltac:(lia) Hi) as (B1 & D1). destruct (in_bin b (cols d) n X Hb ltac:(lia) ltac:(lia) Hj) as (B2 & D2).
    apply E; [exact B1|exact B2|]. rewrite D1, D2. exact HP.
  Qed.

  (** binning, demosaicing and Stokes parameters *)
  Lemma c119_chain dic (d d' : arr A) b o y x : mosaic d -> 1 <= b -> (o = "mean" \/ o = "adjacent")%string ->
    0 <= y < 2 * (rows d / (2 * b)) -> 0 <= x < 2 * (cols d / (2 * b)) -> agree (bins_ahead b (y / 2) (x / 2)) d d' ->
    exists r r', evaluates (fun fuel => micropolarray_rebin fuel d b) r /\ evaluates (fun fuel => micropolarray_rebin fuel d' b) r' /\
      same_outcome (same_light y x) (let* q := demosaic r o in theo_stokes dic q) (let* q := demosaic r' o in theo_stokes dic q).
  Proof.
    intros Hm Hb Ho Hy Hx Ha.
    destruct (rebin_local d d' b (fun j i => y / 2 <= j <= y / 2 + 1 /\ x / 2 <= i <= x / 2 + 1) Hm Hb Ha) as (r & r' & Ev & Ev' & Hr & R & C & Hag).
    exists r, r'. split; [exact Ev|]. split; [exact Ev'|].
    destruct (demosaic_local r r' o y x Hr Ho) as (q & q' & Eq & Eq' & Q); [exact Hag|lia|lia|]. rewrite Eq, Eq'. cbn [bind]. apply theo_local, Q.
  Qed.

  Lemma c119_binned dic (d d' : arr A) b Y X : mosaic d -> 1 <= b ->
    0 <= Y < rows d / (2 * b) -> 0 <= X < cols d / (2 * b) -> agree (bin b Y X) d d' ->
    exists r r', evaluates (fun fuel => micropolarray_rebin fuel d b) r /\ evaluates (fun fuel => micropolarray_rebin fuel d' b) r' /\
      same_outcome (same_light Y X) (data_stokes dic r) (data_stokes dic r').
  Proof.
    intros Hm Hb HY HX Ha.
    destruct (rebin_local d d' b (fun j i => j = Y /\ i = X) Hm Hb Ha) as (r & r' & Ev & Ev' & Hr & R & C & Hag).
    exists r, r'. split; [exact Ev|]. split; [exact Ev'|]. apply c119_raw; [exact Hr|exact Hag| |]; rewrite ?R, ?C, Z.mul_comm, Z.div_mul by lia; assumption.
  Qed.

  Lemma c119_demod (m : demodulator A) (d d' : arr A) old Y X : mosaic d ->
    t_rows (mij m) = rows d / 2 -> t_cols (mij m) = cols d / 2 ->
    (forall f, fit_found_flags m = Some f ->
       (rows f = rows d / 2 /\ cols f = cols d / 2) /\ (rows (sI old) = rows d / 2 /\ cols (sI old) = cols d / 2) /\
       (rows (sQ old) = rows d / 2 /\ cols (sQ old) = cols d / 2) /\ (rows (sU old) = rows d / 2 /\ cols (sU old) = cols d / 2)) ->
    0 <= Y < rows d / 2 -> 0 <= X < cols d / 2 -> agree (bin 1 Y X) d d' ->
    exists s s', demod_raw m d old = Ok s /\ demod_raw m d' old = Ok s' /\ same_light Y X s s'.
  Proof.
    intros Hm T1 T2 Hf HY HX Ha. pose proof (agree_mosaic _ _ _ Ha Hm) as Hm'. pose proof Ha as (R & C & _).
    destruct (c24_product m d old _ _ Hm eq_refl eq_refl T1 T2 Hf) as (s & Es & S).
    destruct (c24_product m d' old (rows d / 2) (cols d / 2) Hm' ltac:(rewrite R; reflexivity) ltac:(rewrite C; reflexivity) T1 T2 Hf) as (s' & Es' & S').
    exists s, s'. split; [exact Es|]. split; [exact Es'|].
    destruct S as (_ & _ & _ & S). destruct S' as (_ & _ & _ & S'). destruct (S Y X HY HX) as (SI & SQ & SU). destruct (S' Y X HY HX) as (SI' & SQ' & SU').
    assert (E : forall k, 0 <= k < 4 -> sample d k Y X = sample d' k Y X) by (intros k Hk; apply (sample_agree 1 d d' k Y X Hm Ha Hk HY HX eq_refl)).
    assert (P : forall i, row_product (fun i j => t_cell (mij m) i j Y X) (fun k => sample d k Y X) i = row_product (fun i j => t_cell (mij m) i j Y X) (fun k => sample d' k Y X) i).
    { intros i. unfold row_product. rewrite !E by lia. reflexivity. }
    apply same_light_intro; [rewrite SI, SI'|rewrite SQ, SQ'|rewrite SU, SU']; rewrite P; reflexivity.
  Qed.

  Lemma c119_ifov (d d' : arr A) y x : mosaic d -> 0 <= y < rows d -> 0 <= x < cols d ->
    agree (fun j i => (j = y - 2 \/ j = y) /\ (i = x - 2 \/ i = x)) d d' ->
    exists r r', ifov_jitcorrect d (rows d) (cols d) = Ok r /\ ifov_jitcorrect d' (rows d') (cols d') = Ok r' /\ cell r y x = cell r' y x.
  Proof.
    intros Hm Hy Hx Ha. pose proof (agree_mosaic _ _ _ Ha Hm) as Hm'. pose proof Ha as (R & C & E).
    destruct (ifov_spec d Hm) as (r & Er & _ & _ & V). destruct (ifov_spec d' Hm') as (r' & Er' & _ & _ & V').
    exists r, r'. split; [exact Er|]. split; [exact Er'|]. rewrite V, V' by (rewrite <- ?R, <- ?C; assumption).
    destruct ((y <? 2) || (x <? 2)) eqn:B; [reflexivity|]. rewrite !E by lia. reflexivity.
  Qed.
End Local.
