(** C141: rounding errors of the propagation of errors. *)
From Coq Require Import ZArith Reals Lra Lia Floats.SpecFloat.
From Flocq Require Import Core BinarySingleNaN.
From Verif Require Import Base.Base Base.Num Base.Bcast Base.BaseFacts Model.Demosaic Model.Stokes Model.Demodulate Model.Errors
  Spec.AngleSpec Spec.MosaicSpec Spec.StokesSpec Spec.FloatSpec Spec.ErrorFloatSpec
  Proofs.FloatFacts Proofs.MosaicFacts Proofs.MosaicProps Proofs.ExactFacts Proofs.RoundFacts Proofs.RoundPol Proofs.UtilFacts Proofs.RelFacts.
Local Open Scope R_scope.

Lemma usual_rel k x : usual k x -> rel 0 k x (fval x).
Proof.
  intros (B & F & M). apply rel_value; [split; [exact B|split; [exact F|reflexivity]]|].
  destruct M as [Z|M]; [left; exact Z|right]. change 2 with (IZR radix2) in M. rewrite <- !bpow_powerRZ in M. exact M.
Qed.
Lemma rel_Z k z : (Z.abs z < 2 ^ 53)%Z -> IZR z <> 0 -> bpow radix2 (- k) <= Rabs (IZR z) <= bpow radix2 k -> rel 0 k (nofZ z) (IZR z).
Proof. intros Hz _ Hb. apply rel_value; [apply ofZ_value; exact Hz|right; exact Hb]. Qed.
Lemma rel_one : rel 0 0 n1 1.
Proof.
  change (@n1 b64 _) with (@nofZ b64 _ 1). apply (rel_Z 0 1); [reflexivity|lra|]. change (bpow radix2 (- 0)) with 1. change (bpow radix2 0) with 1.
  rewrite Rabs_R1. lra.
Qed.
Lemma rel_4 : rel 0 2 (nofZ 4) 4.
Proof.
  apply (rel_Z 2 4); [reflexivity|lra|]. change (bpow radix2 (-(2))) with (/ 4). change (bpow radix2 2) with 4.
  rewrite Rabs_pos_eq by lra. lra.
Qed.

Section Pixel.
  Variables (m : nat) (I Q U sI' sQ' sU' : b64) (tI tQ tU : R).
  Hypotheses (Hm : (m <= 20)%nat) (HI : rel 0 60 I (fval I)) (HQ : rel 0 60 Q (fval Q)) (HU : rel 0 60 U (fval U))
    (HsI : rel m 60 sI' tI) (HsQ : rel m 60 sQ' tQ) (HsU : rel m 60 sU' tU).

  Lemma weighted v s t : rel 0 60 v (fval v) -> rel m 60 s t ->
    rel (3 + 2 * m) 240 (((v *! v) *! s) *! s) (((fval v * fval v) * t) * t) /\ 0 <= ((fval v * fval v) * t) * t.
  Proof.
    intros Hv Hs. split.
    - pose proof (rel_mul _ _ _ _ _ _ _ _ Hv Hv ltac:(lia) ltac:(lia)) as A.
      pose proof (rel_mul _ _ _ _ _ _ _ _ A Hs ltac:(lia) ltac:(lia)) as B.
      pose proof (rel_mul _ _ _ _ _ _ _ _ B Hs ltac:(lia) ltac:(lia)) as C.
      apply (rel_mono _ _ _ _ _ _ C); lia.
    - replace (fval v * fval v * t * t) with ((fval v * t) * (fval v * t)) by ring. apply Rle_0_sqr.
  Qed.
  Lemma numerator : rel (4 + 2 * m) 241 ((((Q *! Q) *! sQ') *! sQ') +! (((U *! U) *! sU') *! sU'))
      ((((fval Q * fval Q) * tQ) * tQ) + (((fval U * fval U) * tU) * tU)) /\
    0 <= (((fval Q * fval Q) * tQ) * tQ) + (((fval U * fval U) * tU) * tU).
  Proof.
    destruct (weighted Q sQ' tQ HQ HsQ) as (A & A0). destruct (weighted U sU' tU HU HsU) as (B & B0). split; [|lra].
    exact (rel_add _ _ _ _ _ _ A B A0 B0 ltac:(lia) ltac:(lia)).
  Qed.
  Lemma squared v : rel 0 60 v (fval v) -> rel 1 120 (v *! v) (fval v * fval v) /\ 0 <= fval v * fval v.
  Proof.
    intros Hv. split; [exact (rel_mul _ _ _ _ _ _ _ _ Hv Hv ltac:(lia) ltac:(lia))|apply Rle_0_sqr].
  Qed.
  Lemma polarized : rel 2 121 ((Q *! Q) +! (U *! U)) (fval Q * fval Q + fval U * fval U).
  Proof.
    destruct (squared Q HQ) as (A & A0). destruct (squared U HU) as (B & B0).
    exact (rel_add _ _ _ _ _ _ A B A0 B0 ltac:(lia) ltac:(lia)).
  Qed.
  Lemma pol_pos : ~ (fval Q = 0 /\ fval U = 0) -> 0 < fval Q * fval Q + fval U * fval U.
  Proof.
    intros N. pose proof (Rle_0_sqr (fval Q)) as A. pose proof (Rle_0_sqr (fval U)) as B. unfold Rsqr in A, B.
    destruct (Req_dec (fval Q) 0) as [E|E].
    - destruct (Req_dec (fval U) 0) as [E'|E']; [exfalso; tauto|].
      pose proof (Rsqr_pos_lt _ E') as P. unfold Rsqr in P. lra.
    - pose proof (Rsqr_pos_lt _ E) as P. unfold Rsqr in P. lra.
  Qed.

  Lemma pB_pixel : ~ (fval Q = 0 /\ fval U = 0) ->
    rel (5 + m) 181 (nsqrt (((((Q *! Q) *! sQ') *! sQ') +! (((U *! U) *! sU') *! sU')) /! ((Q *! Q) +! (U *! U))))
      (sqrt (((((fval Q * fval Q) * tQ) * tQ) + (((fval U * fval U) * tU) * tU)) / (fval Q * fval Q + fval U * fval U))).
  Proof.
    intros N. pose proof (pol_pos N) as P. destruct numerator as (A & A0).
    pose proof (rel_div _ _ _ _ _ _ _ _ A polarized ltac:(lra) ltac:(lia) ltac:(lia)) as D.
    assert (D' := rel_mono _ ((4 + m) + (4 + m)) _ (181 + 181) _ _ D ltac:(lia) ltac:(lia)).
    apply (rel_sqrt (4 + m) 181); [exact D'| |lia|lia].
    apply Rmult_le_pos; [exact A0|]. left. apply Rinv_0_lt_compat. exact P.
  Qed.

  Lemma root : rel 2 61 (nsqrt ((Q *! Q) +! (U *! U))) (sqrt (fval Q * fval Q + fval U * fval U)).
  Proof.
    assert (D := rel_mono _ (1 + 1) _ (61 + 61) _ _ polarized ltac:(lia) ltac:(lia)).
    apply (rel_sqrt 1 61); [exact D| |lia|lia]. destruct (squared Q HQ) as (_ & A). destruct (squared U HU) as (_ & B). lra.
  Qed.

  Lemma DoLP_pixel : ~ (fval Q = 0 /\ fval U = 0) -> fval I <> 0 ->
    let pb := nsqrt ((Q *! Q) +! (U *! U)) in let rb := sqrt (fval Q * fval Q + fval U * fval U) in
    rel (8 + m) 242
      (nsqrt (((((Q *! Q) *! sQ') *! sQ' +! ((U *! U) *! sU') *! sU') /! ((I *! pb) *! (I *! pb)))
        +! (((pb /! (I *! I)) *! (pb /! (I *! I))) *! sI') *! sI'))
      (sqrt (((((fval Q * fval Q) * tQ) * tQ + ((fval U * fval U) * tU) * tU) / ((fval I * rb) * (fval I * rb)))
        + (((rb / (fval I * fval I)) * (rb / (fval I * fval I))) * tI) * tI)).
  Proof.
    intros N NI pb rb. pose proof (pol_pos N) as P. pose proof (sqrt_lt_R0 _ P) as P'. fold rb in P'.
    destruct numerator as (A & A0). pose proof root as B. fold pb rb in B.
    pose proof (rel_mul _ _ _ _ _ _ _ _ HI B ltac:(lia) ltac:(lia)) as C.
    pose proof (rel_mul _ _ _ _ _ _ _ _ C C ltac:(lia) ltac:(lia)) as C2.
    assert (NC : fval I * rb <> 0) by (apply Rmult_integral_contrapositive_currified; lra).
    assert (PC : 0 < (fval I * rb) * (fval I * rb)) by (pose proof (Rsqr_pos_lt _ NC) as X; exact X).
    pose proof (rel_div _ _ _ _ _ _ _ _ A C2 ltac:(lra) ltac:(lia) ltac:(lia)) as D.
    destruct (squared I HI) as (E & _).
    assert (NE : fval I * fval I <> 0) by (apply Rmult_integral_contrapositive_currified; assumption).
    pose proof (rel_div _ _ _ _ _ _ _ _ B E NE ltac:(lia) ltac:(lia)) as F.
    pose proof (rel_mul _ _ _ _ _ _ _ _ F F ltac:(lia) ltac:(lia)) as F2.
    pose proof (rel_mul _ _ _ _ _ _ _ _ F2 HsI ltac:(lia) ltac:(lia)) as G.
    pose proof (rel_mul _ _ _ _ _ _ _ _ G HsI ltac:(lia) ltac:(lia)) as G2.
    assert (D' := rel_mono _ (12 + 2 * m) _ 483 _ _ D ltac:(lia) ltac:(lia)).
    assert (G' := rel_mono _ (12 + 2 * m) _ 483 _ _ G2 ltac:(lia) ltac:(lia)).
    assert (D0 : 0 <= (fval Q * fval Q * tQ * tQ + fval U * fval U * tU * tU) / (fval I * rb * (fval I * rb))).
    { apply Rmult_le_pos; [exact A0|]. left. apply Rinv_0_lt_compat. exact PC. }
    assert (G0 : 0 <= rb / (fval I * fval I) * (rb / (fval I * fval I)) * tI * tI).
    { replace (rb / (fval I * fval I) * (rb / (fval I * fval I)) * tI * tI)
        with ((rb / (fval I * fval I) * tI) * (rb / (fval I * fval I) * tI)) by ring. apply Rle_0_sqr. }
    pose proof (rel_add _ _ _ _ _ _ D' G' D0 G0 ltac:(lia) ltac:(lia)) as S.
    assert (S' := rel_mono _ ((7 + m) + (7 + m)) _ (242 + 242) _ _ S ltac:(lia) ltac:(lia)).
    apply (rel_sqrt (7 + m) 242); [exact S'|lra|lia|lia].
  Qed.

  Lemma AoLP_pixel : fval Q <> 0 ->
    rel (11 + m) 483
      (nsqrt ((sU' *! sU' +! (((sQ' *! sQ') *! U) *! U) /! (Q *! Q))
        /! ((((nofZ 4 *! Q) *! Q) *! (n1 +! ((U *! U) /! (Q *! Q)))) *! (n1 +! ((U *! U) /! (Q *! Q))))))
      (sqrt ((tU * tU + (((tQ * tQ) * fval U) * fval U) / (fval Q * fval Q))
        / ((((4 * fval Q) * fval Q) * (1 + ((fval U * fval U) / (fval Q * fval Q)))) * (1 + ((fval U * fval U) / (fval Q * fval Q)))))).
  Proof.
    intros N. destruct (squared Q HQ) as (A & _). destruct (squared U HU) as (B & B0).
    pose proof (Rsqr_pos_lt _ N) as P. unfold Rsqr in P.
    pose proof (rel_mul _ _ _ _ _ _ _ _ HsQ HsQ ltac:(lia) ltac:(lia)) as C.
    pose proof (rel_mul _ _ _ _ _ _ _ _ C HU ltac:(lia) ltac:(lia)) as C1.
    pose proof (rel_mul _ _ _ _ _ _ _ _ C1 HU ltac:(lia) ltac:(lia)) as C2.
    pose proof (rel_div _ _ _ _ _ _ _ _ C2 A ltac:(lra) ltac:(lia) ltac:(lia)) as C3.
    pose proof (rel_mul _ _ _ _ _ _ _ _ HsU HsU ltac:(lia) ltac:(lia)) as D.
    assert (C' := rel_mono _ (5 + 2 * m) _ 360 _ _ C3 ltac:(lia) ltac:(lia)).
    assert (D' := rel_mono _ (5 + 2 * m) _ 360 _ _ D ltac:(lia) ltac:(lia)).
    assert (C0 : 0 <= tQ * tQ * fval U * fval U / (fval Q * fval Q)).
    { apply Rmult_le_pos; [|left; apply Rinv_0_lt_compat; exact P].
      replace (tQ * tQ * fval U * fval U) with ((tQ * fval U) * (tQ * fval U)) by ring. apply Rle_0_sqr. }
    pose proof (rel_add _ _ _ _ _ _ D' C' (Rle_0_sqr tU) C0 ltac:(lia) ltac:(lia)) as S.
    pose proof (rel_div _ _ _ _ _ _ _ _ B A ltac:(lra) ltac:(lia) ltac:(lia)) as E.
    assert (E' := rel_mono _ 3 _ 240 _ _ E ltac:(lia) ltac:(lia)).
    assert (O' := rel_mono _ 3 _ 240 _ _ rel_one ltac:(lia) ltac:(lia)).
    assert (E0 : 0 <= fval U * fval U / (fval Q * fval Q)).
    { apply Rmult_le_pos; [exact B0|left; apply Rinv_0_lt_compat; exact P]. }
    pose proof (rel_add _ _ _ _ _ _ O' E' Rle_0_1 E0 ltac:(lia) ltac:(lia)) as F.
    pose proof (rel_mul _ _ _ _ _ _ _ _ rel_4 HQ ltac:(lia) ltac:(lia)) as G.
    pose proof (rel_mul _ _ _ _ _ _ _ _ G HQ ltac:(lia) ltac:(lia)) as G1.
    pose proof (rel_mul _ _ _ _ _ _ _ _ G1 F ltac:(lia) ltac:(lia)) as G2.
    pose proof (rel_mul _ _ _ _ _ _ _ _ G2 F ltac:(lia) ltac:(lia)) as G3.
    assert (PG : 0 < 4 * fval Q * fval Q * (1 + fval U * fval U / (fval Q * fval Q)) * (1 + fval U * fval U / (fval Q * fval Q))).
    { apply Rmult_lt_0_compat; [apply Rmult_lt_0_compat|]; lra. }
    pose proof (rel_div _ _ _ _ _ _ _ _ S G3 ltac:(lra) ltac:(lia) ltac:(lia)) as D1.
    assert (D2 := rel_mono _ ((10 + m) + (10 + m)) _ (483 + 483) _ _ D1 ltac:(lia) ltac:(lia)).
    apply (rel_sqrt (10 + m) 483); [exact D2| |lia|lia].
    apply Rmult_le_pos; [pose proof (Rle_0_sqr tU) as X; unfold Rsqr in X; lra|left; apply Rinv_0_lt_compat; exact PG].
  Qed.
End Pixel.

(** ** Whole images *)
Definition rimg (n : nat) (e h w : Z) (a : arr b64) (r : arr R) : Prop :=
  rows a = h /\ cols a = w /\ rows r = h /\ cols r = w /\
  forall y x, (0 <= y < h)%Z -> (0 <= x < w)%Z -> rel n e (cell a y x) (cell r y x).

Lemma usual_rimg k h w a : usual_image k h w a -> rimg 0 k h w a (values a).
Proof. intros (R & C & U). repeat (split; [assumption|]). intros y x Hy Hx. apply usual_rel. apply U; assumption. Qed.

Lemma bcell_same {A} (a : arr A) h w y x : rows a = h -> cols a = w -> (0 <= y < h)%Z -> (0 <= x < w)%Z -> bcell a y x = cell a y x.
Proof. intros <- <- Hy Hx. apply bcell_in; assumption. Qed.

Lemma split_both (e : arr b64) h w k : usual_image k (2 * h) (2 * w) e -> (0 <= h)%Z -> (0 <= w)%Z ->
  exists q q', split_polarizations e = Ok q /\ split_polarizations (values e) = Ok q' /\
    forall i, (0 <= i < 4)%Z -> rimg 0 k h w (qnth q i) (qnth q' i).
Proof.
  intros (Re & Ce & Ue) Hh Hw.
  assert (M : mosaic e) by (unfold mosaic; rewrite Re, Ce, !(Z.mul_comm 2), !Z.mod_mul by lia; lia).
  assert (M' : mosaic (values e)) by exact M.
  destruct (c01_split e) as (S1 & _); [lia|lia|]. destruct (S1 M) as (q & Eq & Q).
  destruct (c01_split (values e)) as (S2 & _); [change (0 <= rows e)%Z; lia|change (0 <= cols e)%Z; lia|]. destruct (S2 M') as (q' & Eq' & Q').
  exists q, q'. split; [exact Eq|]. split; [exact Eq'|]. intros i Hi.
  destruct (Q i Hi) as (A1 & A2 & A3). destruct (Q' i Hi) as (B1 & B2 & B3).
  change (rows (values e)) with (rows e) in *. change (cols (values e)) with (cols e) in *.
  assert (Eh : (rows e / 2 = h)%Z) by (rewrite Re, Z.mul_comm, Z.div_mul by lia; reflexivity).
  assert (Ew : (cols e / 2 = w)%Z) by (rewrite Ce, Z.mul_comm, Z.div_mul by lia; reflexivity).
  rewrite Eh, Ew in *. repeat (split; [assumption|]). intros y x Hy Hx. rewrite A3, B3 by assumption.
  unfold sample. cbn [cell values amap]. apply usual_rel. apply Ue.
  - assert (0 <= i / 2 < 2)%Z by (split; [apply Z.div_pos; lia|apply Z.div_lt_upper_bound; lia]). lia.
  - pose proof (Z.mod_pos_bound i 2 ltac:(lia)). lia.
Qed.

Lemma squares_both k h w a r : rimg 0 k h w a r -> (k <= 400)%Z -> rimg 1 (k + k) h w (amap square a) (amap square r).
Proof.
  intros (R & C & R' & C' & H) Hk. repeat (split; [assumption|]). intros y x Hy Hx. cbn [cell amap]. unfold square.
  specialize (H y x Hy Hx). exact (rel_mul _ _ _ _ _ _ _ _ H H ltac:(lia) ltac:(lia)).
Qed.

Definition rstokes (n : nat) (e h w : Z) (s : stokes b64) (t : stokes R) : Prop :=
  rimg n e h w (sI s) (sI t) /\ rimg n e h w (sQ s) (sQ t) /\ rimg n e h w (sU s) (sU t).

Lemma sigma_stokes (e : arr b64) (d : demodulator b64) h w : (0 <= h)%Z -> (0 <= w)%Z ->
  usual_image 15 (2 * h) (2 * w) e -> usual_tensor 15 h w (mij d) ->
  exists s t, get_error_on_Stokes e d = Ok s /\ get_error_on_Stokes (values e) (real_demodulator d) = Ok t /\ rstokes 4 32 h w s t.
Proof.
  intros Hh Hw Ue (Rt & Ct & Ut). destruct (split_both e h w 15 Ue Hh Hw) as (q & q' & Eq & Eq' & Q).
  unfold get_error_on_Stokes. rewrite Eq, Eq'. cbn [bind]. unfold demod_product.
  assert (Q2 : forall i, (0 <= i < 4)%Z -> rimg 1 30 h w (qnth (quad_map (amap square) q) i) (qnth (quad_map (amap square) q') i)).
  { intros i Hi. assert (C : (i = 0 \/ i = 1 \/ i = 2 \/ i = 3)%Z) by lia.
    destruct C as [-> |[-> |[-> | ->]]]; exact (squares_both 15 h w _ _ (Q _ Hi) ltac:(lia)). }
  destruct (Q2 0%Z ltac:(lia)) as (A1 & A2 & A3 & A4 & _).
  change (q0 (quad_map (amap square) q)) with (qnth (quad_map (amap square) q) 0).
  change (q0 (quad_map (amap square) q')) with (qnth (quad_map (amap square) q') 0).
  rewrite A1, A2, A3, A4. unfold tensor_map. cbn [t_rows t_cols real_demodulator real_tensor mij].
  rewrite Rt, Ct, !bdim_same. cbn [bind].
  do 2 eexists. split; [reflexivity|]. split; [reflexivity|].
  assert (T : forall i j y x, (0 <= i < 3)%Z -> (0 <= j < 4)%Z -> (0 <= y < h)%Z -> (0 <= x < w)%Z ->
    let a := bcell (tslice (mktensor h w (fun i j y x => square (t_cell (mij d) i j y x))) i j) y x *! bcell (qnth (quad_map (amap square) q) j) y x in
    let r := bcell (tslice (mktensor h w (fun i j y x => square (fval (t_cell (mij d) i j y x)))) i j) y x *! bcell (qnth (quad_map (amap square) q') j) y x in
    rel 3 60 a r /\ 0 <= r).
  { intros i j y x Hi Hj Hy Hx. cbv zeta. destruct (Q2 j Hj) as (B1 & B2 & B3 & B4 & B).
    rewrite !(bcell_same _ h w) by (try reflexivity; assumption). cbn [tslice cell t_cell].
    pose proof (usual_rel _ _ (Ut i j y x Hi Hj Hy Hx)) as M.
    pose proof (rel_mul _ _ _ _ _ _ _ _ M M ltac:(lia) ltac:(lia)) as M2. specialize (B y x Hy Hx).
    split; [exact (rel_mul _ _ _ _ _ _ _ _ M2 B ltac:(lia) ltac:(lia))|].
    unfold square. cbn [nmul Num_R]. apply Rmult_le_pos; [apply Rle_0_sqr|].
    assert (C : (j = 0 \/ j = 1 \/ j = 2 \/ j = 3)%Z) by lia.
    destruct C as [-> |[-> |[-> | ->]]]; cbn [qnth quad_map amap cell]; apply Rle_0_sqr. }
  assert (P : forall i, (0 <= i < 3)%Z -> forall y x, (0 <= y < h)%Z -> (0 <= x < w)%Z ->
    let a j := bcell (tslice (mktensor h w (fun i j y x => square (t_cell (mij d) i j y x))) i j) y x *! bcell (qnth (quad_map (amap square) q) j) y x in
    let r j := bcell (tslice (mktensor h w (fun i j y x => square (fval (t_cell (mij d) i j y x)))) i j) y x *! bcell (qnth (quad_map (amap square) q') j) y x in
    rel 4 32 (nsqrt (((a 0%Z +! a 1%Z) +! a 2%Z) +! a 3%Z)) (sqrt (((r 0%Z + r 1%Z) + r 2%Z) + r 3%Z))).
  { intros i Hi y x Hy Hx a r.
    destruct (T i 0%Z y x Hi ltac:(lia) Hy Hx) as (T0 & N0). destruct (T i 1%Z y x Hi ltac:(lia) Hy Hx) as (T1 & N1).
    destruct (T i 2%Z y x Hi ltac:(lia) Hy Hx) as (T2 & N2). destruct (T i 3%Z y x Hi ltac:(lia) Hy Hx) as (T3 & N3).
    fold (a 0%Z) (r 0%Z) in T0, N0. fold (a 1%Z) (r 1%Z) in T1, N1. fold (a 2%Z) (r 2%Z) in T2, N2. fold (a 3%Z) (r 3%Z) in T3, N3.
    clearbody a r.
    pose proof (rel_add _ _ _ _ _ _ T0 T1 N0 N1 ltac:(lia) ltac:(lia)) as S1.
    pose proof (rel_add _ _ _ _ _ _ S1 (rel_mono _ 4 _ 61 _ _ T2 ltac:(lia) ltac:(lia)) ltac:(lra) N2 ltac:(lia) ltac:(lia)) as S2.
    pose proof (rel_add _ _ _ _ _ _ S2 (rel_mono _ 5 _ 62 _ _ T3 ltac:(lia) ltac:(lia)) ltac:(lra) N3 ltac:(lia) ltac:(lia)) as S3.
    apply (rel_sqrt 3 32); [exact (rel_mono _ (3 + 3) _ (32 + 32) _ _ S3 ltac:(lia) ltac:(lia))|lra|lia|lia]. }
  unfold rstokes, stokes_map. cbn [sI sQ sU].
  split; [|split]; (repeat (split; [reflexivity|])); intros y x Hy Hx; cbn [cell amap].
  - exact (P 0%Z ltac:(lia) y x Hy Hx).
  - exact (P 1%Z ltac:(lia) y x Hy Hx).
  - exact (P 2%Z ltac:(lia) y x Hy Hx).
Qed.

Lemma rel_fine n e x r : rel n e x r -> (n <= 16)%nat -> FloatSpec.within (/ 2 ^ 48) x r.
Proof.
  intros H Hn. assert (H' := rel_mono _ 16 _ e _ _ H Hn ltac:(lia)). pose proof (rel_within _ _ _ _ H' ltac:(lia)) as (B & F & E).
  split; [exact B|]. split; [exact F|]. apply Rle_trans with (1 := E). apply Rmult_le_compat_r; [apply Rabs_pos|].
  change u with (/ 9007199254740992). replace (INR 16) with 16 by (cbn; lra). lra.
Qed.

Lemma c141_errors (S : stokes b64) (e : arr b64) (d : demodulator b64) h w : (0 <= h)%Z -> (0 <= w)%Z ->
  usual_stokes 60 h w S -> usual_image 15 (2 * h) (2 * w) e -> usual_tensor 15 h w (mij d) ->
  exists sS sP sD sA rS rP rD rA, MicropolImageError S e d = Ok (sS, sP, sD, sA) /\
    MicropolImageError (real_stokes S) (values e) (real_demodulator d) = Ok (rS, rP, rD, rA) /\
    forall y x, (0 <= y < h)%Z -> (0 <= x < w)%Z ->
      let ok := FloatSpec.within (/ 2 ^ 48) in
      let I := fval (cell (sI S) y x) in let Q := fval (cell (sQ S) y x) in let U := fval (cell (sU S) y x) in
      ok (cell (sI sS) y x) (cell (sI rS) y x) /\ ok (cell (sQ sS) y x) (cell (sQ rS) y x) /\ ok (cell (sU sS) y x) (cell (sU rS) y x) /\
      (~ (Q = 0 /\ U = 0) -> ok (cell sP y x) (cell rP y x)) /\
      (~ (Q = 0 /\ U = 0) -> I <> 0 -> ok (cell sD y x) (cell rD y x)) /\
      (Q <> 0 -> ok (cell sA y x) (cell rA y x)).
Proof.
  intros Hh Hw (UI & UQ & UU) Ue Ud. destruct (sigma_stokes e d h w Hh Hw Ue Ud) as (s & t & Es & Et & (RI & RQ & RU)).
  unfold MicropolImageError. rewrite Es, Et. cbn [bind].
  destruct UI as (I1 & I2 & UI), UQ as (Q1 & Q2 & UQ), UU as (U1 & U2 & UU).
  destruct RI as (A1 & A2 & A3 & A4 & RI), RQ as (B1 & B2 & B3 & B4 & RQ), RU as (C1 & C2 & C3 & C4 & RU).
  unfold get_error_on_pB, get_error_on_DoLP, get_error_on_AoLP, pixelwise.
  assert (X1 : rows (sI (real_stokes S)) = h) by exact I1. assert (X2 : cols (sI (real_stokes S)) = w) by exact I2.
  rewrite X1, X2, I1, I2, A1, A2, A3, A4, !bdim_same. cbn [bind].
  do 8 eexists. split; [reflexivity|]. split; [reflexivity|]. intros y x Hy Hx. cbv zeta. cbn [cell real_stokes sI sQ sU].
  rewrite !(bcell_same (sI S) h w), !(bcell_same (sQ S) h w), !(bcell_same (sU S) h w) by assumption.
  rewrite !(bcell_same (sI s) h w), !(bcell_same (sQ s) h w), !(bcell_same (sU s) h w) by assumption.
  rewrite !(bcell_same (sI t) h w), !(bcell_same (sQ t) h w), !(bcell_same (sU t) h w) by assumption.
  rewrite !(bcell_same (values (sI S)) h w), !(bcell_same (values (sQ S)) h w), !(bcell_same (values (sU S)) h w) by assumption.
  pose proof (usual_rel _ _ (UI y x Hy Hx)) as LI. pose proof (usual_rel _ _ (UQ y x Hy Hx)) as LQ. pose proof (usual_rel _ _ (UU y x Hy Hx)) as LU.
  assert (SI := rel_mono _ 4 _ 60 _ _ (RI y x Hy Hx) ltac:(lia) ltac:(lia)).
  assert (SQ := rel_mono _ 4 _ 60 _ _ (RQ y x Hy Hx) ltac:(lia) ltac:(lia)).
  assert (SU := rel_mono _ 4 _ 60 _ _ (RU y x Hy Hx) ltac:(lia) ltac:(lia)).
  split; [exact (rel_fine _ _ _ _ SI ltac:(lia))|]. split; [exact (rel_fine _ _ _ _ SQ ltac:(lia))|]. split; [exact (rel_fine _ _ _ _ SU ltac:(lia))|].
  split; [|split].
  - intros N. apply (rel_fine (5 + 4) 181); [|lia]. exact (pB_pixel 4 _ _ _ _ _ _ ltac:(lia) LQ LU SQ SU N).
  - intros N NI. apply (rel_fine (8 + 4) 242); [|lia]. exact (DoLP_pixel 4 _ _ _ _ _ _ _ _ _ ltac:(lia) LI LQ LU SI SQ SU N NI).
  - intros N. apply (rel_fine (11 + 4) 483); [|lia]. exact (AoLP_pixel 4 _ _ _ _ _ _ ltac:(lia) LQ LU SQ SU N).
Qed.

Lemma usual_Z k z : (Z.abs z < 2 ^ 53)%Z -> 1 <= Rabs (IZR z) <= powerRZ 2 k -> (0 <= k)%Z -> usual k (nofZ z).
Proof.
  intros Hz Hb Hk. destruct (ofZ_value z Hz) as (B & F & E). split; [exact B|]. split; [exact F|]. right. rewrite E. split; [|apply Hb].
  apply Rle_trans with (2 := proj1 Hb). change 2 with (IZR radix2). rewrite <- bpow_powerRZ. change 1 with (bpow radix2 0). apply bpow_le. lia.
Qed.
Lemma ten_thousand k : (14 <= k)%Z -> 10000 <= powerRZ 2 k.
Proof.
  intros Hk. change 2 with (IZR radix2). rewrite <- bpow_powerRZ. apply Rle_trans with (bpow radix2 14); [|apply bpow_le; exact Hk].
  change (bpow radix2 14) with 16384. lra.
Qed.
