(** Rounding errors of binning, demosaicing and Stokes parameters, for any finite pixels. *)
From Coq Require Import ZArith Reals Lra Lia Floats.SpecFloat String.
From Flocq Require Import Core Relative BinarySingleNaN.
From Verif Require Import Base.Base Base.Num Base.BaseFacts Model.Demosaic Model.Rebin Model.Ifov Model.Stokes Model.Pol
  Spec.Terminates Spec.AngleSpec Spec.MosaicSpec Spec.StokesSpec Spec.SumSpec Spec.FloatSpec
  Proofs.FloatFacts Proofs.MosaicFacts Proofs.MosaicProps Proofs.DemosaicFacts Proofs.ExactFacts Proofs.RoundFacts.
Local Open Scope R_scope.

#[local] Existing Instance Hprec.
#[local] Existing Instance Hmax.
#[local] Existing Instance fexp64_valid.
#[local] Existing Instance fexp64_mono.

(** ** Sums of lists *)
Lemma sum_above {A} (h : A -> R) l c : (forall a, In a l -> 0 <= h a) -> c <= fold_left nadd (map h l) c.
Proof.
  revert c. induction l as [|a l IH]; intros c Hl; cbn [map fold_left]; [lra|].
  apply Rle_trans with (c + h a); [pose proof (Hl a (or_introl eq_refl)); lra|]. apply IH. intros b Hb. apply Hl. right. exact Hb.
Qed.
Lemma sum_below {A} (h : A -> R) l t c : (forall a, In a l -> h a <= t) -> fold_left nadd (map h l) c <= c + INR (length l) * t.
Proof.
  revert c. induction l as [|a l IH]; intros c Hl; cbn [map fold_left]; [cbn; lra|].
  apply Rle_trans with (1 := IH (c + h a) (fun b Hb => Hl b (or_intror Hb))). cbn [length]. rewrite S_INR. pose proof (Hl a (or_introl eq_refl)). lra.
Qed.
Lemma fold_near {A} n (f : A -> b64) (g h : A -> R) l : (forall a, In a l -> near n 0 (f a) (g a) (h a)) ->
  forall k x r m, near (n + k) 0 x r m -> (1 + u) ^ (n + k + length l) * fold_left nadd (map h l) m <= huge ->
  near (n + k + length l) 0 (fold_left nadd (map f l) x) (fold_left nadd (map g l) r) (fold_left nadd (map h l) m).
Proof.
  induction l as [|a l IH]; intros Hl k x r m Hx Hb; cbn [map fold_left length] in *; [rewrite Nat.add_0_r; exact Hx|].
  replace (n + k + S (length l))%nat with (n + S k + length l)%nat in * by lia.
  assert (Hl' : forall b, In b l -> near n 0 (f b) (g b) (h b)) by (intros b Hb'; apply Hl; right; exact Hb').
  assert (P : forall b, In b l -> 0 <= h b) by (intros b Hb'; destruct (Hl' b Hb') as (_ & B & _); pose proof (Rabs_pos (g b)); lra).
  apply IH; [exact Hl'| |exact Hb].
  pose proof (Hl a (or_introl eq_refl)) as Ha.
  pose proof (sum_above h l (m + h a) P) as M. destruct Hx as (V & B & E0 & E). pose proof Ha as (_ & Ba & _).
  assert (C : near (S (n + k)) ((1 + u) * (0 + 0)) (x +! f a) (r + g a) (m + h a)).
  { apply near_add; [split; [exact V|split; [exact B|split; [exact E0|exact E]]]| |].
    - apply near_weaken with n 0 (h a); [exact Ha|lia|lra|lra].
    - apply Rle_trans with (2 := Hb). pose proof (Rabs_pos r). pose proof (Rabs_pos (g a)).
      pose proof (growth_mono (n + k) (n + S k + length l) ltac:(lia)) as G. pose proof (growth_pos (n + k)) as G'.
      change (nadd m (h a)) with (m + h a).
      pose proof (Rmult_le_compat ((1 + u) ^ (n + k)) _ (m + h a) _ ltac:(lra) ltac:(lra) G M). lra. }
  apply near_weaken with (S (n + k)) ((1 + u) * (0 + 0)) (m + h a); [exact C|lia|lra|change (nadd m (h a)) with (m + h a); lra].
Qed.
Lemma zero_near n : near n 0 n0 0 0.
Proof. apply near_weaken with 0%nat 0 (Rabs 0); [|lia|lra|rewrite Rabs_R0; lra]. apply near_exact. apply (fx_value 0 0). apply zero_fx. lia. Qed.
Lemma lsum_near {A} n (f : A -> b64) (g h : A -> R) l t : (forall a, In a l -> near n 0 (f a) (g a) (h a) /\ h a <= t) ->
  INR (n + length l) * u <= / 2 -> 2 * (INR (length l) * t) <= huge ->
  near (n + length l) 0 (lsum (map f l)) (lsum (map g l)) (lsum (map h l)) /\ lsum (map h l) <= INR (length l) * t.
Proof.
  intros Hl Hn Ht. pose proof (sum_below h l t 0 (fun a Ha => proj2 (Hl a Ha))) as S.
  split; [|unfold lsum; change n0 with 0; lra].
  assert (P : 0 <= fold_left nadd (map h l) 0).
  { apply sum_above. intros a Ha. destruct (proj1 (Hl a Ha)) as (_ & B & _). pose proof (Rabs_pos (g a)). lra. }
  replace (n + length l)%nat with (n + 0 + length l)%nat in * by lia.
  apply fold_near; [exact (fun a Ha => proj1 (Hl a Ha))|apply zero_near|].
  pose proof (growth_2 _ Hn) as G. pose proof (growth_pos (n + 0 + length l)) as G'. change (@n0 R _) with 0.
  pose proof (Rmult_le_compat_r _ _ _ P G). lra.
Qed.

(** ** Images *)
Definition nimg (n : nat) (e t : R) (a : arr b64) (r m : arr R) : Prop :=
  rows a = rows r /\ cols a = cols r /\ rows m = rows r /\ cols m = cols r /\
  forall y x, (0 <= y < rows r)%Z -> (0 <= x < cols r)%Z -> near n e (cell a y x) (cell r y x) (cell m y x) /\ cell m y x <= t.
Definition nquad n e t (a : quad b64) (r m : quad R) : Prop := forall i, (0 <= i < 4)%Z -> nimg n e t (qnth a i) (qnth r i) (qnth m i).
Lemma bounded_nimg t d : bounded t d -> nimg 0 0 t d (values d) (absolute d).
Proof.
  intros Hd. split; [reflexivity|]. split; [reflexivity|]. split; [reflexivity|]. split; [reflexivity|]. intros y x Hy Hx.
  destruct (Hd y x Hy Hx) as (V & F & B). split; [|exact B]. apply (near_exact (cell d y x) (fval (cell d y x))). split; [exact V|]. split; [exact F|reflexivity].
Qed.
Lemma nimg_off n e t a r m g : nimg n e t a r m -> (1 + u) ^ n - 1 <= g -> off_image g e a r m.
Proof.
  intros (E1 & E2 & E3 & E4 & V) Hg. split; [exact E1|]. split; [exact E2|]. split; [exact E3|]. split; [exact E4|]. intros y x Hy Hx.
  destruct (V y x Hy Hx) as (N & _). pose proof N as (_ & B & _). destruct (near_off _ _ _ _ _ N) as (V1 & V2 & V3).
  split; [exact V1|]. split; [exact V2|]. pose proof (Rabs_pos (cell r y x)).
  pose proof (Rmult_le_compat_r (cell m y x) _ _ ltac:(lra) Hg). lra.
Qed.
Lemma nquad_off n e t a r m g : nquad n e t a r m -> (1 + u) ^ n - 1 <= g -> off_quad g e a r m.
Proof. intros Hq Hg i Hi. exact (nimg_off _ _ _ _ _ _ _ (Hq i Hi) Hg). Qed.

(** ** Binning *)
Lemma rebin_nimg n t d r m b : nimg n 0 t d r m -> mosaic r -> (1 <= b)%Z ->
  INR (n + Z.to_nat (b * b)) * u <= / 2 -> 2 * (IZR (b * b) * t) <= huge ->
  exists d' r' m', evaluates (fun fuel => micropolarray_rebin fuel d b) d' /\ evaluates (fun fuel => micropolarray_rebin fuel r b) r' /\
    evaluates (fun fuel => micropolarray_rebin fuel m b) m' /\
    mosaic r' /\ nimg (n + Z.to_nat (b * b)) 0 (IZR (b * b) * t) d' r' m'.
Proof.
  intros (Er & Ec & Mr & Mc & V) Hm Hb Hn Hs.
  assert (Hm1 : mosaic d) by (unfold mosaic in *; rewrite Er, Ec; exact Hm).
  assert (Hm2 : mosaic m) by (unfold mosaic in *; rewrite Mr, Mc; exact Hm).
  destruct (c04_rebin d b Hm1 Hb) as (d' & (R1 & C1 & V1) & E1).
  destruct (c04_rebin r b Hm Hb) as (r' & (R2 & C2 & V2) & E2).
  destruct (c04_rebin m b Hm2 Hb) as (m' & (R3 & C3 & V3) & E3).
  exists d', r', m'. split; [exact E1|]. split; [exact E2|]. split; [exact E3|].
  destruct Hm as (P1 & P2 & P3 & P4).
  assert (D1 : (0 <= rows r / (2 * b))%Z) by (clear - P1 Hb; apply Z.div_pos; lia).
  assert (D2 : (0 <= cols r / (2 * b))%Z) by (clear - P2 Hb; apply Z.div_pos; lia).
  split.
  { clear - D1 D2 R2 C2. unfold mosaic. rewrite R2, C2. split; [lia|]. split; [lia|]. rewrite !(Z.mul_comm 2), !Z.mod_mul by lia. split; reflexivity. }
  split; [rewrite R1, R2, Er; reflexivity|]. split; [rewrite C1, C2, Ec; reflexivity|].
  split; [rewrite R3, R2, Mr; reflexivity|]. split; [rewrite C3, C2, Mc; reflexivity|].
  intros Y X HY HX.
  rewrite V1 by (rewrite ?R1, ?C1, ?Er, ?Ec; rewrite ?R2, ?C2 in *; assumption). rewrite V2 by assumption.
  rewrite V3 by (rewrite ?R3, ?C3, ?Mr, ?Mc; rewrite ?R2, ?C2 in *; assumption).
  set (l := list_prod (zrange b) (zrange b)). pose proof (square_length b (Z.le_trans 0 1 b Z.le_0_1 Hb)) as L. fold l in L.
  assert (Ln : length l = Z.to_nat (b * b)) by (clear - L; lia).
  assert (Li : INR (length l) = IZR (b * b)) by (rewrite INR_IZR_INZ, L; reflexivity).
  rewrite <- Ln, <- Li in *. unfold family_block. apply lsum_near; [|exact Hn|exact Hs].
  intros [i j] Hij. apply in_prod_iff in Hij as (Hi & Hj).
  apply in_zrange in Hi, Hj. cbn [fst snd]. rewrite R2 in HY. rewrite C2 in HX. apply V; apply block_in; assumption.
Qed.

(** ** Demosaicing *)
Lemma half_value : is_value nhalf (1 / 2).
Proof. exact (fx_value _ _ _ _ half_fx). Qed.
Lemma quart_value : is_value nquart (1 / 4).
Proof. exact (fx_value _ _ _ _ quart_fx). Qed.
Lemma abs_half : Rabs (1 / 2) = 1 / 2.
Proof. apply Rabs_pos_eq. lra. Qed.
Lemma abs_quart : Rabs (1 / 4) = 1 / 4.
Proof. apply Rabs_pos_eq. lra. Qed.
Lemma u_small : u <= / 256.
Proof. change (/ 256) with (bpow radix2 (-8)). apply bpow_le. lia. Qed.
Lemma small_growth n k : INR (n + k) * u <= / 2 -> (1 + u) ^ n <= 2.
Proof. intros H. apply growth_2. rewrite plus_INR in H. pose proof (Rmult_le_pos _ _ (pos_INR k) (bpow_ge_0 radix2 (-53))). lra. Qed.
Lemma near_add2 n e f x y r s a b t t' : near n e x r a -> near n f y s b -> a <= t -> b <= t' -> (1 + u) ^ n <= 2 -> 2 * (t + t') + (e + f) <= huge ->
  near (S n) (2 * (e + f)) (x +! y) (r + s) (a + b).
Proof.
  intros Hx Hy Ha Hb G Ht. pose proof Hx as (_ & Bx & E0 & _). pose proof Hy as (_ & By & F0 & _). pose proof (Rabs_pos r). pose proof (Rabs_pos s).
  pose proof (growth_pos n). pose proof (Rmult_le_compat_r (a + b) _ _ ltac:(lra) G). pose proof u_small. pose proof u_half as [U _].
  apply near_weaken with (S n) ((1 + u) * (e + f)) (a + b); [apply near_add; [exact Hx|exact Hy|lra]|lia| |lra].
  apply Rmult_le_compat_r; lra.
Qed.
Lemma near_sum4 n e x1 x2 x3 x4 r1 r2 r3 r4 a1 a2 a3 a4 t :
  near n e x1 r1 a1 -> near n e x2 r2 a2 -> near n e x3 r3 a3 -> near n e x4 r4 a4 ->
  a1 <= t -> a2 <= t -> a3 <= t -> a4 <= t -> INR (n + 4) * u <= / 2 -> 8 * t + 11 * e <= huge ->
  near (n + 3) (22 * e) (((x1 +! x2) +! x3) +! x4) (r1 + r2 + r3 + r4) (a1 + a2 + a3 + a4).
Proof.
  intros N1 N2 N3 N4 A1 A2 A3 A4 Hn Ht. pose proof N1 as (_ & B1 & E0 & _). pose proof (Rabs_pos r1).
  assert (Hg : forall k, (k <= 4)%nat -> (1 + u) ^ (n + k) <= 2).
  { intros k Hk. apply (small_growth (n + k) (4 - k)). replace (n + k + (4 - k))%nat with (n + 4)%nat by lia. exact Hn. }
  pose proof (Hg 0%nat ltac:(lia)) as G0. pose proof (Hg 1%nat ltac:(lia)) as G1. pose proof (Hg 2%nat ltac:(lia)) as G2.
  replace (n + 0)%nat with n in G0 by lia. replace (n + 1)%nat with (S n) in G1 by lia. replace (n + 2)%nat with (S (S n)) in G2 by lia.
  pose proof (near_add2 n e e x1 x2 r1 r2 a1 a2 t t N1 N2 A1 A2 G0 ltac:(lra)) as S1.
  assert (N3' : near (S n) e x3 r3 a3) by (apply near_weaken with n e a3; [exact N3|lia|lra|lra]).
  assert (N4' : near (S (S n)) e x4 r4 a4) by (apply near_weaken with n e a4; [exact N4|lia|lra|lra]).
  pose proof (near_add2 _ _ _ _ _ _ _ _ _ (2 * t) t S1 N3' ltac:(lra) A3 G1 ltac:(lra)) as S2.
  pose proof (near_add2 _ _ _ _ _ _ _ _ _ (3 * t) t S2 N4' ltac:(lra) A4 G2 ltac:(lra)) as S3.
  replace (n + 3)%nat with (S (S (S n))) by lia. apply near_weaken with (S (S (S n))) (2 * (2 * (2 * (e + e) + e) + e)) (a1 + a2 + a3 + a4); [exact S3|lia|lra|lra].
Qed.
Lemma near_const n e x r a c k t : near n e x r a -> is_value c k -> 0 <= k <= 1 -> a <= t -> (1 + u) ^ n <= 2 -> 2 * t + e <= huge ->
  near (S n) (2 * e + eta) (c *! x) (k * r) (k * a) /\ near (S n) (2 * e + eta) (x *! c) (r * k) (a * k).
Proof.
  intros Hx Vc Hk Ha G Ht. pose proof Hx as (_ & Bx & E0 & _). pose proof (Rabs_pos r). pose proof (Rmult_le_compat_r a _ _ ltac:(lra) G).
  assert (Ak : Rabs k = k) by (apply Rabs_pos_eq; lra). pose proof u_small.
  destruct (near_scale n e x r a c k Hx Vc) as (N1 & N2); [lra|lra|]. rewrite Ak in N1, N2.
  pose proof (Rmult_le_compat_r e (1 + u) 2 E0 ltac:(lra)).
  split; [apply near_weaken with (S n) ((1 + u) * e + eta) (k * a)|apply near_weaken with (S n) ((1 + u) * e + eta) (k * a)]; try assumption; try lia; lra.
Qed.
Lemma sample_near n e t d r m i Y X : nimg n e t d r m -> mosaic r -> (0 <= i < 4)%Z -> (0 <= Y < rows r / 2)%Z -> (0 <= X < cols r / 2)%Z ->
  near n e (sample d i Y X) (sample r i Y X) (sample m i Y X) /\ sample m i Y X <= t.
Proof.
  intros (Er & Ec & Mr & Mc & V) (_ & _ & M1 & M2) Hi HY HX. unfold sample.
  pose proof (Z.div_mod (rows r) 2 ltac:(lia)). pose proof (Z.div_mod (cols r) 2 ltac:(lia)).
  assert (0 <= i / 2 < 2)%Z by (split; [apply Z.div_pos; lia|apply Z.div_lt_upper_bound; lia]).
  pose proof (Z.mod_pos_bound i 2 ltac:(lia)). apply V; lia.
Qed.
Lemma interpolated_near n t d r m i y x : nimg n 0 t d r m -> mosaic r -> (0 <= i < 4)%Z -> (0 <= y < rows r)%Z -> (0 <= x < cols r)%Z ->
  INR (n + 4) * u <= / 2 -> 8 * t <= huge ->
  near (n + 4) eta (interpolated d i y x) (interpolated r i y x) (interpolated m i y x) /\ interpolated m i y x <= t.
Proof.
  intros F Hm Hi Hy Hx Hn Ht. pose proof F as (Er & Ec & Mr & Mc & _). pose proof Hm as (_ & _ & M1 & M2).
  pose proof (half_in _ _ M1 Hy) as HY. pose proof (half_in _ _ M2 Hx) as HX.
  pose proof (next_in _ _ HY) as HY'. pose proof (next_in _ _ HX) as HX'.
  assert (Hs : forall Y X, (0 <= Y < rows r / 2)%Z -> (0 <= X < cols r / 2)%Z -> near n 0 (sample d i Y X) (sample r i Y X) (sample m i Y X) /\ sample m i Y X <= t)
    by (intros Y X HYY HXX; apply sample_near; assumption).
  assert (Hp : forall Y X, (0 <= Y < rows r / 2)%Z -> (0 <= X < cols r / 2)%Z -> 0 <= sample m i Y X).
  { intros Y X HYY HXX. destruct (Hs Y X HYY HXX) as ((_ & B & _) & _). pose proof (Rabs_pos (sample r i Y X)). lra. }
  pose proof (bpow_gt_0 radix2 (-1075)) as Eta.
  assert (G0 : (1 + u) ^ n <= 2) by (apply (small_growth n 4); exact Hn).
  assert (G1 : (1 + u) ^ S n <= 2) by (apply (small_growth (S n) 3); replace (S n + 3)%nat with (n + 4)%nat by lia; exact Hn).
  assert (G3 : (1 + u) ^ (n + 3) <= 2) by (apply (small_growth (n + 3) 1); replace (n + 3 + 1)%nat with (n + 4)%nat by lia; exact Hn).
  assert (Two : forall Y X Y' X', (0 <= Y < rows r / 2)%Z -> (0 <= X < cols r / 2)%Z -> (0 <= Y' < rows r / 2)%Z -> (0 <= X' < cols r / 2)%Z ->
    near (n + 4) eta (nhalf *! (sample d i Y X +! sample d i Y' X')) (1 / 2 * (sample r i Y X + sample r i Y' X')) (1 / 2 * (sample m i Y X + sample m i Y' X')) /\
    1 / 2 * (sample m i Y X + sample m i Y' X') <= t).
  { intros Y X Y' X' A1 A2 A3 A4. destruct (Hs Y X A1 A2) as (N1 & T1). destruct (Hs Y' X' A3 A4) as (N2 & T2). pose proof (Hp Y X A1 A2). pose proof (Hp Y' X' A3 A4). split; [|lra].
    pose proof (near_add2 _ _ _ _ _ _ _ _ _ t t N1 N2 T1 T2 G0 ltac:(lra)) as S1.
    destruct (near_const _ _ _ _ _ nhalf (1 / 2) (2 * t) S1 half_value ltac:(lra) ltac:(lra) G1 ltac:(lra)) as (S2 & _).
    eapply near_weaken; [exact S2|lia|lra|lra]. }
  unfold interpolated. rewrite Er, Ec, Mr, Mc. cbv zeta.
  destruct (y mod 2 =? 0)%Z, (x mod 2 =? 0)%Z.
  - destruct (Hs _ _ HY HX) as (N & T). split; [|exact T]. eapply near_weaken; [exact N|lia|lra|lra].
  - apply Two; assumption.
  - apply Two; assumption.
  - destruct (Hs _ _ HY HX) as (N1 & T1). destruct (Hs _ _ HY HX') as (N2 & T2). destruct (Hs _ _ HY' HX) as (N3 & T3). destruct (Hs _ _ HY' HX') as (N4 & T4).
    pose proof (Hp _ _ HY HX). pose proof (Hp _ _ HY HX'). pose proof (Hp _ _ HY' HX). pose proof (Hp _ _ HY' HX').
    pose proof (near_sum4 n 0 _ _ _ _ _ _ _ _ _ _ _ _ t N1 N3 N2 N4 T1 T3 T2 T4 Hn ltac:(lra)) as S1.
    destruct (near_const _ _ _ _ _ nquart (1 / 4) (4 * t) S1 quart_value ltac:(lra) ltac:(lra) G3 ltac:(lra)) as (_ & S2).
    cbn [nadd nmul nquart Num_R]. split; [eapply near_weaken; [exact S2|lia|lra|lra]|lra].
Qed.

Lemma demosaic_nquad n t d r m o q : nimg n 0 t d r m -> mosaic r -> INR (n + 4) * u <= / 2 -> 8 * t <= huge -> demosaic d o = Ok q ->
  exists q' qm, demosaic r o = Ok q' /\ demosaic m o = Ok qm /\ nquad (n + 4) eta t q q' qm /\
    forall i, (0 <= i < 4)%Z -> rows (qnth q' i) = rows r /\ cols (qnth q' i) = cols r.
Proof.
  intros F Hm Hn Ht. pose proof F as (Er & Ec & Mr & Mc & _).
  assert (Hm1 : mosaic d) by (unfold mosaic in *; rewrite Er, Ec; exact Hm).
  assert (Hm2 : mosaic m) by (unfold mosaic in *; rewrite Mr, Mc; exact Hm).
  pose proof (bpow_gt_0 radix2 (-1075)) as Eta.
  destruct (String.eqb_spec o "mean") as [->|N1]; [|destruct (String.eqb_spec o "adjacent") as [->|N2];
    [|destruct (String.eqb_spec o "spline") as [->|N3]]].
  - destruct (demosaic_mean_spec d Hm1) as (q1 & Eq & Q). destruct (demosaic_mean_spec r Hm) as (q' & Eq' & Q'). destruct (demosaic_mean_spec m Hm2) as (qm & Em & M).
    rewrite Eq. intros E. injection E as <-. exists q', qm. split; [exact Eq'|]. split; [exact Em|]. split; [|intros i Hi; destruct (Q' i Hi) as (B1 & B2 & _); split; assumption].
    intros i Hi. destruct (Q i Hi) as (A1 & A2 & A3). destruct (Q' i Hi) as (B1 & B2 & B3). destruct (M i Hi) as (C1 & C2 & C3).
    split; [rewrite A1, B1; exact Er|]. split; [rewrite A2, B2; exact Ec|]. split; [rewrite C1, B1; exact Mr|]. split; [rewrite C2, B2; exact Mc|].
    intros y x Hy Hx. rewrite B1 in Hy. rewrite B2 in Hx.
    rewrite A3, B3, C3 by (rewrite ?Er, ?Ec, ?Mr, ?Mc; assumption). destruct Hm as (P1 & P2 & M1 & M2).
    destruct (sample_near n 0 t d r m i (y / 2) (x / 2) F) as (S1 & S2); [split; [exact P1|split; [exact P2|split; assumption]]|exact Hi|apply half_in; assumption|apply half_in; assumption|].
    pose proof S1 as (_ & B & _). pose proof (Rabs_pos (sample r i (y / 2) (x / 2))).
    destruct (near_const _ _ _ _ _ nquart (1 / 4) t S1 quart_value ltac:(lra) S2 (small_growth n 4 Hn) ltac:(lra)) as (_ & S3).
    cbn [nmul nquart Num_R]. split; [eapply near_weaken; [exact S3|lia|lra|lra]|lra].
  - destruct (demosaic_adjacent_spec d Hm1) as (q1 & Eq & Q). destruct (demosaic_adjacent_spec r Hm) as (q' & Eq' & Q'). destruct (demosaic_adjacent_spec m Hm2) as (qm & Em & M).
    rewrite Eq. intros E. injection E as <-. exists q', qm. split; [exact Eq'|]. split; [exact Em|]. split; [|intros i Hi; destruct (Q' i Hi) as (B1 & B2 & _); split; assumption].
    intros i Hi. destruct (Q i Hi) as (A1 & A2 & A3). destruct (Q' i Hi) as (B1 & B2 & B3). destruct (M i Hi) as (C1 & C2 & C3).
    split; [rewrite A1, B1; exact Er|]. split; [rewrite A2, B2; exact Ec|]. split; [rewrite C1, B1; exact Mr|]. split; [rewrite C2, B2; exact Mc|].
    intros y x Hy Hx. rewrite B1 in Hy. rewrite B2 in Hx.
    rewrite A3, B3, C3 by (rewrite ?Er, ?Ec, ?Mr, ?Mc; assumption). apply interpolated_near; assumption.
  - discriminate.
  - rewrite demosaic_bad_option by assumption. discriminate.
Qed.

(** ** The Stokes vector *)
Lemma quad_get_ok {A} (q : quad A) i s : quad_get q i = Ok s -> exists j, (0 <= j < 4)%Z /\ s = qnth q j /\ forall B (q' : quad B), quad_get q' i = Ok (qnth q' j).
Proof.
  unfold quad_get. destruct (norm_idx 4 i) as [j|] eqn:E; [|discriminate]. intros E'. injection E' as <-.
  exists j. split; [exact (norm_idx_range _ _ _ E)|]. split; reflexivity.
Qed.
Lemma theo_ok {A} {NA : Num A} dic (q : quad A) s : theo_stokes dic q = Ok s ->
  exists i j k l, (0 <= i < 4)%Z /\ (0 <= j < 4)%Z /\ (0 <= k < 4)%Z /\ (0 <= l < 4)%Z /\
    s = mkstokes (half_sum q) (amap2 nsub (qnth q i) (qnth q j)) (amap2 nsub (qnth q k) (qnth q l)) /\
    forall B (NB : Num B) (q' : quad B),
      theo_stokes dic q' = Ok (mkstokes (half_sum q') (amap2 nsub (qnth q' i) (qnth q' j)) (amap2 nsub (qnth q' k) (qnth q' l))).
Proof.
  intros E. unfold theo_stokes in E.
  apply bind_ok in E as (i0 & D0 & E). apply bind_ok in E as (s0 & G0 & E).
  apply bind_ok in E as (i9 & D9 & E). apply bind_ok in E as (s9 & G9 & E).
  apply bind_ok in E as (i4 & D4 & E). apply bind_ok in E as (s4 & G4 & E).
  apply bind_ok in E as (im & Dm & E). apply bind_ok in E as (sm & Gm & E).
  destruct (quad_get_ok _ _ _ G0) as (i & Hi & -> & Fi). destruct (quad_get_ok _ _ _ G9) as (j & Hj & -> & Fj).
  destruct (quad_get_ok _ _ _ G4) as (k & Hk & -> & Fk). destruct (quad_get_ok _ _ _ Gm) as (l & Hl & -> & Fl).
  injection E as <-. exists i, j, k, l. split; [exact Hi|]. split; [exact Hj|]. split; [exact Hk|]. split; [exact Hl|]. split; [reflexivity|].
  intros B NB q'. unfold theo_stokes. rewrite D0. cbn [bind]. rewrite Fi. cbn [bind]. rewrite D9. cbn [bind]. rewrite Fj. cbn [bind].
  rewrite D4. cbn [bind]. rewrite Fk. cbn [bind]. rewrite Dm. cbn [bind]. rewrite Fl. reflexivity.
Qed.
Lemma half_sum_nimg n e t q q' qm : nquad n e t q q' qm -> (forall i, (0 <= i < 4)%Z -> rows (qnth q' i) = rows (q0 q') /\ cols (qnth q' i) = cols (q0 q')) ->
  INR (n + 4) * u <= / 2 -> 8 * t + 22 * e <= huge ->
  nimg (n + 4) (44 * e + eta) (2 * t) (half_sum q) (half_sum q') (half_sum qm).
Proof.
  intros F Sh Hn Ht. pose proof (F 0%Z ltac:(lia)) as (R0 & C0 & S0 & T0 & V0). pose proof (F 1%Z ltac:(lia)) as (_ & _ & _ & _ & V1).
  pose proof (F 2%Z ltac:(lia)) as (_ & _ & _ & _ & V2). pose proof (F 3%Z ltac:(lia)) as (_ & _ & _ & _ & V3).
  pose proof (Sh 1%Z ltac:(lia)) as (S1 & T1). pose proof (Sh 2%Z ltac:(lia)) as (S2 & T2). pose proof (Sh 3%Z ltac:(lia)) as (S3 & T3).
  split; [exact R0|]. split; [exact C0|]. split; [exact S0|]. split; [exact T0|]. intros y x Hy Hx. cbn [half_sum cell rows cols qnth] in *.
  destruct (V0 y x Hy Hx) as (N0 & A0). destruct (V1 y x) as (N1 & A1); [rewrite S1; exact Hy|rewrite T1; exact Hx|].
  destruct (V2 y x) as (N2 & A2); [rewrite S2; exact Hy|rewrite T2; exact Hx|]. destruct (V3 y x) as (N3 & A3); [rewrite S3; exact Hy|rewrite T3; exact Hx|].
  pose proof N0 as (_ & B0 & E0 & _). pose proof (Rabs_pos (cell (q0 q') y x)).
  pose proof (near_sum4 n e _ _ _ _ _ _ _ _ _ _ _ _ t N0 N1 N2 N3 A0 A1 A2 A3 Hn ltac:(lra)) as S.
  assert (G3 : (1 + u) ^ (n + 3) <= 2) by (apply (small_growth (n + 3) 1); replace (n + 3 + 1)%nat with (n + 4)%nat by lia; exact Hn).
  destruct (near_const _ _ _ _ _ nhalf (1 / 2) (4 * t) S half_value ltac:(lra) ltac:(lra) G3 ltac:(lra)) as (S' & _).
  change (qnth qm 0) with (q0 qm) in *. change (qnth qm 1) with (q1 qm) in *. change (qnth qm 2) with (q2 qm) in *. change (qnth qm 3) with (q3 qm) in *.
  cbn [nadd nmul nhalf Num_R]. split; [eapply near_weaken; [exact S'|lia|lra|lra]|lra].
Qed.
Lemma near_minus n e x y r s a b t : near n e x r a -> near n e y s b -> a <= t -> b <= t -> (1 + u) ^ n <= 2 -> 4 * t + 2 * e <= huge ->
  near (S n) (4 * e) (x -! y) (r - s) (a + b).
Proof.
  intros Hx Hy Ha Hb G Ht. pose proof Hx as (_ & Bx & E0 & _). pose proof Hy as (_ & By & F0 & _). pose proof (Rabs_pos r). pose proof (Rabs_pos s).
  pose proof (growth_pos n). pose proof (Rmult_le_compat_r (a + b) _ _ ltac:(lra) G). pose proof u_small. pose proof u_half as [U _].
  apply near_weaken with (S n) ((1 + u) * (e + e)) (a + b); [apply near_sub; [exact Hx|exact Hy|lra]|lia| |lra].
  apply Rle_trans with (2 * (e + e)); [apply Rmult_le_compat_r; lra|lra].
Qed.
Lemma near_self n e x r a c : near n e x r a -> 0 <= c -> near (S n) (4 * e) (x -! x) (r - r) c.
Proof.
  intros (V & B & E0 & E) Hc. assert (Hv : Rabs (fval x - fval x) <= huge) by (rewrite Rminus_eq_0, Rabs_R0; apply bpow_ge_0).
  pose proof (sub_value x x _ _ V V (rnd_huge _ Hv)) as V'. rewrite Rminus_eq_0, round_0 in V' by typeclasses eauto.
  pose proof (value_val _ _ V') as Ev. unfold near. rewrite Ev, !Rminus_eq_0, Rabs_R0. pose proof (growth_pos (S n)).
  pose proof (Rmult_le_pos _ c ltac:(apply Rle_0_minus; eassumption) Hc). split; [exact V'|]. split; [exact Hc|]. split; lra.
Qed.

Lemma theo_near n e t dic q q' qm s : nquad n e t q q' qm -> (forall i, (0 <= i < 4)%Z -> rows (qnth q' i) = rows (q0 q') /\ cols (qnth q' i) = cols (q0 q')) ->
  INR (n + 4) * u <= / 2 -> 8 * t + 22 * e <= huge -> theo_stokes dic q = Ok s ->
  exists r m, theo_stokes dic q' = Ok r /\ theo_stokes dic qm = Ok m /\ rows (sI r) = rows (q0 q') /\ cols (sI r) = cols (q0 q') /\
    nimg (n + 4) (44 * e + eta) (2 * t) (sI s) (sI r) (sI m) /\
    (forall a b, (a = sQ s /\ b = sQ r) \/ (a = sU s /\ b = sU r) -> rows a = rows (sI r) /\ cols a = cols (sI r) /\ rows b = rows (sI r) /\ cols b = cols (sI r) /\
       forall y x, (0 <= y < rows (sI r))%Z -> (0 <= x < cols (sI r))%Z -> near (S n) (4 * e) (cell a y x) (cell b y x) (2 * cell (sI m) y x)).
Proof.
  intros F Sh Hn Ht Es. destruct (theo_ok dic q s Es) as (i & j & k & l & Hi & Hj & Hk & Hl & -> & G).
  eexists _, _. split; [apply G|]. split; [apply G|]. cbn [sI sQ sU]. split; [reflexivity|]. split; [reflexivity|]. split; [apply half_sum_nimg; assumption|].
  assert (D : forall i j, (0 <= i < 4)%Z -> (0 <= j < 4)%Z -> rows (amap2 nsub (qnth q i) (qnth q j)) = rows (q0 q') /\ cols (amap2 nsub (qnth q i) (qnth q j)) = cols (q0 q') /\
       rows (amap2 nsub (qnth q' i) (qnth q' j)) = rows (q0 q') /\ cols (amap2 nsub (qnth q' i) (qnth q' j)) = cols (q0 q') /\
       forall y x, (0 <= y < rows (q0 q'))%Z -> (0 <= x < cols (q0 q'))%Z ->
         near (S n) (4 * e) (cell (amap2 nsub (qnth q i) (qnth q j)) y x) (cell (amap2 nsub (qnth q' i) (qnth q' j)) y x) (2 * cell (half_sum qm) y x)).
  { clear i j k l Hi Hj Hk Hl G Es. intros i j Hi Hj. destruct (F i Hi) as (R1 & C1 & M1 & N1 & V1). destruct (Sh i Hi) as (S1 & T1).
    split; [cbn [amap2 rows]; congruence|]. split; [cbn [amap2 cols]; congruence|]. split; [exact S1|]. split; [exact T1|]. intros y x Hy Hx.
    assert (Va : forall p, (0 <= p < 4)%Z -> near n e (cell (qnth q p) y x) (cell (qnth q' p) y x) (cell (qnth qm p) y x) /\ cell (qnth qm p) y x <= t).
    { intros p Hp. destruct (F p Hp) as (_ & _ & _ & _ & V). destruct (Sh p Hp) as (Sp & Tp). apply V; [rewrite Sp; exact Hy|rewrite Tp; exact Hx]. }
    assert (P : forall p, (0 <= p < 4)%Z -> 0 <= cell (qnth qm p) y x).
    { intros p Hp. destruct (Va p Hp) as ((_ & B & _) & _). pose proof (Rabs_pos (cell (qnth q' p) y x)). lra. }
    pose proof (P 0%Z ltac:(lia)) as P0. pose proof (P 1%Z ltac:(lia)) as P1. pose proof (P 2%Z ltac:(lia)) as P2. pose proof (P 3%Z ltac:(lia)) as P3.
    assert (Hh : 2 * cell (half_sum qm) y x = cell (qnth qm 0) y x + cell (qnth qm 1) y x + cell (qnth qm 2) y x + cell (qnth qm 3) y x).
    { cbn [half_sum cell nadd nmul nhalf Num_R]. change (qnth qm 0) with (q0 qm). change (qnth qm 1) with (q1 qm). change (qnth qm 2) with (q2 qm). change (qnth qm 3) with (q3 qm). lra. }
    cbn [amap2 cell]. destruct (Va i Hi) as (Ni & Ti). destruct (Va j Hj) as (Nj & Tj).
    destruct (Z.eq_dec i j) as [->|Hij]; [apply (near_self n e _ _ _ _ Nj); lra|].
    pose proof Ni as (_ & _ & E0 & _).
    assert (G0 : (1 + u) ^ n <= 2) by (apply (small_growth n 4); exact Hn).
    pose proof (P i Hi) as Pi.
    pose proof (near_minus n e _ _ _ _ _ _ t Ni Nj Ti Tj G0 ltac:(lra)) as S.
    eapply near_weaken; [exact S|lia|lra|]. rewrite Hh. clear - Hi Hj Hij P0 P1 P2 P3.
    assert (Ci : (i = 0 \/ i = 1 \/ i = 2 \/ i = 3)%Z) by lia. assert (Cj : (j = 0 \/ j = 1 \/ j = 2 \/ j = 3)%Z) by lia. clear Hi Hj.
    destruct Ci as [-> | [-> | [-> | ->]]], Cj as [-> | [-> | [-> | ->]]]; first [congruence|lra]. }
  intros a b [(-> & ->) | (-> & ->)]; cbn [half_sum rows cols]; apply D; assumption.
Qed.
Lemma theo_off n e t dic q q' qm s : nquad n e t q q' qm -> (forall i, (0 <= i < 4)%Z -> rows (qnth q' i) = rows (q0 q') /\ cols (qnth q' i) = cols (q0 q')) ->
  INR (n + 4) * u <= / 2 -> 8 * t + 22 * e <= huge -> theo_stokes dic q = Ok s ->
  exists r m, theo_stokes dic q' = Ok r /\ theo_stokes dic qm = Ok m /\ off_stokes (4 * INR (n + 4) * u) (44 * e + eta) s r m.
Proof.
  intros F Sh Hn Ht Es. destruct (theo_near n e t dic q q' qm s F Sh Hn Ht Es) as (r & m & Er & Em & _ & _ & NI & NQ).
  exists r, m. split; [exact Er|]. split; [exact Em|]. pose proof (growth_bound _ Hn) as G.
  pose proof (Rmult_le_pos _ _ (pos_INR (n + 4)) (bpow_ge_0 radix2 (-53))) as G0.
  pose proof NI as (I1 & I2 & I3 & I4 & I5). pose proof (growth_mono (S n) (n + 4) ltac:(lia)) as G1. pose proof (bpow_ge_0 radix2 (-1075)) as Eta.
  assert (D : forall a b, (a = sQ s /\ b = sQ r) \/ (a = sU s /\ b = sU r) -> off_image (4 * INR (n + 4) * u) (44 * e + eta) a b (sI m)).
  { intros a b Hab. destruct (NQ a b Hab) as (A1 & A2 & A3 & A4 & V). split; [congruence|]. split; [congruence|]. split; [congruence|]. split; [congruence|].
    intros y x Hy Hx. rewrite A3 in Hy. rewrite A4 in Hx. pose proof (V y x Hy Hx) as N. pose proof N as (_ & B & E0 & _). pose proof (Rabs_pos (cell b y x)).
    destruct (near_off _ _ _ _ _ N) as (V1 & V2 & V3). split; [exact V1|]. split; [exact V2|].
    pose proof (Rmult_le_compat_r (2 * cell (sI m) y x) ((1 + u) ^ S n - 1) (2 * INR (n + 4) * u) ltac:(lra) ltac:(lra)). lra. }
  split; [|split; apply D; [left|right]; split; reflexivity].
  apply (nimg_off _ _ _ _ _ _ (4 * INR (n + 4) * u)) in NI; [exact NI|lra].
Qed.
Lemma split_nquad n e t d r m q : nimg n e t d r m -> mosaic r -> split_polarizations d = Ok q ->
  exists q' qm, split_polarizations r = Ok q' /\ split_polarizations m = Ok qm /\ nquad n e t q q' qm /\
    forall i, (0 <= i < 4)%Z -> rows (qnth q' i) = rows (q0 q') /\ cols (qnth q' i) = cols (q0 q').
Proof.
  intros F Hm Eq0. pose proof F as (Er & Ec & Mr & Mc & _). pose proof Hm as (P1 & P2 & M1 & M2).
  assert (Hm1 : mosaic d) by (unfold mosaic in *; rewrite Er, Ec; exact Hm).
  assert (Hm2 : mosaic m) by (unfold mosaic in *; rewrite Mr, Mc; exact Hm).
  destruct (c01_split d) as (S1 & _); [rewrite Er; exact P1|rewrite Ec; exact P2|]. destruct (S1 Hm1) as (q1 & Eq & Q).
  assert (q1 = q) by congruence. subst q1.
  destruct (c01_split r P1 P2) as (S2 & _). destruct (S2 Hm) as (q' & Eq' & Q').
  destruct (c01_split m) as (S3 & _); [rewrite Mr; exact P1|rewrite Mc; exact P2|]. destruct (S3 Hm2) as (qm & Eqm & Qm).
  exists q', qm. split; [exact Eq'|]. split; [exact Eqm|]. split.
  - intros i Hi. destruct (Q i Hi) as (A1 & A2 & A3). destruct (Q' i Hi) as (B1 & B2 & B3). destruct (Qm i Hi) as (C1 & C2 & C3).
    split; [rewrite A1, B1, Er; reflexivity|]. split; [rewrite A2, B2, Ec; reflexivity|]. split; [rewrite C1, B1, Mr; reflexivity|]. split; [rewrite C2, B2, Mc; reflexivity|].
    intros y x Hy Hx. rewrite B1 in Hy. rewrite B2 in Hx.
    rewrite A3, B3, C3 by (rewrite ?Er, ?Ec, ?Mr, ?Mc; assumption). apply (sample_near n e t d r m i y x F Hm Hi Hy Hx).
  - intros i Hi. destruct (Q' i Hi) as (B1 & B2 & _). destruct (Q' 0%Z ltac:(lia)) as (C1 & C2 & _).
    change (q0 q') with (qnth q' 0). rewrite B1, B2, C1, C2. split; reflexivity.
Qed.

(** ** Property C103 *)
Lemma power2 k : powerRZ 2 k = bpow radix2 k.
Proof. symmetry. apply (bpow_powerRZ radix2). Qed.
Lemma few n : (n <= 16)%nat -> INR n * u <= / 2.
Proof.
  intros H. apply le_INR in H. replace (INR 16) with 16 in H by (cbn; lra). pose proof u_small. pose proof u_half as [U _].
  pose proof (Rmult_le_compat_r u _ _ ltac:(lra) H). lra.
Qed.
Lemma huge_le a b c : (a + 1019 <= 1023)%Z -> b <= bpow radix2 1019 -> c = bpow radix2 a -> c * b <= huge.
Proof.
  intros Ha Hb ->. apply Rle_trans with (bpow radix2 a * bpow radix2 1019); [apply Rmult_le_compat_l; [apply bpow_ge_0|exact Hb]|].
  rewrite <- bpow_plus. apply bpow_le. exact Ha.
Qed.
Lemma sixteen t : t <= bpow radix2 1019 -> 16 * t <= huge.
Proof. intros H. apply (huge_le 4); [lia|exact H|reflexivity]. Qed.
Lemma eta_small : 100 * eta <= bpow radix2 1019.
Proof.
  apply Rle_trans with (128 * eta); [pose proof (bpow_ge_0 radix2 (-1075)); lra|]. change 128 with (bpow radix2 7). rewrite <- bpow_plus. apply bpow_le. lia.
Qed.

Section C103.
  Variables (t : R) (d : arr b64).
  Hypothesis Hd : bounded t d.
  Hypothesis Hm : mosaic d.
  Lemma values_mosaic : mosaic (values d). Proof. exact Hm. Qed.

  Lemma c103_demosaic o q : t <= powerRZ 2 1019 -> demosaic d o = Ok q ->
    exists r m, demosaic (values d) o = Ok r /\ demosaic (absolute d) o = Ok m /\ off_quad (powerRZ 2 (-50)) (powerRZ 2 (-1075)) q r m.
  Proof using Hd Hm.
    rewrite !power2. intros Ht Eq. pose proof (sixteen t Ht). assert (T8 : 8 * t <= huge).
    { pose proof (bpow_ge_0 radix2 1023). destruct (Rle_or_lt 0 t); lra. }
    destruct (demosaic_nquad 0 t d _ _ o q (bounded_nimg t d Hd) values_mosaic (few 4 ltac:(lia)) T8 Eq) as (r & m & Er & Em & N & _).
    exists r, m. split; [exact Er|]. split; [exact Em|]. apply (nquad_off _ _ _ _ _ _ _ N).
    apply Rle_trans with (1 := growth_bound 4 (few 4 ltac:(lia))). change (0 + 4)%nat with 4%nat. replace (INR 4) with 4 by (cbn; lra).
    apply Req_le. replace (2 * 4 * u) with (bpow radix2 3 * u) by (cbn; lra). rewrite <- bpow_plus. reflexivity.
  Qed.
  Lemma c103_stokes dic s : t <= powerRZ 2 1019 -> data_stokes dic d = Ok s ->
    exists r m, data_stokes dic (values d) = Ok r /\ data_stokes dic (absolute d) = Ok m /\
      off_image (powerRZ 2 (-50)) (powerRZ 2 (-1075)) (sI s) (sI r) (sI m) /\
      forall y x, (0 <= y < rows d / 2)%Z -> (0 <= x < cols d / 2)%Z ->
        nearest (cell (sQ s) y x) (cell (sQ r) y x) /\ nearest (cell (sU s) y x) (cell (sU r) y x).
  Proof using Hd Hm.
    rewrite !power2. intros Ht Eq. pose proof (sixteen t Ht). assert (T8 : 8 * t + 22 * 0 <= huge).
    { pose proof (bpow_ge_0 radix2 1023). destruct (Rle_or_lt 0 t); lra. }
    unfold data_stokes in Eq. apply bind_ok in Eq as (q & Eq & Es).
    destruct (split_nquad 0 0 t d _ _ q (bounded_nimg t d Hd) values_mosaic Eq) as (q' & qm & Eq' & Em & N & Sh).
    destruct (theo_near 0 0 t dic q q' qm s N Sh (few 4 ltac:(lia)) T8 Es) as (r & m & Er & Emm & Hr & Hc & NI & _).
    exists r, m. unfold data_stokes. rewrite Eq', Em. cbn [bind]. split; [exact Er|]. split; [exact Emm|]. split.
    - assert (G4 : (1 + u) ^ (0 + 4) - 1 <= bpow radix2 (-50)).
      { apply Rle_trans with (1 := growth_bound 4 (few 4 ltac:(lia))). replace (INR 4) with 4 by (cbn; lra).
        apply Req_le. replace (2 * 4 * u) with (bpow radix2 3 * u) by (cbn; lra). rewrite <- bpow_plus. reflexivity. }
      destruct (nimg_off _ _ _ _ _ _ _ NI G4) as (I1 & I2 & I3 & I4 & V). split; [exact I1|]. split; [exact I2|]. split; [exact I3|]. split; [exact I4|].
      intros y x Hy Hx. destruct (V y x Hy Hx) as (V1 & V2 & V3). split; [exact V1|]. split; [exact V2|]. lra.
    - destruct (theo_ok dic q s Es) as (i & j & k & l & Hi & Hj & Hk & Hl & -> & G).
      assert (r = mkstokes (half_sum q') (amap2 nsub (qnth q' i) (qnth q' j)) (amap2 nsub (qnth q' k) (qnth q' l))) as ->
        by (specialize (G R _ q'); congruence). cbn [sQ sU].
      intros y x Hy Hx.
      assert (D : forall i j, (0 <= i < 4)%Z -> (0 <= j < 4)%Z -> nearest (cell (amap2 nsub (qnth q i) (qnth q j)) y x) (cell (amap2 nsub (qnth q' i) (qnth q' j)) y x)).
      { intros i0 j0 Hi0 Hj0.
        assert (Va : forall p, (0 <= p < 4)%Z -> is_value (cell (qnth q p) y x) (cell (qnth q' p) y x) /\ Rabs (cell (qnth q' p) y x) <= t).
        { intros p Hp. destruct (c01_split (values d)) as (S1 & _); [apply Hm..|]. destruct (S1 Hm) as (q1 & Eq1 & Q1).
          destruct (c01_split d) as (S2 & _); [apply Hm..|]. destruct (S2 Hm) as (q2 & Eq2 & Q2).
          assert (q1 = q') by congruence. assert (q2 = q) by congruence. subst q1 q2.
          destruct (Q1 p Hp) as (_ & _ & A1). destruct (Q2 p Hp) as (_ & _ & A2). rewrite A1, A2 by assumption.
          unfold sample. change (cell (values d) (2 * y + p / 2) (2 * x + p mod 2)) with (fval (cell d (2 * y + p / 2) (2 * x + p mod 2))).
          destruct (Hd (2 * y + p / 2) (2 * x + p mod 2))%Z as (V1 & V2 & V3).
          - destruct Hm as (_ & _ & M1 & _). pose proof (Z.div_mod (rows d) 2 ltac:(lia)).
            assert (0 <= p / 2 < 2)%Z by (split; [apply Z.div_pos; lia|apply Z.div_lt_upper_bound; lia]). lia.
          - destruct Hm as (_ & _ & _ & M2). pose proof (Z.div_mod (cols d) 2 ltac:(lia)). pose proof (Z.mod_pos_bound p 2 ltac:(lia)). lia.
          - split; [|exact V3]. split; [exact V1|]. split; [exact V2|reflexivity]. }
        destruct (Va i0 Hi0) as (Vi & Bi). destruct (Va j0 Hj0) as (Vj & Bj). cbn [amap2 cell].
        apply is_value_nearest. apply sub_value; [exact Vi|exact Vj|]. apply rnd_huge.
        change (nsub (cell (qnth q' i0) y x) (cell (qnth q' j0) y x)) with (cell (qnth q' i0) y x - cell (qnth q' j0) y x).
        pose proof (Rabs_triang (cell (qnth q' i0) y x) (- cell (qnth q' j0) y x)) as T. rewrite Rabs_Ropp in T. unfold Rminus.
        pose proof (Rabs_pos (cell (qnth q' i0) y x)). lra. }
      split; apply D; assumption.
  Qed.
  Lemma many b : (1 <= b)%Z -> (b * b + 8 <= 2 ^ 52)%Z -> INR (Z.to_nat (b * b) + 8) * u <= / 2.
  Proof.
    intros Hb Hbb. assert (Hp : (0 <= b * b)%Z) by (apply Z.mul_nonneg_nonneg; lia).
    rewrite plus_INR, INR_IZR_INZ, Z2Nat.id by exact Hp. replace (INR 8) with (IZR 8) by (cbn; lra). rewrite <- plus_IZR.
    apply IZR_le in Hbb. change (IZR (2 ^ 52)) with (bpow radix2 52) in Hbb. change (/ 2) with (bpow radix2 (-1)).
    replace (bpow radix2 (-1)) with (bpow radix2 52 * u) by (rewrite <- bpow_plus; reflexivity).
    apply Rmult_le_compat_r; [apply bpow_ge_0|exact Hbb].
  Qed.
  Lemma fewer n k v : INR (n + k) * v <= / 2 -> 0 <= v -> INR n * v <= / 2.
  Proof. intros H Hv. rewrite plus_INR in H. pose proof (Rmult_le_pos _ _ (pos_INR k) Hv). lra. Qed.
  Lemma squares b : (1 <= b)%Z -> INR (Z.to_nat (b * b)) = IZR (b * b).
  Proof. intros Hb. rewrite INR_IZR_INZ, Z2Nat.id; [reflexivity|]. apply Z.mul_nonneg_nonneg; lia. Qed.
  Lemma c103_binned b : (1 <= b)%Z -> (b * b + 8 <= 2 ^ 52)%Z -> IZR (b * b) * t <= powerRZ 2 1019 ->
    exists d' r' m', evaluates (fun fuel => micropolarray_rebin fuel d b) d' /\ evaluates (fun fuel => micropolarray_rebin fuel (values d) b) r' /\
      evaluates (fun fuel => micropolarray_rebin fuel (absolute d) b) m' /\
      off_image (IZR (b * b) * powerRZ 2 (-52)) 0 d' r' m' /\
      forall dic o s, (let* q := demosaic d' o in theo_stokes dic q) = Ok s ->
        exists r m, (let* q := demosaic r' o in theo_stokes dic q) = Ok r /\ (let* q := demosaic m' o in theo_stokes dic q) = Ok m /\
          off_stokes (IZR (b * b + 8) * powerRZ 2 (-51)) (powerRZ 2 (-1069)) s r m.
  Proof using Hd Hm.
    rewrite !power2. intros Hb Hbb Ht. pose proof (sixteen _ Ht) as T. pose proof (many b Hb Hbb) as Hn. pose proof (squares b Hb) as Sq.
    pose proof (bpow_ge_0 radix2 (-53)) as U. pose proof (bpow_gt_0 radix2 (-1075)) as Eta.
    set (N := Z.to_nat (b * b)) in *. clearbody N.
    pose proof (bpow_ge_0 radix2 1023) as H1023. pose proof eta_small as Es1.
    assert (H1019 : 16 * bpow radix2 1019 <= huge) by (apply sixteen; lra). assert (Es : 100 * eta * 16 <= huge) by lra. clear Es1 H1019.
    set (T' := IZR (b * b) * t) in *.
    assert (T8 : 8 * T' + 22 * eta <= huge) by (destruct (Rle_or_lt 0 T'); lra).
    assert (T2 : 2 * T' <= huge) by (destruct (Rle_or_lt 0 T'); lra). assert (T8' : 8 * T' <= huge) by (destruct (Rle_or_lt 0 T'); lra).
    assert (F0 : INR (0 + N) * u <= / 2) by (apply (fewer N 8 _ Hn U)).
    assert (E : exists d' r' m', evaluates (fun fuel => micropolarray_rebin fuel d b) d' /\ evaluates (fun fuel => micropolarray_rebin fuel (values d) b) r' /\
      evaluates (fun fuel => micropolarray_rebin fuel (absolute d) b) m' /\ mosaic r' /\ nimg (0 + N) 0 T' d' r' m').
    { pose proof (rebin_nimg 0 t d _ _ b (bounded_nimg t d Hd) values_mosaic Hb) as G.
      assert (EN : N = Z.to_nat (b * b)). { apply INR_eq. rewrite Sq. symmetry. apply squares. exact Hb. }
      rewrite <- EN in G. apply G; [exact F0|exact T2]. }
    clear - E T8 T8' Hn U Sq Eta.
    destruct E as (d' & r' & m' & E1 & E2 & E3 & Hm' & N').
    exists d', r', m'. split; [exact E1|]. split; [exact E2|]. split; [exact E3|]. split.
    - apply (nimg_off _ _ _ _ _ _ _ N'). cbn [Nat.add]. apply Rle_trans with (1 := growth_bound N (fewer N 8 _ Hn U)). rewrite Sq.
      replace (bpow radix2 (-52)) with (bpow radix2 1 * u) by (rewrite <- bpow_plus; reflexivity). change (bpow radix2 1) with 2. lra.
    - intros dic o s E. apply bind_ok in E as (q & Eq & Es).
      assert (F4 : INR (0 + N + 4) * u <= / 2) by (apply (fewer (0 + N + 4) 4); [replace (0 + N + 4 + 4)%nat with (N + 8)%nat by lia; exact Hn|exact U]).
      destruct (demosaic_nquad (0 + N) T' d' r' m' o q N' Hm' F4 T8' Eq) as (q' & qm & Eq' & Em & Nq & Sh).
      assert (F8 : INR (0 + N + 4 + 4) * u <= / 2) by (replace (0 + N + 4 + 4)%nat with (N + 8)%nat by lia; exact Hn).
      destruct (theo_off (0 + N + 4) eta T' dic q q' qm s Nq) as (r & m & Er & Emm & Off); [|exact F8|exact T8|exact Es|].
      { intros i Hi. destruct (Sh i Hi) as (S1 & S2). destruct (Sh 0%Z ltac:(lia)) as (S3 & S4). change (q0 q') with (qnth q' 0). rewrite S1, S2, S3, S4. split; reflexivity. }
      exists r, m. rewrite Eq', Em. cbn [bind]. split; [exact Er|]. split; [exact Emm|].
      assert (Eg : 4 * INR (0 + N + 4 + 4) * u = IZR (b * b + 8) * bpow radix2 (-51)).
      { replace (0 + N + 4 + 4)%nat with (N + 8)%nat by lia. rewrite plus_INR, Sq, plus_IZR. replace (INR 8) with 8 by (cbn; lra).
        replace (bpow radix2 (-51)) with (bpow radix2 2 * u) by (rewrite <- bpow_plus; reflexivity). change (bpow radix2 2) with 4. ring. }
      rewrite Eg in Off.
      assert (Ee : 44 * eta + eta <= bpow radix2 (-1069)).
      { replace (bpow radix2 (-1069)) with (bpow radix2 6 * eta) by (rewrite <- bpow_plus; reflexivity). change (bpow radix2 6) with 64. lra. }
      assert (W : forall a0 b0 c0 g, off_image g (44 * eta + eta) a0 b0 c0 -> off_image g (bpow radix2 (-1069)) a0 b0 c0).
      { intros a0 b0 c0 g (I1 & I2 & I3 & I4 & V). split; [exact I1|]. split; [exact I2|]. split; [exact I3|]. split; [exact I4|]. intros y x Hy Hx.
        destruct (V y x Hy Hx) as (V1 & V2 & V3). split; [exact V1|]. split; [exact V2|lra]. }
      destruct Off as (O1 & O2 & O3). split; [|split]; apply W; assumption.
  Qed.
End C103.

(** A concrete pixel below 1 *)
Lemma below_one s m e : valid_binary prec emax (S754_finite s m e) = true -> (Z.pos m <= 2 ^ 53)%Z -> (e <= -53)%Z ->
  let x := S754_finite s m e in is_binary64 x /\ finite64 x /\ Rabs (fval x) <= 1.
Proof.
  intros V Hm He x. split; [exact V|]. split; [exact I|]. unfold x. cbn [fval]. rewrite power2, Rabs_mult, (Rabs_pos_eq (bpow _ _)) by apply bpow_ge_0.
  apply Rle_trans with (bpow radix2 53 * bpow radix2 (-53)); [|rewrite <- bpow_plus; cbn; lra].
  apply Rmult_le_compat; [apply Rabs_pos|apply bpow_ge_0| |apply bpow_le; exact He].
  change (bpow radix2 53) with (IZR (2 ^ 53)). apply IZR_le in Hm. pose proof (IZR_lt 0 (Z.pos m) eq_refl). destruct s; [rewrite Rabs_left|rewrite Rabs_pos_eq]; lra.
Qed.
