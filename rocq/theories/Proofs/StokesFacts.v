(** Stokes vectors of raw images. *)
From Coq Require Import ZifyBool Reals Lra.
From Verif Require Import Base.Base Base.BaseFacts Base.Num Model.Demosaic Model.Stokes
  Model.Rebin Spec.MosaicSpec Spec.StokesSpec Spec.SumSpec Spec.Terminates Proofs.DemosaicFacts
  Proofs.RebinFacts Proofs.RebinAlg Proofs.SumFacts Proofs.MosaicFacts.
Ltac Zify.zify_post_hook ::= Z.div_mod_to_equations.

Lemma dict_get_in (d : angle_dic) k v :
  NoDup (map fst d) -> In (k, v) d -> dict_get d k = Ok v.
Proof.
  induction d as [|[k' v'] d IH]; cbn [map fst dict_get In]; intros Hn Hin; [tauto|].
  inversion Hn as [|? ? Hnot Hn']; subst.
  destruct Hin as [E|Hin].
  - injection E as -> ->. rewrite Z.eqb_refl. reflexivity.
  - destruct (Z.eqb_spec k k') as [->|_]; [|auto].
    exfalso. apply Hnot. change k' with (fst (k', v)). apply in_map. exact Hin.
Qed.

Lemma quad_get_ok {A} (q : quad A) i : 0 <= i < 4 -> quad_get q i = Ok (qnth q i).
Proof. intros Hi. unfold quad_get. rewrite norm_idx_in by exact Hi. reflexivity. Qed.

Section S.
  Context {A : Type} `{Num A}.

  Lemma theo_stokes_spec dic a (q : quad A) h w :
    describes dic a ->
    (forall k, 0 <= k < 4 -> rows (qnth q k) = h /\ cols (qnth q k) = w) ->
    exists s, theo_stokes dic q = Ok s /\
      stokes_is s h w
        (fun y x => nhalf *! (((cell (qnth q 0) y x +! cell (qnth q 1) y x)
                                 +! cell (qnth q 2) y x) +! cell (qnth q 3) y x))
        (fun y x => cell (qnth q (p0 a)) y x -! cell (qnth q (p90 a)) y x)
        (fun y x => cell (qnth q (p45 a)) y x -! cell (qnth q (pm45 a)) y x).
  Proof.
    intros (Hok & Hn & H0 & H45 & Hm45 & H90) Hq.
    destruct Hok as (R0 & R45 & Rm45 & R90 & _).
    unfold theo_stokes.
    rewrite (dict_get_in dic 0 _ Hn H0), (dict_get_in dic 90 _ Hn H90),
      (dict_get_in dic 45 _ Hn H45), (dict_get_in dic (-45) _ Hn Hm45).
    cbn [bind]. rewrite !quad_get_ok by assumption. cbn [bind].
    eexists; split; [reflexivity|].
    repeat split; cbn [sI sQ sU half_sum amap2 rows cols cell].
    - apply (Hq 0); lia.
    - apply (Hq 0); lia.
    - apply (Hq (p0 a)); lia.
    - apply (Hq (p0 a)); lia.
    - apply (Hq (p45 a)); lia.
    - apply (Hq (p45 a)); lia.
  Qed.

  Lemma data_stokes_spec dic a (d : arr A) :
    describes dic a -> mosaic d ->
    exists s, data_stokes dic d = Ok s /\
      stokes_is s (rows d / 2) (cols d / 2)
        (fun y x => nhalf *! (((sample d 0 y x +! sample d 1 y x)
                                 +! sample d 2 y x) +! sample d 3 y x))
        (fun y x => sample d (p0 a) y x -! sample d (p90 a) y x)
        (fun y x => sample d (p45 a) y x -! sample d (pm45 a) y x).
  Proof.
    intros Hd Hm. destruct (mosaic_wf d Hm) as (Hw & Er & Ec).
    destruct (split_spec d Hw Er Ec) as (q & Eq & Hq).
    destruct (theo_stokes_spec dic a q (rows d / 2) (cols d / 2) Hd) as (s & Es & Hs).
    { intros k Hk. destruct (Hq k Hk) as (R & C & _). auto. }
    exists s. unfold data_stokes. rewrite Eq. cbn [bind]. split; [exact Es|].
    destruct Hs as (HI & HQ & HU & Hc). split; [exact HI|]. split; [exact HQ|].
    split; [exact HU|]. intros y x Hy Hx. destruct (Hc y x Hy Hx) as (EI & EQ & EU).
    destruct Hd as ((R0 & R45 & Rm45 & R90 & _) & _).
    rewrite EI, EQ, EU.
    assert (Hcell : forall k, 0 <= k < 4 -> cell (qnth q k) y x = sample d k y x).
    { intros k Hk. destruct (Hq k Hk) as (_ & _ & E). rewrite E. reflexivity. }
    rewrite !Hcell by lia. auto.
  Qed.
End S.

(** ** Ideal micropolarizers *)

Lemma ideal_0 I Q U : ideal 0 I Q U = ((I + Q) / 2)%R.
Proof. unfold ideal. rewrite Rmult_0_r, cos_0, sin_0. lra. Qed.
Lemma ideal_90 I Q U : ideal (PI / 2) I Q U = ((I - Q) / 2)%R.
Proof.
  unfold ideal. replace (2 * (PI / 2))%R with PI by lra. rewrite cos_PI, sin_PI. lra.
Qed.
Lemma ideal_45 I Q U : ideal (PI / 4) I Q U = ((I + U) / 2)%R.
Proof.
  unfold ideal. replace (2 * (PI / 4))%R with (PI / 2)%R by lra.
  rewrite cos_PI2, sin_PI2. lra.
Qed.
Lemma ideal_m45 I Q U : ideal (- (PI / 4)) I Q U = ((I - U) / 2)%R.
Proof.
  unfold ideal. replace (2 * - (PI / 4))%R with (- (PI / 2))%R by lra.
  rewrite cos_neg, sin_neg, cos_PI2, sin_PI2. lra.
Qed.

(** Sum over the four positions, in any arrangement. *)
Lemma arrangement_sum (a : arrangement) (f : Z -> R) :
  arrangement_ok a ->
  (f 0%Z + f 1%Z + f 2%Z + f 3%Z = f (p0 a) + f (p45 a) + f (pm45 a) + f (p90 a))%R.
Proof.
  destruct a as [a b c d]; unfold arrangement_ok; cbn [p0 p45 pm45 p90].
  intros (Ha & Hb & Hc & Hd & N).
  assert (Da : a = 0 \/ a = 1 \/ a = 2 \/ a = 3) by lia.
  assert (Db : b = 0 \/ b = 1 \/ b = 2 \/ b = 3) by lia.
  assert (Dc : c = 0 \/ c = 1 \/ c = 2 \/ c = 3) by lia.
  assert (Dd : d = 0 \/ d = 1 \/ d = 2 \/ d = 3) by lia.
  clear Ha Hb Hc Hd.
  destruct Da as [-> | [-> | [-> | ->]]], Db as [-> | [-> | [-> | ->]]]; try lia;
    destruct Dc as [-> | [-> | [-> | ->]]]; try lia;
    destruct Dd as [-> | [-> | [-> | ->]]]; try lia; lra.
Qed.

Lemma ideal_recovered dic a (d : arr R) (I Q U : Z -> Z -> R) :
  describes dic a -> mosaic d ->
  (forall Y X, 0 <= Y < rows d / 2 -> 0 <= X < cols d / 2 ->
     sample d (p0 a) Y X = ideal 0 (I Y X) (Q Y X) (U Y X) /\
     sample d (p45 a) Y X = ideal (PI / 4) (I Y X) (Q Y X) (U Y X) /\
     sample d (pm45 a) Y X = ideal (- (PI / 4)) (I Y X) (Q Y X) (U Y X) /\
     sample d (p90 a) Y X = ideal (PI / 2) (I Y X) (Q Y X) (U Y X)) ->
  exists s, data_stokes dic d = Ok s /\ stokes_is s (rows d / 2) (cols d / 2) I Q U.
Proof.
  intros Hd Hm Hs. destruct (data_stokes_spec dic a d Hd Hm) as (s & E & Hst).
  exists s; split; [exact E|].
  destruct Hst as (HI & HQ & HU & Hc). split; [exact HI|]. split; [exact HQ|].
  split; [exact HU|]. intros y x Hy Hx. destruct (Hc y x Hy Hx) as (EI & EQ & EU).
  destruct (Hs y x Hy Hx) as (S0 & S45 & Sm45 & S90).
  rewrite ideal_0 in S0. rewrite ideal_45 in S45. rewrite ideal_m45 in Sm45.
  rewrite ideal_90 in S90.
  rewrite EI, EQ, EU. cbn [nadd nmul nsub nhalf Num_R].
  destruct Hd as (Hok & _).
  rewrite (arrangement_sum a (fun k => sample d k y x) Hok).
  rewrite S0, S45, Sm45, S90. repeat split; lra.
Qed.

(** ** Linearity *)

Lemma sample_amap2 {A B C} (f : A -> B -> C) a b k y x :
  sample (amap2 f a b) k y x = f (sample a k y x) (sample b k y x).
Proof. reflexivity. Qed.
Lemma sample_amap {A B} (f : A -> B) a k y x : sample (amap f a) k y x = f (sample a k y x).
Proof. reflexivity. Qed.

Lemma mosaic_amap2 {A B C} (f : A -> B -> C) a b : mosaic a -> mosaic (amap2 f a b).
Proof. exact (fun H => H). Qed.
Lemma mosaic_amap {A B} (f : A -> B) a : mosaic a -> mosaic (amap f a).
Proof. exact (fun H => H). Qed.

Ltac stokes_cells Hc :=
  intros y x Hy Hx; destruct (Hc y x Hy Hx) as (?EI & ?EQ & ?EU).

Lemma stokes_linear dic a (d1 d2 : arr R) (c1 c2 : R) s1 s2 :
  describes dic a -> mosaic d1 -> same_shape d1 d2 ->
  data_stokes dic d1 = Ok s1 -> data_stokes dic d2 = Ok s2 ->
  exists s, data_stokes dic (amap2 (fun u v => c1 * u + c2 * v)%R d1 d2) = Ok s /\
    stokes_is s (rows d1 / 2) (cols d1 / 2)
      (fun y x => c1 * cell (sI s1) y x + c2 * cell (sI s2) y x)%R
      (fun y x => c1 * cell (sQ s1) y x + c2 * cell (sQ s2) y x)%R
      (fun y x => c1 * cell (sU s1) y x + c2 * cell (sU s2) y x)%R.
Proof.
  intros Hd Hm [Sr Sc] E1 E2.
  assert (Hm2 : mosaic d2) by (destruct Hm as (?&?&?&?); repeat split; lia).
  destruct (data_stokes_spec dic a d1 Hd Hm) as (s1' & E1' & _ & _ & _ & H1).
  rewrite E1 in E1'. injection E1' as <-.
  destruct (data_stokes_spec dic a d2 Hd Hm2) as (s2' & E2' & _ & _ & _ & H2).
  rewrite E2 in E2'. injection E2' as <-.
  destruct (data_stokes_spec dic a (amap2 (fun u v => c1 * u + c2 * v)%R d1 d2) Hd
              (mosaic_amap2 _ d1 d2 Hm)) as (s & E & HI & HQ & HU & Hc).
  cbn [amap2 rows cols] in HI, HQ, HU, Hc.
  exists s; split; [exact E|]. split; [exact HI|]. split; [exact HQ|]. split; [exact HU|].
  intros y x Hy Hx. destruct (Hc y x Hy Hx) as (EI & EQ & EU).
  destruct (H1 y x Hy Hx) as (EI1 & EQ1 & EU1).
  rewrite Sr in Hy. rewrite Sc in Hx.
  destruct (H2 y x Hy Hx) as (EI2 & EQ2 & EU2).
  rewrite EI, EQ, EU, EI1, EQ1, EU1, EI2, EQ2, EU2. rewrite !sample_amap2.
  cbn [nadd nmul nsub nhalf Num_R]. repeat split; lra.
Qed.

Lemma stokes_offset dic a (d1 : arr R) (c : R) s1 :
  describes dic a -> mosaic d1 ->
  data_stokes dic d1 = Ok s1 ->
  exists s, data_stokes dic (amap (fun u => u + c)%R d1) = Ok s /\
    stokes_is s (rows d1 / 2) (cols d1 / 2)
      (fun y x => cell (sI s1) y x + 2 * c)%R (cell (sQ s1)) (cell (sU s1)).
Proof.
  intros Hd Hm E1.
  destruct (data_stokes_spec dic a d1 Hd Hm) as (s1' & E1' & _ & _ & _ & H1).
  rewrite E1 in E1'. injection E1' as <-.
  destruct (data_stokes_spec dic a (amap (fun u => u + c)%R d1) Hd
              (mosaic_amap _ d1 Hm)) as (s & E & HI & HQ & HU & Hc).
  cbn [amap rows cols] in HI, HQ, HU, Hc.
  exists s; split; [exact E|]. split; [exact HI|]. split; [exact HQ|]. split; [exact HU|].
  intros y x Hy Hx. destruct (Hc y x Hy Hx) as (EI & EQ & EU).
  destruct (H1 y x Hy Hx) as (EI1 & EQ1 & EU1).
  rewrite EI, EQ, EU, EI1, EQ1, EU1. rewrite !sample_amap.
  cbn [nadd nmul nsub nhalf Num_R]. repeat split; lra.
Qed.

(** ** Binning commutes with Stokes *)

Lemma mosaic_rebin (d r : arr R) b fuel :
  mosaic d -> 1 <= b -> (Z.to_nat (Z.max (rows d) (cols d)) <= fuel)%nat ->
  micropolarray_rebin fuel d b = Ok r ->
  mosaic r /\ rows r = 2 * (rows d / (2 * b)) /\ cols r = 2 * (cols d / (2 * b)) /\
  forall k Y X, 0 <= k < 4 -> 0 <= Y < rows r / 2 -> 0 <= X < cols r / 2 ->
    sample r k Y X = rsum2 b b (fun y x => sample d k (b * Y + y) (b * X + x)).
Proof.
  intros Hm Hb Hf E. destruct (mosaic_wf d Hm) as (Hw & Er & Ec).
  destruct (rebin_spec d b fuel Hw Hb Er Ec Hf) as (r' & E' & R & C & Hcell).
  rewrite E in E'. injection E' as <-. destruct Hw as [Hr Hc].
  assert (0 <= rows d / (2 * b)) by (apply Z.div_pos; lia).
  assert (0 <= cols d / (2 * b)) by (apply Z.div_pos; lia).
  set (h := rows d / (2 * b)) in *. set (w := cols d / (2 * b)) in *. clearbody h w.
  split; [|split; [exact R|split; [exact C|]]].
  - unfold mosaic. rewrite R, C. repeat split; lia.
  - intros k Y X Hk HY HX. rewrite R, C, !half_double in *. unfold sample at 1.
    pose proof (k_half k Hk). pose proof (mod2_bound k).
    rewrite Hcell by lia. rewrite lsum_family_block.
    rewrite !div2_pair, !mod2_pair by assumption.
    apply rsum2_ext. intros y x _ _. unfold sample. f_equal; ring.
Qed.

Lemma stokes_rebin dic a (d r : arr R) s b fuel :
  describes dic a -> mosaic d -> 1 <= b ->
  (Z.to_nat (Z.max (rows d) (cols d)) <= fuel)%nat ->
  micropolarray_rebin fuel d b = Ok r -> data_stokes dic d = Ok s ->
  exists t tI tQ tU,
    data_stokes dic r = Ok t /\
    standard_rebin fuel (sI s) b = Ok tI /\ standard_rebin fuel (sQ s) b = Ok tQ /\
    standard_rebin fuel (sU s) b = Ok tU /\
    sI t =a= tI /\ sQ t =a= tQ /\ sU t =a= tU.
Proof.
  intros Hd Hm Hb Hf E Es.
  destruct (mosaic_rebin d r b fuel Hm Hb Hf E) as (Hmr & Rr & Cr & Hsm).
  destruct (data_stokes_spec dic a d Hd Hm) as (s' & Es' & HI & HQ & HU & Hsc).
  rewrite Es in Es'. injection Es' as <-.
  destruct (data_stokes_spec dic a r Hd Hmr) as (t & Et & TI & TQ & TU & Htc).
  destruct Hm as (Hr & Hc & Er & Ec).
  assert (P1 : 0 <= rows d / 2) by lia. assert (P2 : 0 <= cols d / 2) by lia.
  assert (L1 : rows d / 2 <= rows d) by lia. assert (L2 : cols d / 2 <= cols d) by lia.
  assert (DR : rows d / 2 / b = rows d / (2 * b)) by (rewrite Z.div_div by lia; reflexivity).
  assert (DC : cols d / 2 / b = cols d / (2 * b)) by (rewrite Z.div_div by lia; reflexivity).
  rewrite Rr, Cr, !half_double in TI, TQ, TU, Htc. rewrite Rr, Cr, !half_double in Hsm.
  assert (Hstd : forall v : arr R, rows v = rows d / 2 /\ cols v = cols d / 2 ->
    exists u, standard_rebin fuel v b = Ok u /\ rows u = rows d / (2 * b) /\
      cols u = cols d / (2 * b) /\
      forall Y X, 0 <= Y < rows d / (2 * b) -> 0 <= X < cols d / (2 * b) ->
        cell u Y X = rsum2 b b (fun y x => cell v (b * Y + y) (b * X + x))).
  { intros v [Rv Cv]. destruct (std_rebin_spec v b fuel) as (u & Eu & Ru & Cu & Hu).
    - split; rewrite ?Rv, ?Cv; assumption.
    - exact Hb.
    - rewrite Rv, Cv. clear - Hf L1 L2 P1 P2. lia.
    - exists u. rewrite Rv, DR in Ru. rewrite Cv, DC in Cu. rewrite Ru, Cu in Hu.
      repeat split; try assumption. intros Y X HY HX. rewrite Hu by assumption.
      apply lsum_plain_block. }
  destruct (Hstd (sI s) HI) as (tI & EtI & RtI & CtI & HtI).
  destruct (Hstd (sQ s) HQ) as (tQ & EtQ & RtQ & CtQ & HtQ).
  destruct (Hstd (sU s) HU) as (tU & EtU & RtU & CtU & HtU).
  exists t, tI, tQ, tU. repeat (split; [assumption|]).
  set (h := rows d / (2 * b)) in *. set (w := cols d / (2 * b)) in *.
  assert (Hbh : b * h <= rows d / 2).
  { rewrite <- DR. apply Z.mul_div_le. clear - Hb; lia. }
  assert (Hbw : b * w <= cols d / 2).
  { rewrite <- DC. apply Z.mul_div_le. clear - Hb; lia. }
  destruct Hd as ((R0 & R45 & Rm45 & R90 & _) & _).
  assert (Hin : forall n N Y y, b * n <= N -> 0 <= Y < n -> 0 <= y < b -> 0 <= b * Y + y < N).
  { clear - Hb. intros n N Y y HN HY Hy. nia. }
  clearbody h w. clear DR DC E.
  destruct TI as [TI1 TI2], TQ as [TQ1 TQ2], TU as [TU1 TU2].
  split; [|split]; (split; [congruence|]; split; [congruence|]);
    [rewrite TI1, TI2|rewrite TQ1, TQ2|rewrite TU1, TU2]; intros Y X HY HX;
    destruct (Htc Y X HY HX) as (EI & EQ & EU);
    [rewrite EI, HtI by assumption|rewrite EQ, HtQ by assumption|rewrite EU, HtU by assumption];
    cbn [nadd nmul nsub nhalf Num_R]; rewrite !Hsm by (assumption || (clear; lia)).
  - rewrite <- !rsum2_plus, <- rsum2_scal. apply rsum2_ext. intros y x Hy Hx.
    destruct (Hsc (b * Y + y) (b * X + x)) as (-> & _ & _); [eauto|eauto|reflexivity].
  - replace (rsum2 b b (fun y x => sample d (p0 a) (b * Y + y) (b * X + x)) -
             rsum2 b b (fun y x => sample d (p90 a) (b * Y + y) (b * X + x)))%R
      with (rsum2 b b (fun y x => sample d (p0 a) (b * Y + y) (b * X + x)) +
            (-1) * rsum2 b b (fun y x => sample d (p90 a) (b * Y + y) (b * X + x)))%R by lra.
    rewrite <- rsum2_scal, <- rsum2_plus. apply rsum2_ext. intros y x Hy Hx.
    destruct (Hsc (b * Y + y) (b * X + x)) as (_ & -> & _); [eauto|eauto|].
    cbn [nsub Num_R]. lra.
  - replace (rsum2 b b (fun y x => sample d (p45 a) (b * Y + y) (b * X + x)) -
             rsum2 b b (fun y x => sample d (pm45 a) (b * Y + y) (b * X + x)))%R
      with (rsum2 b b (fun y x => sample d (p45 a) (b * Y + y) (b * X + x)) +
            (-1) * rsum2 b b (fun y x => sample d (pm45 a) (b * Y + y) (b * X + x)))%R by lra.
    rewrite <- rsum2_scal, <- rsum2_plus. apply rsum2_ext. intros y x Hy Hx.
    destruct (Hsc (b * Y + y) (b * X + x)) as (_ & _ & ->); [eauto|eauto|].
    cbn [nsub Num_R]. lra.
Qed.
