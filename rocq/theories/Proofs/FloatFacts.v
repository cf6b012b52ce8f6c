(** Angle normalisation on binary64 numbers: exactly the angles up to 2^61 are handled. *)
From Coq Require Import ZArith Reals Lra Lia Floats.SpecFloat.
From Flocq Require Import Core.Core IEEE754.BinarySingleNaN.
From Verif Require Import Base.Base Base.Num Base.BaseFacts Model.Angles Spec.Terminates Spec.AngleSpec
  Proofs.AngleFacts.
Local Open Scope R_scope.

Notation prec := 53%Z.
Notation emax := 1024%Z.
#[local] Instance Hprec : Prec_gt_0 prec. Proof. reflexivity. Qed.
#[local] Instance Hmax : Prec_lt_emax prec emax. Proof. reflexivity. Qed.
Notation bf := (binary_float prec emax).
Notation fexp64 := (SpecFloat.fexp prec emax).
Notation rnd := (round radix2 fexp64 ZnearestE).
#[local] Instance fexp64_valid : Valid_exp fexp64. Proof. apply fexp_correct. reflexivity. Qed.
#[local] Instance fexp64_mono : Monotone_exp fexp64. Proof. apply fexp_monotone. Qed.

(** ** The operations of the standard library are those of Flocq *)
Lemma nearest_even_equiv s m l : round_nearest_even m l = choice_mode mode_NE s m l.
Proof.
  destruct l as [|c]; [reflexivity|]. destruct c; try reflexivity.
  cbn. unfold Round.cond_incr. destruct (Z.even m); reflexivity.
Qed.
Lemma round_aux_equiv sx mx ex lx :
  SpecFloat.binary_round_aux prec emax sx mx ex lx = binary_round_aux prec emax mode_NE sx mx ex lx.
Proof.
  unfold SpecFloat.binary_round_aux, binary_round_aux.
  set (mrse' := shr_fexp _ _ _). destruct mrse' as [mrs' e']. cbn.
  rewrite (nearest_even_equiv sx). reflexivity.
Qed.
Lemma round_equiv s m e :
  SpecFloat.binary_round prec emax s m e = binary_round prec emax mode_NE s m e.
Proof.
  unfold SpecFloat.binary_round, binary_round, shl_align_fexp.
  set (mez := shl_align _ _ _). destruct mez as [mz ez]. apply round_aux_equiv.
Qed.
Lemma normalize_equiv m e szero :
  SpecFloat.binary_normalize prec emax m e szero = B2SF (binary_normalize prec emax Hprec Hmax mode_NE m e szero).
Proof.
  destruct m as [|p|p]; [reflexivity|..]; cbn; rewrite B2SF_SF2B; apply round_equiv.
Qed.
Lemma sub_equiv (x y : bf) : SFsub prec emax (B2SF x) (B2SF y) = B2SF (Bminus mode_NE x y).
Proof.
  destruct x as [sx|sx| |sx mx ex Bx], y as [sy|sy| |sy my ey By];
    try reflexivity; try (cbn; destruct (Bool.eqb _ _); reflexivity).
  cbn -[binary_normalize SpecFloat.binary_normalize]. rewrite normalize_equiv. f_equal. f_equal.
  unfold Fplus_naive. destruct sy; cbn; unfold Zminus; rewrite ?Z.opp_involutive; reflexivity.
Qed.
Lemma add_equiv (x y : bf) : SFadd prec emax (B2SF x) (B2SF y) = B2SF (Bplus mode_NE x y).
Proof.
  destruct x as [sx|sx| |sx mx ex Bx], y as [sy|sy| |sy my ey By];
    try reflexivity; try (cbn; destruct (Bool.eqb _ _); reflexivity).
  cbn -[binary_normalize SpecFloat.binary_normalize]. rewrite normalize_equiv. reflexivity.
Qed.

(** ** Constants *)
Definition b_ofZ (z : Z) : bf := binary_normalize prec emax Hprec Hmax mode_NE z 0 false.
Lemma ofZ_equiv z : b64_ofZ z = B2SF (b_ofZ z).
Proof. apply normalize_equiv. Qed.

Lemma fval_B2R (x : bf) : fval (B2SF x) = B2R x.
Proof.
  destruct x as [s|s| |s m e B]; try reflexivity. cbn [fval B2SF B2R]. unfold F2R. cbn [Fnum Fexp].
  rewrite bpow_powerRZ. cbn [radix_val radix2]. destruct s; cbn [cond_Zopp]; [|reflexivity].
  rewrite opp_IZR. reflexivity.
Qed.

Lemma const_finite z : is_finite_SF (b64_ofZ z) = true -> is_finite (b_ofZ z) = true.
Proof. rewrite ofZ_equiv, is_finite_SF_B2SF. auto. Qed.
Lemma p90 : B2R (b_ofZ 90) = 90 /\ is_finite (b_ofZ 90) = true.
Proof.
  split; [|apply const_finite; reflexivity]. rewrite <- fval_B2R, <- ofZ_equiv.
  change (b64_ofZ 90) with (S754_finite false 6333186975989760 (-46)). cbn [fval].
  rewrite <- (bpow_powerRZ radix2). cbn -[IZR]. lra.
Qed.
Lemma m90 : B2R (b_ofZ (-90)) = -90 /\ is_finite (b_ofZ (-90)) = true.
Proof.
  split; [|apply const_finite; reflexivity]. rewrite <- fval_B2R, <- ofZ_equiv.
  change (b64_ofZ (-90)) with (S754_finite true 6333186975989760 (-46)). cbn [fval].
  rewrite <- (bpow_powerRZ radix2). cbn -[IZR]. lra.
Qed.
Lemma p180 : B2R (b_ofZ 180) = 180 /\ is_finite (b_ofZ 180) = true.
Proof.
  split; [|apply const_finite; reflexivity]. rewrite <- fval_B2R, <- ofZ_equiv.
  change (b64_ofZ 180) with (S754_finite false 6333186975989760 (-45)). cbn [fval].
  rewrite <- (bpow_powerRZ radix2). cbn -[IZR]. lra.
Qed.

(** ** Rounding *)
Notation big := (bpow radix2 61).

Lemma fmt (x : bf) : generic_format radix2 fexp64 (B2R x).
Proof. apply generic_format_B2R. Qed.
Lemma fmt_bpow e : (-1000 <= e <= 1000)%Z -> generic_format radix2 fexp64 (bpow radix2 e).
Proof.
  intros He. apply generic_format_bpow. unfold SpecFloat.fexp, SpecFloat.emin. lia.
Qed.

Lemma rnd_error x : Rabs x < big -> Rabs (rnd x - x) <= 128.
Proof.
  intros Hx. apply Rle_trans with (/ 2 * ulp radix2 fexp64 x).
  - apply error_le_half_ulp. typeclasses eauto.
  - replace 128 with (/2 * bpow radix2 8) by (cbn; lra). apply Rmult_le_compat_l; [lra|].
    destruct (Req_dec x 0) as [->|Hnz].
    + unfold ulp. rewrite Req_bool_true by reflexivity. assert (E : exists n, negligible_exp fexp64 = Some n /\ (fexp64 n <= 8)%Z).
      { destruct (negligible_exp_spec' fexp64) as [[_ H]|(n & H1 & H2)].
        - exfalso. specialize (H (-2000)%Z). unfold SpecFloat.fexp, SpecFloat.emin in H. lia.
        - exists n. split; [exact H1|]. unfold SpecFloat.fexp, SpecFloat.emin in *. lia. }
      destruct E as (n & -> & Hn). apply bpow_le, Hn.
    + rewrite ulp_neq_0 by exact Hnz. apply bpow_le. unfold cexp.
      assert (Hm : (mag radix2 x <= 61)%Z) by (apply mag_le_bpow; assumption).
      unfold SpecFloat.fexp, SpecFloat.emin. lia.
Qed.

Lemma rnd_mono x y : x <= y -> rnd x <= rnd y.
Proof. apply round_le; typeclasses eauto. Qed.
Lemma rnd_id (x : bf) : rnd (B2R x) = B2R x.
Proof. apply round_generic; [typeclasses eauto|apply fmt]. Qed.
Lemma rnd_opp x : rnd (- x) = - rnd x.
Proof. apply round_NE_opp. Qed.

(** Beyond 2^61 the neighbours are at least 512 apart. *)
Lemma rnd_stuck (x : bf) : big < B2R x -> rnd (B2R x - 180) = B2R x.
Proof.
  intros Hx.
  assert (Hp : big <= pred radix2 fexp64 (B2R x))
    by (apply pred_ge_gt; [typeclasses eauto|apply fmt_bpow; lia|apply fmt|exact Hx]).
  assert (Hu : 512 <= ulp radix2 fexp64 (pred radix2 fexp64 (B2R x))).
  { assert (Hb : 0 < big) by apply bpow_gt_0.
    rewrite ulp_neq_0 by lra. replace 512 with (bpow radix2 9) by (cbn; lra). apply bpow_le. unfold cexp.
    assert (Hm : (62 <= mag radix2 (pred radix2 fexp64 (B2R x)))%Z).
    { apply mag_ge_bpow. rewrite Rabs_pos_eq by lra. exact Hp. }
    revert Hm. generalize (mag_val radix2 _ (mag radix2 (pred radix2 fexp64 (B2R x)))).
    intros m Hm. unfold SpecFloat.fexp, SpecFloat.emin. lia. }
  assert (Hs : pred radix2 fexp64 (B2R x) + ulp radix2 fexp64 (pred radix2 fexp64 (B2R x)) = B2R x).
  { rewrite <- succ_eq_pos by (pose proof (bpow_gt_0 radix2 61); lra). apply succ_pred; [typeclasses eauto|apply fmt]. }
  apply Rle_antisym.
  - rewrite <- (rnd_id x) at 2. apply rnd_mono. lra.
  - apply round_N_ge_midp; [typeclasses eauto|apply fmt|]. lra.
Qed.
Lemma rnd_stuck_neg (x : bf) : B2R x < - big -> rnd (B2R x + 180) = B2R x.
Proof.
  intros Hx. pose proof (rnd_stuck (Bopp x)) as H. rewrite B2R_Bopp in H.
  replace (B2R x + 180) with (- (- B2R x - 180)) by lra. rewrite rnd_opp, H by lra. lra.
Qed.

Lemma bf_bound (x : bf) : Rabs (B2R x) < bpow radix2 emax.
Proof. apply abs_B2R_lt_emax. Qed.

(** One step down and one step up. *)
Lemma bpow_small z : (Z.abs z < 2 ^ 61)%Z -> Rabs (IZR z) < bpow radix2 emax.
Proof.
  intros H. apply Rlt_trans with big; [|apply bpow_lt; lia].
  rewrite <- abs_IZR. change big with (IZR (2 ^ 61)). apply IZR_lt, H.
Qed.

Lemma step_down (x : bf) : is_finite x = true -> 90 < B2R x ->
  is_finite (Bminus mode_NE x (b_ofZ 180)) = true /\
  B2R (Bminus mode_NE x (b_ofZ 180)) = rnd (B2R x - 180) /\
  -90 <= B2R (Bminus mode_NE x (b_ofZ 180)) <= B2R x.
Proof.
  intros Fx Hx. destruct p180 as [E180 F180]. destruct m90 as [E90 _].
  pose proof (Bminus_correct prec emax Hprec Hmax mode_NE x (b_ofZ 180) Fx F180) as C. rewrite E180 in C.
  cbn [round_mode] in C.
  assert (L : -90 <= rnd (B2R x - 180)).
  { rewrite <- E90, <- (rnd_id (b_ofZ (-90))). apply rnd_mono. rewrite E90. lra. }
  assert (U : rnd (B2R x - 180) <= B2R x).
  { rewrite <- (rnd_id x) at 2. apply rnd_mono. lra. }
  rewrite Rlt_bool_true in C.
  - destruct C as (C1 & C2 & _). rewrite C1. auto.
  - pose proof (bf_bound x) as Hb. apply Rabs_def2 in Hb. apply Rabs_def1; [lra|].
    apply Rlt_le_trans with (-90); [|exact L]. rewrite <- E90.
    pose proof (bf_bound (b_ofZ (-90))) as Hb2. apply Rabs_def2 in Hb2. lra.
Qed.
Lemma step_up (x : bf) : is_finite x = true -> B2R x <= -90 ->
  is_finite (Bplus mode_NE x (b_ofZ 180)) = true /\
  B2R (Bplus mode_NE x (b_ofZ 180)) = rnd (B2R x + 180) /\
  B2R x <= B2R (Bplus mode_NE x (b_ofZ 180)) <= 90.
Proof.
  intros Fx Hx. destruct p180 as [E180 F180]. destruct p90 as [E90 _].
  pose proof (Bplus_correct prec emax Hprec Hmax mode_NE x (b_ofZ 180) Fx F180) as C. rewrite E180 in C.
  cbn [round_mode] in C.
  assert (U : rnd (B2R x + 180) <= 90).
  { rewrite <- E90, <- (rnd_id (b_ofZ 90)). apply rnd_mono. rewrite E90. lra. }
  assert (L : B2R x <= rnd (B2R x + 180)).
  { rewrite <- (rnd_id x) at 1. apply rnd_mono. lra. }
  rewrite Rlt_bool_true in C.
  - destruct C as (C1 & C2 & _). rewrite C1. auto.
  - pose proof (bf_bound x) as Hb. apply Rabs_def2 in Hb. apply Rabs_def1; [|lra].
    apply Rle_lt_trans with 90; [exact U|]. rewrite <- E90.
    pose proof (bf_bound (b_ofZ 90)) as Hb2. apply Rabs_def2 in Hb2. lra.
Qed.

Lemma gt90 (x : bf) : is_finite x = true ->
  @nltb b64 Num_b64 (nofZ 90) (B2SF x) = Rlt_bool 90 (B2R x).
Proof.
  intros Fx. cbn [nltb nofZ Num_b64]. rewrite ofZ_equiv. destruct p90 as [E F].
  rewrite <- E. apply (Bltb_correct prec emax (b_ofZ 90) x F Fx).
Qed.
Lemma le90 (x : bf) : is_finite x = true ->
  @nleb b64 Num_b64 (B2SF x) (nofZ (-90)) = Rle_bool (B2R x) (-90).
Proof.
  intros Fx. cbn [nleb nofZ Num_b64]. rewrite ofZ_equiv. destruct m90 as [E F].
  rewrite <- E. apply (Bleb_correct prec emax x (b_ofZ (-90)) Fx F).
Qed.

Notation cond1 := (fun angle => @nltb b64 Num_b64 (nofZ 90) angle).
Notation body1 := (fun angle => @nsub b64 Num_b64 angle (nofZ 180)).
Notation cond2 := (fun angle => @nleb b64 Num_b64 angle (nofZ (-90))).
Notation body2 := (fun angle => @nadd b64 Num_b64 angle (nofZ 180)).

Lemma body1_B (x : bf) : body1 (B2SF x) = B2SF (Bminus mode_NE x (b_ofZ 180)).
Proof. cbn [nsub nofZ Num_b64]. rewrite ofZ_equiv. apply sub_equiv. Qed.
Lemma body2_B (x : bf) : body2 (B2SF x) = B2SF (Bplus mode_NE x (b_ofZ 180)).
Proof. cbn [nadd nofZ Num_b64]. rewrite ofZ_equiv. apply add_equiv. Qed.

Lemma loop1 : forall n (x : bf), is_finite x = true -> B2R x <= 90 + INR n * 52 -> B2R x <= big ->
  exists y : bf, is_finite y = true /\ B2R y <= 90 /\ (B2R x <= 90 -> y = x) /\ (90 < B2R x -> -90 <= B2R y) /\
    forall fuel, (n <= fuel)%nat -> while_loop fuel cond1 body1 (B2SF x) = Ok (B2SF y).
Proof.
  induction n as [|n IH]; intros x Fx Hx Hbig.
  - cbn [INR] in Hx. exists x. repeat split; try assumption; try lra. intros fuel _.
    destruct fuel; cbn [while_loop]; rewrite gt90, Rlt_bool_false by (assumption || lra); reflexivity.
  - destruct (Rle_lt_dec (B2R x) 90) as [Hle|Hlt].
    + exists x. repeat split; try assumption; try lra. intros fuel _.
      destruct fuel; cbn [while_loop]; rewrite gt90, Rlt_bool_false by (assumption || lra); reflexivity.
    + destruct (step_down x Fx Hlt) as (F1 & E1 & B1). rewrite S_INR in Hx.
      set (x' := Bminus mode_NE x (b_ofZ 180)) in *.
      assert (Hstep : B2R x' <= B2R x - 52).
      { assert (He : Rabs (rnd (B2R x - 180) - (B2R x - 180)) <= 128).
        { apply rnd_error. apply Rabs_def1; [lra|]. pose proof (bpow_gt_0 radix2 61).
          assert (1000 <= big) by (change big with (IZR (2 ^ 61)); apply IZR_le; lia). lra. }
        rewrite <- E1 in He. apply Rabs_le_inv in He. lra. }
      destruct (IH x' F1) as (y & Fy & Y1 & Y2 & Y3 & Y4); [lra|lra|].
      exists y. split; [exact Fy|split; [exact Y1|split; [lra|split]]].
      * intros _. destruct (Rle_lt_dec (B2R x') 90) as [Hx'|Hx']; [rewrite Y2 by exact Hx'; lra|auto].
      * intros fuel Hf. destruct fuel as [|fuel]; [lia|]. cbn [while_loop].
        rewrite gt90, Rlt_bool_true by assumption. rewrite body1_B. apply Y4. lia.
Qed.

Lemma loop2 : forall n (x : bf), is_finite x = true -> -90 - INR n * 52 < B2R x -> - big <= B2R x -> B2R x <= 90 ->
  exists y : bf, is_finite y = true /\ -90 < B2R y <= 90 /\
    forall fuel, (n <= fuel)%nat -> while_loop fuel cond2 body2 (B2SF x) = Ok (B2SF y).
Proof.
  induction n as [|n IH]; intros x Fx Hx Hbig Hup.
  - cbn [INR] in Hx. exists x. split; [assumption|split; [lra|]]. intros fuel _.
    destruct fuel; cbn [while_loop]; rewrite le90, Rle_bool_false by (assumption || lra); reflexivity.
  - destruct (Rle_lt_dec (B2R x) (-90)) as [Hle|Hlt].
    + destruct (step_up x Fx Hle) as (F1 & E1 & B1). rewrite S_INR in Hx.
      set (x' := Bplus mode_NE x (b_ofZ 180)) in *.
      assert (Hstep : B2R x + 52 <= B2R x').
      { assert (He : Rabs (rnd (B2R x + 180) - (B2R x + 180)) <= 128).
        { apply rnd_error. assert (1000 <= big) by (change big with (IZR (2 ^ 61)); apply IZR_le; lia).
          apply Rabs_def1; lra. }
        rewrite <- E1 in He. apply Rabs_le_inv in He. lra. }
      destruct (IH x' F1) as (y & Fy & Y1 & Y4); [lra|lra|lra|].
      exists y. split; [exact Fy|split; [exact Y1|]].
      intros fuel Hf. destruct fuel as [|fuel]; [lia|]. cbn [while_loop].
      rewrite le90, Rle_bool_true by assumption. rewrite body2_B. apply Y4. lia.
    + exists x. split; [assumption|split; [lra|]]. intros fuel _.
      destruct fuel; cbn [while_loop]; rewrite le90, Rle_bool_false by (assumption || lra); reflexivity.
Qed.

Lemma normalize_float (x : bf) : is_finite x = true -> Rabs (B2R x) <= big ->
  exists (y : bf) n, is_finite y = true /\ -90 < B2R y <= 90 /\
    forall fuel, (n <= fuel)%nat -> normalize_angle fuel (B2SF x) = Ok (B2SF y).
Proof.
  intros Fx Hx. apply Rabs_le_inv in Hx.
  destruct (arch_bound ((B2R x - 90) / 52)) as [n1 Hn1].
  destruct (loop1 n1 x Fx) as (y & Fy & Y1 & Y2 & Y3 & Y4); [lra|lra|].
  assert (HB : 1000 <= big) by (change big with (IZR (2 ^ 61)); apply IZR_le; lia).
  assert (Hy : - big <= B2R y).
  { destruct (Rle_lt_dec (B2R x) 90) as [H|H]; [rewrite Y2 by exact H; lra|specialize (Y3 H); lra]. }
  destruct (arch_bound ((-90 - B2R y) / 52 + 1)) as [n2 Hn2].
  destruct (loop2 n2 y Fy) as (z & Fz & Z1 & Z2); [lra|lra|lra|].
  exists z, (Nat.max n1 n2). split; [exact Fz|split; [exact Z1|]].
  intros fuel Hf. unfold normalize_angle. rewrite Y4 by lia. cbn [bind]. apply Z2. lia.
Qed.

Lemma stuck_float (x : bf) : is_finite x = true -> big < Rabs (B2R x) ->
  forall fuel, normalize_angle fuel (B2SF x) = NoFuel.
Proof.
  intros Fx Hx fuel.
  assert (HB : 1000 <= big) by (change big with (IZR (2 ^ 61)); apply IZR_le; lia).
  destruct (Rle_lt_dec 0 (B2R x)) as [Hpos|Hneg].
  - rewrite Rabs_pos_eq in Hx by exact Hpos. unfold normalize_angle.
    rewrite (while_diverges (fun s => exists y : bf, s = B2SF y /\ is_finite y = true /\ B2R y = B2R x)); [reflexivity|exists x; auto|].
    intros s (y & -> & Fy & Ey). rewrite gt90, Rlt_bool_true by (assumption || lra). split; [reflexivity|].
    rewrite body1_B. destruct (step_down y Fy) as (F1 & E1 & _); [lra|].
    eexists. split; [reflexivity|split; [exact F1|]]. rewrite E1, rnd_stuck; lra.
  - rewrite Rabs_left in Hx by exact Hneg. unfold normalize_angle.
    assert (E : @while_loop b64 fuel cond1 body1 (B2SF x) = Ok (B2SF x)).
    { destruct fuel; cbn [while_loop]; rewrite gt90, Rlt_bool_false by (assumption || lra); reflexivity. }
    change (bind (@while_loop b64 fuel cond1 body1 (B2SF x)) (fun a => @while_loop b64 fuel cond2 body2 a) = NoFuel).
    rewrite E. cbn [bind].
    apply (while_diverges (fun s => exists y : bf, s = B2SF y /\ is_finite y = true /\ B2R y = B2R x)); [exists x; auto|].
    intros s (y & -> & Fy & Ey). rewrite le90, Rle_bool_true by (assumption || lra). split; [reflexivity|].
    rewrite body2_B. destruct (step_up y Fy) as (F1 & E1 & _); [lra|].
    eexists. split; [reflexivity|split; [exact F1|]]. rewrite E1, rnd_stuck_neg; lra.
Qed.

(** ** Statements over the numbers of the model *)
Lemma as_B (x : b64) : is_binary64 x -> exists b : bf, x = B2SF b.
Proof. intros H. exists (SF2B x H). symmetry. apply B2SF_SF2B. Qed.
Lemma finite_B (b : bf) : finite64 (B2SF b) <-> is_finite b = true.
Proof. destruct b; cbn; split; intros; try discriminate; try tauto. Qed.
Lemma big_val : big = 2305843009213693952.
Proof. reflexivity. Qed.

Lemma c42_returns (x : b64) : is_binary64 x -> finite64 x -> Rabs (fval x) <= 2305843009213693952 ->
  returns (fun fuel => normalize2pi fuel (AScalar x))
    (fun r => exists y, fst r = [y] /\ is_binary64 y /\ finite64 y /\ -90 < fval y <= 90).
Proof.
  intros Hv Hf Hx. destruct (as_B x Hv) as [b ->]. rewrite fval_B2R, <- big_val in Hx.
  apply finite_B in Hf. destruct (normalize_float b Hf Hx) as (y & n & Fy & Y & E).
  exists ([B2SF y], AScalar (B2SF b)). split.
  - exists (B2SF y). rewrite fval_B2R. split; [reflexivity|]. split; [apply valid_binary_B2SF|]. split; [apply finite_B, Fy|exact Y].
  - exists n. intros fuel Hfuel. cbn [normalize2pi normalize_items]. rewrite E by exact Hfuel. reflexivity.
Qed.
Lemma c42_never (x : b64) : is_binary64 x -> finite64 x -> 2305843009213693952 < Rabs (fval x) ->
  never_returns (fun fuel => normalize2pi fuel (AScalar x)).
Proof.
  intros Hv Hf Hx fuel. destruct (as_B x Hv) as [b ->]. rewrite fval_B2R, <- big_val in Hx.
  apply finite_B in Hf. cbn [normalize2pi normalize_items]. rewrite (stuck_float b Hf Hx). reflexivity.
Qed.
Lemma c42_inf s : never_returns (fun fuel => normalize2pi (A := b64) fuel (AScalar (S754_infinity s))).
Proof.
  intros fuel. cbn [normalize2pi normalize_items]. unfold normalize_angle. destruct s.
  - assert (E : @while_loop b64 fuel cond1 body1 (S754_infinity true) = Ok (S754_infinity true))
      by (destruct fuel; reflexivity).
    rewrite E. cbn [bind].
    rewrite (while_diverges (fun s => s = S754_infinity true)); [reflexivity|reflexivity|].
    intros s ->. split; reflexivity.
  - rewrite (while_diverges (fun s => s = S754_infinity false)); [reflexivity|reflexivity|].
    intros s ->. split; reflexivity.
Qed.
