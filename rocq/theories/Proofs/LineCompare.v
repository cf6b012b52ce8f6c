(** The comparison of two lengths by way of their binary64 quotient. *)
From Coq Require Import ZArith Reals Lra Lia Floats.SpecFloat.
From Flocq Require Import Core Relative BinarySingleNaN.
From Verif Require Import Base.Base Base.Num Spec.AngleSpec Spec.FloatSpec
  Proofs.FloatFacts Proofs.ExactFacts Proofs.RoundFacts Proofs.AnglesFloatFacts.
Local Open Scope Z_scope.

#[local] Existing Instance Hprec.
#[local] Existing Instance Hmax.
#[local] Existing Instance fexp64_valid.
#[local] Existing Instance fexp64_mono.

Lemma c64_comparison (dy dx : Z) : 0 < dx <= 2 ^ 52 -> 0 <= dy <= 2 ^ 52 ->
  nltb (@nofZ b64 _ 1) (nofZ dy /! nofZ dx) = (dx <? dy).
Proof.
  intros Hx Hy. assert (X0 : (0 < IZR dx)%R) by (apply (IZR_lt 0); lia).
  assert (Y0 : (0 <= IZR dy <= IZR (2 ^ 52))%R) by (split; apply IZR_le; lia).
  assert (X1 : (1 <= IZR dx <= IZR (2 ^ 52))%R) by (split; apply IZR_le; lia).
  assert (V : is_value (@nofZ b64 _ dy /! nofZ dx) (rnd (IZR dy / IZR dx))).
  { apply div_value; [apply ofZ_value; lia|apply ofZ_value; lia|lra|]. apply rnd_huge. rewrite Rabs_pos_eq by (apply Rmult_le_pos; [lra|apply Rlt_le, Rinv_0_lt_compat, X0]).
    apply Rle_trans with (IZR (2 ^ 52)).
    - apply (Rmult_le_reg_r (IZR dx)); [exact X0|]. replace (IZR dy / IZR dx * IZR dx)%R with (IZR dy) by (field; lra).
      apply Rle_trans with (IZR (2 ^ 52) * 1)%R; [lra|]. apply Rmult_le_compat_l; lra.
    - change (IZR (2 ^ 52)) with (bpow radix2 52). apply bpow_le. lia. }
  rewrite (ltb_value _ _ 1%R _ (ofZ_value 1 ltac:(lia)) V).
  assert (F1 : rnd 1 = 1%R) by (apply rnd_same; apply (value_fmt _ _ (ofZ_value 1 ltac:(lia)))).
  destruct (Z.ltb_spec dx dy) as [L|L].
  - apply Rlt_bool_true.
    set (s := (1 + bpow radix2 (-52))%R).
    assert (Fs : generic_format radix2 fexp64 s).
    { replace s with (fixed (2 ^ 52 + 1) 52); [apply fixed_fmt; lia|]. unfold s, fixed. rewrite plus_IZR, Rmult_plus_distr_r.
      change (IZR (2 ^ 52)) with (bpow radix2 52). rewrite <- bpow_plus.
      change (bpow radix2 (52 + - (52))) with 1%R. change (bpow radix2 (- (52))) with (bpow radix2 (-52)). lra. }
    assert (Ls : (s <= IZR dy / IZR dx)%R).
    { apply (Rmult_le_reg_r (IZR dx)); [exact X0|]. replace (IZR dy / IZR dx * IZR dx)%R with (IZR dy) by (field; lra).
      assert (D : (IZR dx + 1 <= IZR dy)%R) by (rewrite <- (plus_IZR dx 1); apply IZR_le; lia).
      assert (P : (bpow radix2 (-52) * IZR dx <= 1)%R).
      { apply Rle_trans with (bpow radix2 (-52) * bpow radix2 52)%R; [apply Rmult_le_compat_l; [apply bpow_ge_0|]; exact (proj2 X1)|].
        rewrite <- bpow_plus. change (bpow radix2 (-52 + 52)) with 1%R. lra. }
      unfold s. lra. }
    apply rnd_mono in Ls. rewrite (rnd_same s Fs) in Ls. apply Rlt_le_trans with (2 := Ls). unfold s. pose proof (bpow_gt_0 radix2 (-52)). lra.
  - apply Rlt_bool_false. rewrite <- F1. apply rnd_mono.
    apply (Rmult_le_reg_r (IZR dx)); [exact X0|]. replace (IZR dy / IZR dx * IZR dx)%R with (IZR dy) by (field; lra). rewrite Rmult_1_l. apply IZR_le, L.
Qed.
