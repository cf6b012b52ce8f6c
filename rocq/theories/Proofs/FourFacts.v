(** A binary64 number added to itself three times, one addition after the other, gives exactly four times that number. *)
From Coq Require Import ZArith Reals Lra Lia Floats.SpecFloat.
From Flocq Require Import Core Relative BinarySingleNaN.
From Verif Require Import Base.Base Base.Num Spec.AngleSpec Spec.FloatSpec Proofs.FloatFacts Proofs.ExactFacts Proofs.RoundFacts.
Local Open Scope R_scope.

#[local] Existing Instance Hprec.
#[local] Existing Instance Hmax.
#[local] Existing Instance fexp64_valid.
#[local] Existing Instance fexp64_mono.

Ltac powers :=
  repeat match goal with
  | H : context [(2 ^ ?k)%Z] |- _ => let v := eval vm_compute in (2 ^ k)%Z in change (2 ^ k)%Z with v in H
  | |- context [(2 ^ ?k)%Z] => let v := eval vm_compute in (2 ^ k)%Z in change (2 ^ k)%Z with v
  end.

Lemma nearest_half (n : Z) : Z.even n = true -> ZnearestE (IZR n + / 2) = n /\ ZnearestE (IZR n - / 2) = n.
Proof.
  intros He. unfold Znearest. split.
  - assert (F : Zfloor (IZR n + / 2) = n) by (apply Zfloor_imp; rewrite plus_IZR; lra). rewrite F.
    rewrite Rcompare_Eq by lra. rewrite He. reflexivity.
  - assert (F : Zfloor (IZR n - / 2) = (n - 1)%Z) by (apply Zfloor_imp; rewrite plus_IZR, minus_IZR; lra). rewrite F.
    rewrite Rcompare_Eq by (rewrite minus_IZR; lra). rewrite Z.even_sub, He. cbn.
    apply Zceil_imp. rewrite minus_IZR. lra.
Qed.

Lemma fexp_max g : fexp64 g = Z.max (g - 53) (-1074).
Proof. unfold SpecFloat.fexp, SpecFloat.emin. lia. Qed.
Lemma double_fmt c : generic_format radix2 fexp64 c -> generic_format radix2 fexp64 (2 * c).
Proof.
  intros F. destruct (Req_dec c 0) as [->|Hz]; [rewrite Rmult_0_r; apply generic_format_0|].
  rewrite F. unfold F2R. cbn [Fnum Fexp]. set (M := Ztrunc _). set (e := cexp radix2 fexp64 c).
  replace (2 * (IZR M * bpow radix2 e)) with (F2R (Float radix2 M (e + 1))) by (unfold F2R; cbn [Fnum Fexp]; rewrite bpow_plus; change (bpow radix2 1) with 2; ring).
  apply generic_format_F2R. intros HM. unfold cexp.
  assert (E : F2R (Float radix2 M (e + 1)) = c * bpow radix2 1).
  { rewrite F. unfold F2R. cbn [Fnum Fexp]. fold M. fold e. rewrite bpow_plus. ring. }
  rewrite E, mag_mult_bpow by exact Hz. unfold e, cexp. rewrite !fexp_max. lia.
Qed.
Lemma four_fmt c : generic_format radix2 fexp64 c -> generic_format radix2 fexp64 (4 * c).
Proof. intros F. replace (4 * c) with (2 * (2 * c)) by ring. apply double_fmt, double_fmt, F. Qed.

Lemma four_sum_pos c : generic_format radix2 fexp64 c -> 0 < c -> rnd (rnd (3 * c) + c) = 4 * c.
Proof.
  intros F H. set (g := (mag radix2 c : Z)). set (e := cexp radix2 fexp64 c). set (M := Ztrunc (scaled_mantissa radix2 fexp64 c)).
  assert (Ec : c = IZR M * bpow radix2 e) by (rewrite F at 1; reflexivity).
  assert (Ee : e = Z.max (g - 53) (-1074)) by (unfold e, cexp; apply fexp_max).
  pose proof (bpow_mag_le radix2 c ltac:(lra)) as L. pose proof (bpow_mag_gt radix2 c) as G. fold g in L, G. rewrite Rabs_pos_eq in L, G by lra.
  assert (B1 : bpow radix2 g = 2 * bpow radix2 (g - 1)).
  { replace g with (1 + (g - 1))%Z at 1 by lia. rewrite bpow_plus. reflexivity. }
  assert (B2 : bpow radix2 (g + 2) = 4 * bpow radix2 g) by (rewrite bpow_plus; change (bpow radix2 2) with 4; ring).
  set (g3 := (mag radix2 (3 * c) : Z)).
  assert (L3 : (g < g3)%Z) by (apply mag_gt_bpow; rewrite Rabs_pos_eq by lra; lra).
  assert (G3 : (g3 <= g + 2)%Z) by (apply mag_le_bpow; [lra|rewrite Rabs_pos_eq by lra; lra]).
  set (e3 := cexp radix2 fexp64 (3 * c)). assert (E3 : e3 = Z.max (g3 - 53) (-1074)) by (unfold e3, cexp; apply fexp_max).
  set (j := (e3 - e)%Z). assert (Hj : (0 <= j <= 2)%Z) by lia.
  set (N := ZnearestE (scaled_mantissa radix2 fexp64 (3 * c))).
  assert (P : forall k, bpow radix2 (e + k) = bpow radix2 e * bpow radix2 k) by (intros k; apply bpow_plus).
  assert (EN : rnd (3 * c) = IZR N * bpow radix2 (e + j)).
  { unfold round, F2R. cbn [Fnum Fexp]. fold N. fold e3. replace e3 with (e + j)%Z by lia. reflexivity. }
  assert (Sm : scaled_mantissa radix2 fexp64 (3 * c) = IZR (3 * M) * bpow radix2 (- j)).
  { unfold scaled_mantissa. fold e3. rewrite Ec, mult_IZR. replace (- e3)%Z with (- e + - j)%Z by lia. rewrite bpow_plus.
    replace (3 * (IZR M * bpow radix2 e) * (bpow radix2 (- e) * bpow radix2 (- j))) with (3 * IZR M * bpow radix2 (- j) * (bpow radix2 e * bpow radix2 (- e))) by ring.
    rewrite <- bpow_plus. replace (e + - e)%Z with 0%Z by lia. cbn [bpow]. ring. }
  pose proof (Znearest_half (fun t => negb (Z.even t)) (scaled_mantissa radix2 fexp64 (3 * c))) as Hh. fold N in Hh. rewrite Sm in Hh.
  set (d := (3 * M - N * 2 ^ j)%Z).
  assert (Pj : bpow radix2 j = IZR (2 ^ j)) by (symmetry; apply (IZR_Zpower radix2); lia).
  assert (Dj : (2 * Z.abs d <= 2 ^ j)%Z).
  { apply le_IZR. rewrite mult_IZR, abs_IZR. unfold d. rewrite minus_IZR, (mult_IZR N).
    replace (IZR (3 * M) - IZR N * IZR (2 ^ j)) with ((IZR (3 * M) * bpow radix2 (- j) - IZR N) * bpow radix2 j).
    - rewrite Rabs_mult, (Rabs_pos_eq (bpow radix2 j)) by apply bpow_ge_0. rewrite <- Pj.
      pose proof (Rmult_le_compat_r (bpow radix2 j) _ _ (bpow_ge_0 radix2 j) Hh). lra.
    - rewrite Pj. replace ((IZR (3 * M) * bpow radix2 (- j) - IZR N) * IZR (2 ^ j)) with (IZR (3 * M) * (bpow radix2 (- j) * bpow radix2 j) - IZR N * IZR (2 ^ j)) by (rewrite <- Pj; ring).
      rewrite <- bpow_plus. replace (- j + j)%Z with 0%Z by lia. cbn [bpow]. ring. }
  assert (EV : rnd (3 * c) + c = IZR (4 * M - d) * bpow radix2 e).
  { rewrite EN, P, Pj. rewrite Ec at 1. unfold d. replace (4 * M - (3 * M - N * 2 ^ j))%Z with (M + N * 2 ^ j)%Z by lia. rewrite plus_IZR, (mult_IZR N). ring. }
  destruct (Z.eq_dec d 0) as [D0|D0].
  { rewrite EV, D0. replace (4 * M - 0)%Z with (4 * M)%Z by lia. rewrite mult_IZR, Rmult_assoc, <- Ec. apply round_generic; [typeclasses eauto|apply four_fmt, F]. }
  assert (J : j = 1%Z \/ j = 2%Z).
  { destruct (Z.eq_dec j 0) as [J0|J0]; [rewrite J0 in Dj; change (2 ^ 0)%Z with 1%Z in Dj; exfalso; lia|lia]. }
  set (p := (g - e)%Z). assert (Hp : (p = 52 \/ p = 53)%Z) by lia.
  assert (Pp : forall k, (0 <= k)%Z -> bpow radix2 (e + k) = IZR (2 ^ k) * bpow radix2 e).
  { intros k Hk. rewrite P. change (2 ^ k)%Z with (radix2 ^ k)%Z. rewrite (IZR_Zpower radix2 k Hk). ring. }
  assert (M1 : (2 ^ (p - 1) <= M)%Z).
  { apply le_IZR. apply Rmult_le_reg_r with (bpow radix2 e); [apply bpow_gt_0|]. rewrite <- Ec, <- Pp by lia. replace (e + (p - 1))%Z with (g - 1)%Z by lia. exact L. }
  assert (M2 : (M < 2 ^ p)%Z).
  { apply lt_IZR. apply Rmult_lt_reg_r with (bpow radix2 e); [apply bpow_gt_0|]. rewrite <- Ec, <- Pp by lia. replace (e + p)%Z with g by lia. exact G. }
  assert (D2 : (Z.abs d <= 2)%Z) by (destruct J as [Ej|Ej]; rewrite Ej in Dj; [change (2 ^ 1)%Z with 2%Z in Dj|change (2 ^ 2)%Z with 4%Z in Dj]; lia).
  assert (Dd : (3 * M = N * 2 ^ j + d)%Z) by (unfold d; lia). clearbody d.
  assert (M3 : (2 ^ (p - 1) < M)%Z).
  { destruct (Z.eq_dec M (2 ^ (p - 1))) as [EM|EM]; [exfalso|lia]. rewrite EM in Dd. clear - Dd Dj D0 Hp J.
    destruct Hp as [Ep|Ep], J as [Ej|Ej]; rewrite Ep, Ej in Dd; rewrite Ej in Dj; clear Ep Ej; powers; lia. }
  assert (W1 : (2 ^ (p + 1) <= 4 * M - d)%Z) by (clear - Hp M1 M2 M3 D2; destruct Hp as [Ep|Ep]; rewrite Ep in *; clear Ep; powers; lia).
  assert (W2 : (4 * M - d < 2 ^ (p + 2))%Z) by (clear - Hp M1 M2 M3 D2; destruct Hp as [Ep|Ep]; rewrite Ep in *; clear Ep; powers; lia).
  assert (Mv : (mag radix2 (IZR (4 * M - d) * bpow radix2 e) : Z) = (g + 2)%Z).
  { apply mag_unique_pos. replace (g + 2 - 1)%Z with (e + (p + 1))%Z by lia. replace (g + 2)%Z with (e + (p + 2))%Z by lia. rewrite !Pp by lia.
    split; [apply Rmult_le_compat_r; [apply bpow_ge_0|apply IZR_le, W1]|apply Rmult_lt_compat_r; [apply bpow_gt_0|apply IZR_lt, W2]]. }
  rewrite EV. unfold round, F2R. cbn [Fnum Fexp]. unfold scaled_mantissa, cexp. rewrite Mv, fexp_max.
  set (i := (Z.max (g + 2 - 53) (-1074) - e)%Z). replace (Z.max (g + 2 - 53) (-1074)) with (e + i)%Z by lia.
  assert (Hi : (i = 1 /\ j = 1 \/ i = 2)%Z) by lia.
  assert (Sv : IZR (4 * M - d) * bpow radix2 e * bpow radix2 (- (e + i)) = IZR (4 * M - d) * bpow radix2 (- i)).
  { replace (- (e + i))%Z with (- e + - i)%Z by lia. rewrite bpow_plus. rewrite Rmult_assoc, <- (Rmult_assoc (bpow radix2 e)), <- (bpow_plus radix2 e).
    replace (e + - e)%Z with 0%Z by lia. cbn [bpow]. ring. }
  rewrite Sv, Ec. clear - Hi J Dj Dd D0 P. destruct Hi as [(-> & Ej)| ->].
  - rewrite Ej in Dj. change (2 ^ 1)%Z with 2%Z in Dj.
    assert (E : ZnearestE (IZR (4 * M - d) * bpow radix2 (- (1))) = (2 * M)%Z).
    { change (bpow radix2 (- (1))) with (/ 2). assert (He : Z.even (2 * M) = true) by (rewrite Z.even_mul; reflexivity). destruct (nearest_half _ He) as (H1 & H2).
      assert (Hd : d = 1%Z \/ d = (-1)%Z) by lia. destruct Hd as [-> | ->].
      - replace (IZR (4 * M - 1) * / 2) with (IZR (2 * M) - / 2) by (rewrite minus_IZR, !mult_IZR; lra). exact H2.
      - replace (IZR (4 * M - -1) * / 2) with (IZR (2 * M) + / 2) by (rewrite minus_IZR, !mult_IZR; lra). exact H1. }
    rewrite E, P, mult_IZR. change (bpow radix2 1) with 2. ring.
  - assert (E : ZnearestE (IZR (4 * M - d) * bpow radix2 (- (2))) = M).
    { change (bpow radix2 (- (2))) with (/ 4).
      assert (Hd : (Z.abs d <= 1 \/ Z.abs d = 2 /\ j = 2)%Z).
      { destruct J as [Ej|Ej]; rewrite Ej in *; [change (2 ^ 1)%Z with 2%Z in Dj|change (2 ^ 2)%Z with 4%Z in Dj]; lia. }
      destruct Hd as [Hd|(Hd & Ej)].
      - apply Znearest_imp. replace (IZR (4 * M - d) * / 4 - IZR M) with (- (IZR d * / 4)) by (rewrite minus_IZR, mult_IZR; lra).
        rewrite Rabs_Ropp, Rabs_mult, <- abs_IZR, (Rabs_pos_eq (/ 4)) by lra. apply IZR_le in Hd. lra.
      - rewrite Ej in Dd. change (2 ^ 2)%Z with 4%Z in Dd.
        assert (He : Z.even M = true).
        { rewrite <- Z.negb_odd. destruct (Z.odd M) eqn:O; [|reflexivity]. exfalso. apply Z.odd_spec in O as (k & O). lia. }
        destruct (nearest_half _ He) as (H1 & H2). assert (Hd2 : d = 2%Z \/ d = (-2)%Z) by lia. destruct Hd2 as [-> | ->].
        + replace (IZR (4 * M - 2) * / 4) with (IZR M - / 2) by (rewrite minus_IZR, mult_IZR; lra). exact H2.
        + replace (IZR (4 * M - -2) * / 4) with (IZR M + / 2) by (rewrite minus_IZR, mult_IZR; lra). exact H1. }
    rewrite E, P. change (bpow radix2 2) with 4. ring.
Qed.
Lemma four_sum c : generic_format radix2 fexp64 c -> rnd (rnd (rnd (c + c) + c) + c) = 4 * c.
Proof.
  intros F. replace (c + c) with (2 * c) by ring. rewrite (round_generic radix2 fexp64 ZnearestE (2 * c)) by (apply double_fmt, F).
  replace (2 * c + c) with (3 * c) by ring. destruct (Rtotal_order c 0) as [H|[->|H]].
  - replace (3 * c) with (- (3 * - c)) by ring. rewrite rnd_opp. replace (- rnd (3 * - c) + c) with (- (rnd (3 * - c) + - c)) by ring. rewrite rnd_opp.
    rewrite four_sum_pos; [ring|apply generic_format_opp, F|lra].
  - rewrite !Rmult_0_r, round_0 by typeclasses eauto. rewrite Rplus_0_r, round_0 by typeclasses eauto. reflexivity.
  - apply four_sum_pos; assumption.
Qed.

(** The mean of four equal numbers, as computed by the IFOV correction. *)
Lemma mean_same x y z t c : is_value x c -> is_value y c -> is_value z c -> is_value t c -> 4 * Rabs c <= bpow radix2 1020 ->
  is_value (nquart *! (((x +! y) +! z) +! t)) c.
Proof.
  intros Vx Vy Vz Vt Hc. pose proof (value_fmt _ _ Vx) as F. pose proof (Rabs_pos c) as C0.
  assert (H0 : bpow radix2 1020 <= huge) by (apply bpow_le; lia).
  assert (E2 : rnd (c + c) = 2 * c) by (replace (c + c) with (2 * c) by ring; apply round_generic; [typeclasses eauto|apply double_fmt, F]).
  pose proof (four_sum c F) as E4. rewrite E2 in E4.
  assert (A2 : Rabs (c + c) <= huge) by (pose proof (Rabs_triang c c); lra).
  pose proof (add_value x y c c Vx Vy (rnd_huge _ A2)) as V2. rewrite E2 in V2.
  assert (A3 : Rabs (2 * c + c) <= huge) by (replace (2 * c + c) with (3 * c) by ring; rewrite Rabs_mult, (Rabs_pos_eq 3) by lra; lra).
  pose proof (add_value _ z _ c V2 Vz (rnd_huge _ A3)) as V3.
  assert (A4 : Rabs (rnd (rnd (2 * c + c) + c)) < top).
  { rewrite E4, Rabs_mult, (Rabs_pos_eq 4) by lra. apply Rle_lt_trans with (1 := Hc). apply bpow_lt. lia. }
  pose proof (add_value _ t _ c V3 Vt A4) as V4. rewrite E4 in V4.
  pose proof (fx_value _ _ _ _ quart_fx) as Vq.
  assert (Ec : rnd (1 / 4 * (4 * c)) = c) by (replace (1 / 4 * (4 * c)) with c by lra; apply round_generic; [typeclasses eauto|exact F]).
  pose proof (mul_value _ _ _ _ Vq V4) as V5. rewrite Ec in V5. apply V5. apply Rle_lt_trans with (bpow radix2 1020); [lra|apply bpow_lt; lia].
Qed.
