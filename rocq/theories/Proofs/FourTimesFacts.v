(** The binary64 sum of four equal numbers is four times the number. *)
From Coq Require Import ZArith Reals Lra Lia Floats.SpecFloat.
From Flocq Require Import Core Relative BinarySingleNaN.
From Verif Require Import Base.Base Base.Num Base.BaseFacts Model.Rebin Model.Stokes Model.Demodulate Model.DemodLoad Model.DemodTurn
  Spec.Terminates Spec.AngleSpec Spec.SumSpec Spec.FloatSpec Spec.LoadSpec Spec.BinFloatSpec
  Proofs.FloatFacts Proofs.ExactFacts Proofs.RoundFacts Proofs.RoundImages Proofs.LoadFacts Proofs.TurnFacts Proofs.BinFloatFacts.
Local Open Scope R_scope.

#[local] Existing Instance Hprec.
#[local] Existing Instance Hmax.
#[local] Existing Instance fexp64_valid.
#[local] Existing Instance fexp64_mono.

Lemma even_up m : Z.even m = true -> ZnearestE (IZR m + / 2) = m.
Proof.
  intros E. assert (F : Zfloor (IZR m + / 2) = m) by (apply Zfloor_imp; rewrite plus_IZR; lra).
  unfold Znearest. rewrite F, Rcompare_Eq by lra. rewrite E. reflexivity.
Qed.
Lemma even_down m : Z.even m = true -> ZnearestE (IZR m - / 2) = m.
Proof.
  intros E. assert (F : Zfloor (IZR m - / 2) = (m - 1)%Z) by (apply Zfloor_imp; rewrite plus_IZR, minus_IZR; lra).
  unfold Znearest. rewrite F, minus_IZR, Rcompare_Eq by lra. rewrite Z.even_sub, E. cbn [Z.even Bool.eqb negb].
  apply Zceil_imp. rewrite minus_IZR. lra.
Qed.

Lemma rnd_at (z j e : Z) : (2 ^ (52 + j) <= z < 2 ^ (53 + j))%Z -> (0 <= j)%Z -> (-1074 <= e)%Z ->
  rnd (IZR z * bpow radix2 e) = IZR (ZnearestE (IZR z * bpow radix2 (- j))) * bpow radix2 (e + j).
Proof.
  intros Hz Hj He. set (x := IZR z * bpow radix2 e).
  assert (P : forall n, (0 <= n)%Z -> IZR (2 ^ n) = bpow radix2 n) by (intros n Hn; destruct n; [reflexivity|reflexivity|lia]).
  assert (Z1 : bpow radix2 (52 + j) <= IZR z < bpow radix2 (53 + j)) by (rewrite <- !P by lia; split; [apply IZR_le|apply IZR_lt]; lia).
  assert (Z0 : 0 < IZR z) by (pose proof (bpow_gt_0 radix2 (52 + j)); lra). pose proof (bpow_gt_0 radix2 e) as Pe.
  assert (M : mag radix2 x = (53 + j + e)%Z :> Z).
  { apply mag_unique. unfold x. rewrite Rabs_pos_eq by (apply Rmult_le_pos; lra).
    replace (53 + j + e - 1)%Z with (52 + j + e)%Z by lia. rewrite !(bpow_plus radix2 _ e). split; [apply Rmult_le_compat_r; lra|apply Rmult_lt_compat_r; lra]. }
  assert (C : cexp radix2 fexp64 x = (e + j)%Z) by (unfold cexp; rewrite M; unfold SpecFloat.fexp, SpecFloat.emin; lia).
  unfold round, scaled_mantissa, F2R. rewrite C. cbn [Fnum Fexp]. f_equal. f_equal. f_equal. unfold x. rewrite Rmult_assoc, <- bpow_plus. f_equal. f_equal. lia.
Qed.
Lemma rnd_whole (z e : Z) : (Z.abs z < 2 ^ 53)%Z -> (-1074 <= e)%Z -> rnd (IZR z * bpow radix2 e) = IZR z * bpow radix2 e.
Proof.
  intros Hz He. apply round_generic; [typeclasses eauto|]. apply (generic_format_FLT radix2 (-1074) 53).
  exists (Float radix2 z e); [reflexivity|exact Hz|exact He].
Qed.

Lemma three_pos (m e : Z) : (0 <= m < 2 ^ 53)%Z -> (-1074 <= e)%Z ->
  rnd (rnd (IZR (3 * m) * bpow radix2 e) + IZR m * bpow radix2 e) = IZR m * bpow radix2 (e + 2).
Proof.
  intros Hm He. change (2 ^ 53)%Z with 9007199254740992%Z in Hm.
  assert (B1 : forall n, bpow radix2 (n + 1) = 2 * bpow radix2 n) by (intros n; rewrite bpow_plus; change (bpow radix2 1) with 2; ring).
  assert (B2 : forall n, bpow radix2 (n + 2) = 4 * bpow radix2 n) by (intros n; rewrite bpow_plus; change (bpow radix2 2) with 4; ring).
  destruct (Z_lt_le_dec (3 * m) (2 ^ 53)) as [A|A].
  { rewrite rnd_whole by lia. replace (IZR (3 * m) * bpow radix2 e + IZR m * bpow radix2 e) with (IZR m * bpow radix2 (e + 2)) by (rewrite mult_IZR, B2; ring).
    apply rnd_whole; lia. }
  change (2 ^ 53)%Z with 9007199254740992%Z in A.
  destruct (Z_lt_le_dec (3 * m) (2 ^ 54)) as [C|C].
  - change (2 ^ 54)%Z with 18014398509481984%Z in C.
    rewrite (rnd_at (3 * m) 1 e); [|change (2 ^ (52 + 1))%Z with 9007199254740992%Z; change (2 ^ (53 + 1))%Z with 18014398509481984%Z; lia|lia|lia].
    change (bpow radix2 (- (1))) with (/ 2). set (p := ZnearestE (IZR (3 * m) * / 2)).
    assert (Hp : (-1 <= 2 * p - 3 * m <= 1)%Z).
    { pose proof (Znearest_half (fun t => negb (Z.even t)) (IZR (3 * m) * / 2)) as Hh. fold p in Hh. apply Rabs_le_inv in Hh.
      split; apply le_IZR; rewrite !minus_IZR, !mult_IZR in *; lra. }
    assert (D : exists d, (2 * p = 3 * m + d /\ -1 <= d <= 1)%Z) by (exists (2 * p - 3 * m)%Z; lia). destruct D as (d & Ed & Hd). clearbody p. clear Hp.
    replace (IZR p * bpow radix2 (e + 1) + IZR m * bpow radix2 e) with (IZR (4 * m + d) * bpow radix2 e)
      by (replace (4 * m + d)%Z with (2 * p + m)%Z by lia; rewrite plus_IZR, mult_IZR, B1; ring).
    destruct (Z_lt_le_dec (4 * m + d) (2 ^ 54)) as [F|F]; change (2 ^ 54)%Z with 18014398509481984%Z in F.
    + rewrite (rnd_at (4 * m + d) 1 e); [|change (2 ^ (52 + 1))%Z with 9007199254740992%Z; change (2 ^ (53 + 1))%Z with 18014398509481984%Z; lia|lia|lia].
      change (bpow radix2 (- (1))) with (/ 2).
      assert (N : ZnearestE (IZR (4 * m + d) * / 2) = (2 * m)%Z).
      { assert (Ev : Z.even (2 * m) = true) by (rewrite Z.even_mul; reflexivity).
        assert (d = -1 \/ d = 0 \/ d = 1)%Z as [->|[->| ->]] by lia.
        - replace (IZR (4 * m + -1) * / 2) with (IZR (2 * m) - / 2) by (rewrite plus_IZR, !mult_IZR; lra). apply even_down. exact Ev.
        - replace (IZR (4 * m + 0) * / 2) with (IZR (2 * m)) by (rewrite plus_IZR, !mult_IZR; lra). apply Znearest_imp. rewrite Rminus_eq_0, Rabs_R0. lra.
        - replace (IZR (4 * m + 1) * / 2) with (IZR (2 * m) + / 2) by (rewrite plus_IZR, !mult_IZR; lra). apply even_up. exact Ev. }
      rewrite N, mult_IZR, B1, B2. ring.
    + rewrite (rnd_at (4 * m + d) 2 e); [|change (2 ^ (52 + 2))%Z with 18014398509481984%Z; change (2 ^ (53 + 2))%Z with 36028797018963968%Z; lia|lia|lia].
      change (bpow radix2 (- (2))) with (/ 4).
      assert (N : ZnearestE (IZR (4 * m + d) * / 4) = m).
      { apply Znearest_imp. apply Rabs_lt. destruct Hd as (G1 & G2). apply IZR_le in G1, G2. rewrite plus_IZR, mult_IZR. lra. }
      rewrite N. reflexivity.
  - change (2 ^ 54)%Z with 18014398509481984%Z in C.
    rewrite (rnd_at (3 * m) 2 e); [|change (2 ^ (52 + 2))%Z with 18014398509481984%Z; change (2 ^ (53 + 2))%Z with 36028797018963968%Z; lia|lia|lia].
    change (bpow radix2 (- (2))) with (/ 4). set (p := ZnearestE (IZR (3 * m) * / 4)).
    assert (Hp : (-2 <= 4 * p - 3 * m <= 2)%Z).
    { pose proof (Znearest_half (fun t => negb (Z.even t)) (IZR (3 * m) * / 4)) as Hh. fold p in Hh. apply Rabs_le_inv in Hh.
      split; apply le_IZR; rewrite !minus_IZR, !mult_IZR in *; lra. }
    assert (D : exists d, (4 * p = 3 * m + d /\ -2 <= d <= 2)%Z) by (exists (4 * p - 3 * m)%Z; lia). destruct D as (d & Ed & Hd). clearbody p. clear Hp.
    replace (IZR p * bpow radix2 (e + 2) + IZR m * bpow radix2 e) with (IZR (4 * m + d) * bpow radix2 e)
      by (replace (4 * m + d)%Z with (4 * p + m)%Z by lia; rewrite plus_IZR, mult_IZR, B2; ring).
    rewrite (rnd_at (4 * m + d) 2 e); [|change (2 ^ (52 + 2))%Z with 18014398509481984%Z; change (2 ^ (53 + 2))%Z with 36028797018963968%Z; lia|lia|lia].
    change (bpow radix2 (- (2))) with (/ 4).
    assert (N : ZnearestE (IZR (4 * m + d) * / 4) = m).
    { assert (d = -2 \/ d = 2 \/ -1 <= d <= 1)%Z as [->|[->|G]] by lia.
      - replace (IZR (4 * m + -2) * / 4) with (IZR m - / 2) by (rewrite plus_IZR, !mult_IZR; lra). apply even_down.
        apply Z.even_spec. exists (m / 2)%Z. clear - Ed. Z.to_euclidean_division_equations. lia.
      - replace (IZR (4 * m + 2) * / 4) with (IZR m + / 2) by (rewrite plus_IZR, !mult_IZR; lra). apply even_up.
        apply Z.even_spec. exists (m / 2)%Z. clear - Ed. Z.to_euclidean_division_equations. lia.
      - apply Znearest_imp. apply Rabs_lt. destruct G as (G1 & G2). apply IZR_le in G1, G2. rewrite plus_IZR, mult_IZR. lra. }
    rewrite N. reflexivity.
Qed.

Lemma four_times v : generic_format radix2 fexp64 v -> rnd (rnd (2 * v + v) + v) = 4 * v.
Proof.
  intros F. apply (FLT_format_generic radix2 (-1074) 53) in F. destruct F as [[m e] -> Hm He]. cbn [Fnum Fexp] in *. unfold F2R. cbn [Fnum Fexp].
  change (Zpower radix2 53) with (2 ^ 53)%Z in Hm.
  assert (B2 : bpow radix2 (e + 2) = 4 * bpow radix2 e) by (rewrite bpow_plus; change (bpow radix2 2) with 4; ring).
  destruct (Z_le_gt_dec 0 m) as [P|P].
  - pose proof (three_pos m e ltac:(lia) He) as T. rewrite mult_IZR, B2 in T.
    replace (2 * (IZR m * bpow radix2 e) + IZR m * bpow radix2 e) with (3 * IZR m * bpow radix2 e) by ring. rewrite T. ring.
  - pose proof (three_pos (- m) e ltac:(lia) He) as T. rewrite mult_IZR, opp_IZR, B2 in T.
    replace (2 * (IZR m * bpow radix2 e) + IZR m * bpow radix2 e) with (- (3 * - IZR m * bpow radix2 e)) by ring. rewrite rnd_opp.
    replace (- rnd (3 * - IZR m * bpow radix2 e) + IZR m * bpow radix2 e) with (- (rnd (3 * - IZR m * bpow radix2 e) + - IZR m * bpow radix2 e)) by ring.
    rewrite rnd_opp, T. ring.
Qed.

Lemma c155_pairs files (d d0 : demodulator b64) (v : b64) :
  (0 <= t_rows (mij d0))%Z -> (0 <= t_cols (mij d0))%Z -> load files = Ok d0 ->
  t_rows (mij d) = t_rows (mij d0) -> t_cols (mij d) = t_cols (mij d0) ->
  ((t_rows (mij d) / 2) mod 2 = 0)%Z -> ((t_cols (mij d) / 2) mod 2 = 0)%Z ->
  tensor_constant v (mij d0) -> is_binary64 v -> finite64 v -> Rabs (fval v) <= powerRZ 2 1019 ->
  returns (fun fuel => demod_rebin fuel files d 2)
    (fun d' => forall i j Y X, (0 <= i < 3)%Z -> (0 <= j < 4)%Z -> (0 <= Y < t_rows (mij d) / 2)%Z -> (0 <= X < t_cols (mij d) / 2)%Z ->
         is_value (t_cell (mij d') i j Y X) (fval v)).
Proof.
  rewrite power2. intros H1 H2 H4 H5 H6 H7 H8 Hm Bv Fv Hv.
  destruct (rebin_means files d d0 2 H1 H2 ltac:(lia) H4 H5 H6 H7 H8) as (d' & (_ & R1 & C1 & V) & n & E).
  exists d'. split; [|exists n; exact E]. intros i j Y X Hi Hj HY HX. rewrite V by assumption. rewrite H5 in HY. rewrite H6 in HX.
  unfold plain_block. change (list_prod (zrange 2) (zrange 2)) with [(0, 0); (0, 1); (1, 0); (1, 1)]%Z. cbn [map fst snd tslice cell].
  rewrite !Hm by (assumption || (apply in_block; lia)). unfold lsum. cbn [fold_left].
  assert (Vv : is_value v (fval v)) by (split; [exact Bv|split; [exact Fv|reflexivity]]). set (r := fval v) in *.
  pose proof (value_fmt _ _ Vv) as Fr. pose proof (sixteen _ Hv) as T. pose proof (bpow_lt radix2 1023 1024 ltac:(lia)) as Top.
  assert (Small : forall x, Rabs x <= huge -> Rabs x < bpow radix2 1024) by (intros x Hx; lra).
  pose proof (Rabs_pos r) as R0.
  assert (V0 : is_value (@n0 b64 _) 0) by (apply (fx_value 0 0); apply zero_fx; lia).
  pose proof (add_value _ _ 0 r V0 Vv) as S1. rewrite Rplus_0_l in S1. specialize (S1 (rnd_huge r ltac:(lra))). rewrite (round_generic radix2 fexp64 ZnearestE r Fr) in S1.
  assert (F2 : rnd (r + r) = 2 * r).
  { replace (r + r) with (2 * r) by ring. apply round_generic; [typeclasses eauto|].
    apply (FLT_format_generic radix2 (-1074) 53) in Fr. destruct Fr as [[m e] -> Fm Fe]. cbn [Fnum Fexp] in Fm, Fe.
    apply (generic_format_FLT radix2 (-1074) 53). exists (Float radix2 m (e + 1)); [|exact Fm|cbn [Fexp]; lia].
    unfold F2R. cbn [Fnum Fexp]. rewrite bpow_plus. change (bpow radix2 1) with 2. ring. }
  assert (A2 : Rabs (r + r) <= 2 * Rabs r) by (pose proof (Rabs_triang r r); lra).
  pose proof (add_value _ _ r r S1 Vv (rnd_huge (r + r) ltac:(lra))) as S2. rewrite F2 in S2.
  assert (A3 : Rabs (2 * r + r) <= 3 * Rabs r) by (replace (2 * r + r) with (3 * r) by ring; rewrite Rabs_mult, (Rabs_pos_eq 3) by lra; lra).
  pose proof (add_value _ _ (2 * r) r S2 Vv (rnd_huge (2 * r + r) ltac:(lra))) as S3.
  pose proof (four_times r Fr) as F4.
  assert (A4 : Rabs (4 * r) <= 4 * Rabs r) by (rewrite Rabs_mult, (Rabs_pos_eq 4) by lra; lra).
  pose proof (add_value _ _ (rnd (2 * r + r)) r S3 Vv) as S4. rewrite F4 in S4. specialize (S4 (Small (4 * r) ltac:(lra))).
  pose proof (div_value _ _ (4 * r) 4 S4 (ofZ_value 4 ltac:(lia)) ltac:(lra)) as S5.
  replace (4 * r / 4) with r in S5 by field. rewrite (round_generic radix2 fexp64 ZnearestE r Fr) in S5. apply S5. apply Small. lra.
Qed.

Lemma constant_loaded v n : exists d0, load (constant_files v n) = Ok d0 /\ t_rows (mij d0) = n /\ t_cols (mij d0) = n /\ tensor_constant v (mij d0).
Proof.
  set (c := mkcalibration (mktensor n n (fun _ _ _ _ => v)) (full n n v) (full n n v) (full n n v) (full n n v)).
  destruct (c27_roundtrip c [] (constant_files v n)) as (d0 & E & (R & C & V) & _).
  { rewrite app_nil_r. apply Permutation.Permutation_refl. }
  { vm_compute. repeat (constructor; [intro Hin; repeat (destruct Hin as [Hin|Hin]; [discriminate Hin|]); exact Hin|]). constructor. }
  { intros k f []. }
  exists d0. split; [exact E|]. split; [exact R|]. split; [exact C|]. intros i j Y X Hi Hj HY HX. rewrite R in HY. rewrite C in HX. apply (V i j Y X Hi Hj HY HX).
Qed.
Lemma tenths_loaded n : exists d0, load (tenth_files n) = Ok d0 /\ t_rows (mij d0) = n /\ t_cols (mij d0) = n /\ tensor_constant one_tenth (mij d0).
Proof. exact (constant_loaded one_tenth n). Qed.
Lemma c155_nine : exists d0 d', load (tenth_files 6) = Ok d0 /\ tensor_constant one_tenth (mij d0) /\
  demod_rebin 10 (tenth_files 6) d0 3 = Ok d' /\ t_rows (mij d') = 2%Z /\ t_cols (mij d') = 2%Z /\
  t_cell (mij d') 0 0 0 0 = S754_finite false 7205759403792793 (-56).
Proof.
  destruct (tenths_loaded 6) as (d0 & E & R & C & V).
  assert (L : match load (tenth_files 6) with
              | Ok d0 => match demod_rebin 10 (tenth_files 6) d0 3 with
                         | Ok d' => Some (t_rows (mij d'), t_cols (mij d'), t_cell (mij d') 0 0 0 0) | _ => None end
              | _ => None end = Some (2%Z, 2%Z, S754_finite false 7205759403792793 (-56))) by (vm_compute; reflexivity).
  rewrite E in L. destruct (demod_rebin 10 (tenth_files 6) d0 3) as [d'|e|] eqn:Er; try discriminate L. injection L as L1 L2 L3.
  exists d0, d'. split; [exact E|]. split; [exact V|]. split; [exact Er|]. split; [exact L1|]. split; [exact L2|exact L3].
Qed.
Lemma c155_sixteen : exists d0 d', load (tenth_files 8) = Ok d0 /\ tensor_constant one_tenth (mij d0) /\
  demod_rebin 10 (tenth_files 8) d0 4 = Ok d' /\ t_rows (mij d') = 2%Z /\ t_cols (mij d') = 2%Z /\
  t_cell (mij d') 0 0 0 0 = S754_finite false 7205759403792795 (-56).
Proof.
  destruct (tenths_loaded 8) as (d0 & E & R & C & V).
  assert (L : match load (tenth_files 8) with
              | Ok d0 => match demod_rebin 10 (tenth_files 8) d0 4 with
                         | Ok d' => Some (t_rows (mij d'), t_cols (mij d'), t_cell (mij d') 0 0 0 0) | _ => None end
              | _ => None end = Some (2%Z, 2%Z, S754_finite false 7205759403792795 (-56))) by (vm_compute; reflexivity).
  rewrite E in L. destruct (demod_rebin 10 (tenth_files 8) d0 4) as [d'|e|] eqn:Er; try discriminate L. injection L as L1 L2 L3.
  exists d0, d'. split; [exact E|]. split; [exact V|]. split; [exact Er|]. split; [exact L1|]. split; [exact L2|exact L3].
Qed.
Lemma tenth_bounded : is_binary64 one_tenth /\ finite64 one_tenth /\ Rabs (fval one_tenth) <= 1.
Proof. apply below_one; vm_compute; congruence. Qed.
Lemma one_below : 4 <= powerRZ 2 1019.
Proof. rewrite power2. exact (bpow_le radix2 2 1019 ltac:(discriminate)). Qed.
Lemma c155_tenths : exists d0, load (tenth_files 4) = Ok d0 /\ t_rows (mij d0) = 4%Z /\ t_cols (mij d0) = 4%Z /\
  tensor_constant one_tenth (mij d0) /\ tensor_bounded 1 (mij d0) /\
  is_binary64 one_tenth /\ finite64 one_tenth /\ Rabs (fval one_tenth) <= powerRZ 2 1019 /\
  (2 * 2 + 8 <= 2 ^ 52)%Z /\ IZR (2 * 2) * 1 <= powerRZ 2 1019.
Proof.
  destruct (tenths_loaded 4) as (d0 & E & R & C & V). destruct tenth_bounded as (B1 & B2 & B3). pose proof one_below.
  exists d0. split; [exact E|]. split; [exact R|]. split; [exact C|]. split; [exact V|]. split.
  - intros i j Y X Hi Hj HY HX. rewrite (V i j Y X Hi Hj HY HX). exact tenth_bounded.
  - split; [exact B1|]. split; [exact B2|]. split; [lra|]. split; [lia|]. change (IZR (2 * 2)) with 4. lra.
Qed.
