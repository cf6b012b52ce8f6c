(** Lemmas in exactly the form of the property theorems of Properties/P_Mosaic.v. *)
From Coq Require Import ZifyBool Reals Lra QArith.
From Verif Require Import Base.Base Base.BaseFacts Base.Num Model.Demosaic Model.Ifov Model.Stokes
  Model.Rebin Model.Shift Spec.MosaicSpec Spec.SumSpec Spec.Terminates Proofs.DemosaicFacts
  Proofs.RebinFacts Proofs.RebinAlg Proofs.SumFacts Proofs.MosaicFacts Proofs.ShiftFacts
  Proofs.StokesFacts.
Local Open Scope Z_scope.
Ltac Zify.zify_post_hook ::= Z.div_mod_to_equations.

Section Any.
  Context {A : Type} `{Num A}.

  Lemma c01_split (d : arr A) :
    0 <= rows d -> 0 <= cols d ->
    (mosaic d ->
     exists q, split_polarizations d = Ok q /\
       forall k, 0 <= k < 4 ->
         rows (qnth q k) = rows d / 2 /\ cols (qnth q k) = cols d / 2 /\
         forall y x, 0 <= y < rows d / 2 -> 0 <= x < cols d / 2 ->
           cell (qnth q k) y x = cell d (2 * y + k / 2) (2 * x + k mod 2)) /\
    (~ mosaic d -> split_polarizations d = Raise ValueError).
  Proof.
    intros Hr Hc. split.
    - intros Hm. destruct (mosaic_wf d Hm) as (Hw & Er & Ec).
      destruct (split_spec d Hw Er Ec) as (q & E & Hq). exists q; split; [exact E|].
      intros k Hk. destruct (Hq k Hk) as (R & C & Hcell). repeat split; auto.
    - intros Hn. apply split_raise.
      destruct (Z.eq_dec (rows d mod 2) 0) as [E1|E1]; [|left; exact E1].
      destruct (Z.eq_dec (cols d mod 2) 0) as [E2|E2]; [|right; exact E2].
      exfalso. apply Hn. repeat split; assumption.
  Qed.

  Lemma c02_merge_split (d : arr A) :
    mosaic d -> exists q, split_polarizations d = Ok q /\ merge_polarizations q =a= d.
  Proof. intros Hm. destruct (mosaic_wf d Hm) as (Hw & Er & Ec). apply merge_split; assumption. Qed.

  Lemma c04_rebin (d : arr A) b :
    mosaic d -> 1 <= b ->
    returns (fun fuel => micropolarray_rebin fuel d b)
      (fun r => rows r = 2 * (rows d / (2 * b)) /\ cols r = 2 * (cols d / (2 * b)) /\
         forall Y X, 0 <= Y < rows r -> 0 <= X < cols r ->
           cell r Y X = lsum (family_block d b Y X)).
  Proof.
    intros Hm Hb. destruct (mosaic_wf d Hm) as (Hw & Er & Ec).
    destruct (rebin_spec d b _ Hw Hb Er Ec (le_n _)) as (r & E & P).
    exists r; split; [exact P|].
    exists (Z.to_nat (Z.max (rows d) (cols d))). intros fuel Hf.
    destruct (rebin_spec d b fuel Hw Hb Er Ec Hf) as (r' & E' & P').
    rewrite E'. f_equal.
    (* the loop does not depend on fuel once trimming has succeeded *)
    unfold micropolarray_rebin in E, E'.
    destruct Hw as [Hr Hc].
    rewrite trim2_ok in E by lia. rewrite trim2_ok in E' by lia.
    cbn [bind] in E, E'. congruence.
  Qed.

  Lemma c04_same_family (d : arr A) b Y X v :
    1 <= b -> In v (family_block d b Y X) ->
    exists y x, v = cell d y x /\ y mod 2 = Y mod 2 /\ x mod 2 = X mod 2 /\
      2 * b * (Y / 2) <= y < 2 * b * (Y / 2) + 2 * b /\
      2 * b * (X / 2) <= x < 2 * b * (X / 2) + 2 * b.
  Proof.
    intros Hb Hin. unfold family_block in Hin. apply in_map_iff in Hin.
    destruct Hin as ([i j] & <- & Hin). cbn [fst snd].
    apply in_prod_iff in Hin. destruct Hin as [Hi Hj].
    apply in_zrange in Hi. apply in_zrange in Hj.
    eexists; eexists; split; [reflexivity|].
    set (u := b * (Y / 2)). set (w := b * (X / 2)).
    replace (2 * b * (Y / 2)) with (2 * u) by (unfold u; ring).
    replace (2 * b * (X / 2)) with (2 * w) by (unfold w; ring).
    clearbody u w. lia.
  Qed.

  Lemma c09_rebin (d : arr A) b :
    0 <= rows d -> 0 <= cols d -> 1 <= b ->
    returns (fun fuel => standard_rebin fuel d b)
      (fun r => rows r = rows d / b /\ cols r = cols d / b /\
         forall Y X, 0 <= Y < rows r -> 0 <= X < cols r ->
           cell r Y X = lsum (plain_block d b Y X)).
  Proof.
    intros Hr Hc Hb. assert (Hw : wf d) by (split; assumption).
    destruct (std_rebin_spec d b _ Hw Hb (le_n _)) as (r & E & P).
    exists r; split; [exact P|].
    exists (Z.to_nat (Z.max (rows d) (cols d))). intros fuel Hf.
    destruct (std_rebin_spec d b fuel Hw Hb Hf) as (r' & E' & P').
    rewrite E'. f_equal. unfold standard_rebin in E, E'.
    rewrite trim_std_ok in E by lia. rewrite trim_std_ok in E' by lia.
    cbn [bind] in E, E'. congruence.
  Qed.

  Lemma c05_trim h w b :
    1 <= b -> 0 <= h -> 0 <= w -> h mod 2 = 0 -> w mod 2 = 0 ->
    returns (fun fuel => trim_to_match_2xbinning fuel h w b)
      (fun p => let '(nh, nw) := p in
         (0 <= nh <= h /\ nh mod (2 * b) = 0 /\ forall n, n <= h -> n mod (2 * b) = 0 -> n <= nh) /\
         (0 <= nw <= w /\ nw mod (2 * b) = 0 /\ forall n, n <= w -> n mod (2 * b) = 0 -> n <= nw)).
  Proof.
    intros Hb Hh Hw Eh Ew.
    exists (2 * b * (h / (2 * b)), 2 * b * (w / (2 * b))). split.
    - assert (G : forall n, 0 <= n ->
        0 <= 2 * b * (n / (2 * b)) <= n /\ (2 * b * (n / (2 * b))) mod (2 * b) = 0 /\
        forall m, m <= n -> m mod (2 * b) = 0 -> m <= 2 * b * (n / (2 * b))).
      { clear - Hb. intros n Hn.
        assert (0 <= n / (2 * b)) by (apply Z.div_pos; lia).
        pose proof (Z.mul_div_le n (2 * b) ltac:(lia)).
        split; [nia|]. split.
        - rewrite Z.mul_comm. apply Z.mod_mul. lia.
        - intros m Hm E. apply Z.div_exact in E; [|lia].
          rewrite E. apply Z.mul_le_mono_nonneg_l; [lia|]. apply Z.div_le_mono; lia. }
      split; apply G; assumption.
    - exists (Z.to_nat (Z.max h w)). intros fuel Hf. apply trim2_ok; assumption.
  Qed.

  Lemma c05_odd (d : arr A) b :
    1 <= b -> (rows d mod 2 = 1 \/ cols d mod 2 = 1) ->
    never_returns (fun fuel => micropolarray_rebin fuel d b).
  Proof.
    intros Hb Hodd fuel. unfold micropolarray_rebin. rewrite trim2_odd_any by assumption.
    reflexivity.
  Qed.

  Lemma c10_old (d : arr A) fuel b :
    micropolarray_jitrebin_old fuel d (rows d) (cols d) b = micropolarray_rebin fuel d b.
  Proof. reflexivity. Qed.

  Lemma c12_shift_micropol (d : arr A) y x m :
    mosaic d ->
    exists r, shift_micropol d y x m = Ok r /\
      exists r', shift d (2 * y) (2 * x) m = Ok r' /\ r =a= r'.
  Proof.
    intros Hm. destruct (mosaic_wf d Hm) as (Hw & Er & Ec).
    destruct (shift_micropol_spec d y x m Hw Er Ec) as (r & E & R & C & Hc).
    destruct (shift_spec d (2 * y) (2 * x) m) as (r' & E' & R' & C' & Hc').
    exists r; split; [exact E|]. exists r'; split; [exact E'|].
    split; [lia|]. split; [lia|]. intros j i Hj Hi. rewrite Hc, Hc' by lia. reflexivity.
  Qed.

  Lemma c12_roundtrip (d : arr A) y x m m' r :
    mosaic d -> shift_micropol d y x m = Ok r ->
    exists r', shift_micropol r (- y) (- x) m' = Ok r' /\
      rows r' = rows d /\ cols r' = cols d /\
      forall j i, 0 <= j < rows d -> 0 <= i < cols d ->
        0 <= j + 2 * y < rows d -> 0 <= i + 2 * x < cols d -> cell r' j i = cell d j i.
  Proof.
    intros Hm E. destruct (mosaic_wf d Hm) as (Hw & Er & Ec).
    destruct (shift_micropol_spec d y x m Hw Er Ec) as (r1 & E1 & R & C & Hc).
    rewrite E in E1. injection E1 as <-.
    destruct (shift_micropol_spec r (- y) (- x) m') as (r2 & E2 & R2 & C2 & Hc2).
    - destruct Hw; split; lia.
    - lia.
    - lia.
    - exists r2; split; [exact E2|]. split; [lia|]. split; [lia|].
      intros j i Hj Hi Hj' Hi'. rewrite Hc2 by lia.
      match goal with |- (if ?c then _ else _) = _ => replace c with true by lia end.
      rewrite Hc by lia.
      match goal with |- (if ?c then _ else _) = _ => replace c with true by lia end.
      f_equal; lia.
  Qed.

  Lemma c14_family0 (d : arr A) q y x :
    mosaic d -> demosaic d "adjacent" = Ok q ->
    0 <= y < rows d -> 0 <= x < cols d -> family y x = 0 ->
    cell (qnth q 0) y x = cell d y x.
  Proof.
    intros Hm E Hy Hx Hf. destruct (demosaic_adjacent_spec d Hm) as (q' & E' & Hq).
    rewrite E in E'. injection E' as <-.
    destruct (Hq 0 ltac:(lia)) as (_ & _ & Hc). rewrite Hc by assumption.
    unfold family in Hf. unfold interpolated, sample.
    replace (y mod 2 =? 0) with true by lia. replace (x mod 2 =? 0) with true by lia.
    f_equal; lia.
  Qed.

  (** What the pixel of family [k] receives instead of its own measurement. *)
  Lemma c14_actual (d : arr A) q k y x :
    mosaic d -> demosaic d "adjacent" = Ok q -> 0 <= k < 4 ->
    0 <= y < rows d -> 0 <= x < cols d -> family y x = k ->
    cell (qnth q k) y x =
      let Y' := 2 * next (rows d / 2) (y / 2) + y mod 2 in
      let X' := 2 * next (cols d / 2) (x / 2) + x mod 2 in
      if k =? 0 then cell d y x
      else if k =? 1 then nhalf *! (cell d y x +! cell d y X')
      else if k =? 2 then nhalf *! (cell d y x +! cell d Y' x)
      else (((cell d y x +! cell d Y' x) +! cell d y X') +! cell d Y' X') *! nquart.
  Proof.
    intros Hm E Hk Hy Hx Hf. destruct (demosaic_adjacent_spec d Hm) as (q' & E' & Hq).
    rewrite E in E'. injection E' as <-.
    destruct (Hq k Hk) as (_ & _ & Hc). rewrite Hc by assumption. clear Hc Hq E q.
    unfold family in Hf. unfold interpolated, sample.
    assert (E1 : k / 2 = y mod 2) by lia. assert (E2 : k mod 2 = x mod 2) by lia.
    rewrite E1, E2.
    set (Y' := next (rows d / 2) (y / 2)). set (X' := next (cols d / 2) (x / 2)).
    replace (2 * (y / 2) + y mod 2) with y by lia. replace (2 * (x / 2) + x mod 2) with x by lia.
    cbn zeta. rewrite <- Hf.
    assert (Dy : y mod 2 = 0 \/ y mod 2 = 1) by lia.
    assert (Dx : x mod 2 = 0 \/ x mod 2 = 1) by lia.
    destruct Dy as [-> | ->], Dx as [-> | ->]; reflexivity.
  Qed.
End Any.

Lemma c13_bounds (d : arr R) q k lo hi :
  mosaic d -> demosaic d "adjacent" = Ok q -> 0 <= k < 4 ->
  (forall Y X, 0 <= Y < rows d / 2 -> 0 <= X < cols d / 2 ->
     (lo <= sample d k Y X <= hi)%R) ->
  forall y x, 0 <= y < rows d -> 0 <= x < cols d -> (lo <= cell (qnth q k) y x <= hi)%R.
Proof.
  intros Hm E Hk Hb y x Hy Hx.
  destruct (demosaic_adjacent_spec d Hm) as (q' & E' & Hq).
  rewrite E in E'. injection E' as <-.
  destruct (Hq k Hk) as (_ & _ & Hc). rewrite Hc by assumption.
  destruct Hm as (Hr & Hcc & Er & Ec).
  unfold interpolated. set (Y := y / 2). set (X := x / 2).
  set (Y' := next (rows d / 2) Y). set (X' := next (cols d / 2) X).
  assert (HY : 0 <= Y < rows d / 2) by (unfold Y; lia).
  assert (HX : 0 <= X < cols d / 2) by (unfold X; lia).
  assert (HY' : 0 <= Y' < rows d / 2) by (unfold Y', next; lia).
  assert (HX' : 0 <= X' < cols d / 2) by (unfold X', next; lia).
  pose proof (Hb Y X HY HX). pose proof (Hb Y' X HY' HX).
  pose proof (Hb Y X' HY HX'). pose proof (Hb Y' X' HY' HX').
  cbn [nadd nmul nhalf nquart Num_R].
  destruct (y mod 2 =? 0), (x mod 2 =? 0); lra.
Qed.

Lemma c15_mean_sum (d : arr R) q k Y X :
  mosaic d -> demosaic d "mean" = Ok q -> 0 <= k < 4 ->
  0 <= Y < rows d / 2 -> 0 <= X < cols d / 2 ->
  (cell (qnth q k) (2 * Y) (2 * X) + cell (qnth q k) (2 * Y) (2 * X + 1) +
   cell (qnth q k) (2 * Y + 1) (2 * X) + cell (qnth q k) (2 * Y + 1) (2 * X + 1)
   = sample d k Y X)%R.
Proof.
  intros Hm E Hk HY HX. destruct (demosaic_mean_spec d Hm) as (q' & E' & Hq).
  rewrite E in E'. injection E' as <-.
  destruct (Hq k Hk) as (_ & _ & Hc). destruct Hm as (Hr & Hcc & Er & Ec).
  rewrite !Hc by lia.
  replace (2 * Y / 2) with Y by lia. replace (2 * X / 2) with X by lia.
  replace ((2 * Y + 1) / 2) with Y by lia. replace ((2 * X + 1) / 2) with X by lia.
  cbn [nmul nquart Num_R]. lra.
Qed.

Lemma c14_refuted : forall k, 1 <= k < 4 ->
  exists (d : arr R) q y x, mosaic d /\ demosaic d "adjacent" = Ok q /\
    0 <= y < rows d /\ 0 <= x < cols d /\ family y x = k /\
    cell (qnth q k) y x <> cell d y x.
Proof.
  intros k Hk.
  set (d := mkarr 4 4 (fun y x => IZR (4 * y + x))).
  assert (Hm : mosaic d) by (unfold d; repeat split; cbn [rows cols]; lia).
  destruct (demosaic_adjacent_spec d Hm) as (q & E & _).
  exists d, q, (k / 2), (k mod 2).
  assert (Hf : family (k / 2) (k mod 2) = k) by (unfold family; lia).
  repeat (split; [assumption || (unfold d; cbn [rows cols]; lia)|]).
  rewrite (c14_actual d q k) by (assumption || (unfold d; cbn [rows cols]; lia)).
  cbn [nadd nmul nhalf nquart Num_R].
  assert (D : k = 1 \/ k = 2 \/ k = 3) by lia.
  destruct D as [-> | [-> | ->]]; cbn -[Rmult Rplus IZR]; lra.
Qed.
