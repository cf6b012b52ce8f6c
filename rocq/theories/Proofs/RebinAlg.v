(** Algebra of binning: conservation, composition, commutation with splitting. *)
From Coq Require Import ZifyBool Reals Lra.
From Verif Require Import Base.Base Base.BaseFacts Base.Num Model.Demosaic Model.Rebin
  Spec.SumSpec Proofs.SumFacts Proofs.RebinFacts Proofs.DemosaicFacts.
Ltac Zify.zify_post_hook ::= idtac.
Local Ltac dlia := clear; intros; Z.div_mod_to_equations; lia.
Lemma half_bound Y h : 0 <= Y < 2 * h -> 0 <= Y / 2 < h. Proof. dlia. Qed.
Lemma mod2_bound Y : 0 <= Y mod 2 < 2. Proof. dlia. Qed.
Lemma half_double h : 2 * h / 2 = h. Proof. dlia. Qed.
Lemma double_mod h : 2 * h mod 2 = 0. Proof. dlia. Qed.
Lemma div2_pair Y p : 0 <= p < 2 -> (2 * Y + p) / 2 = Y. Proof. dlia. Qed.
Lemma mod2_pair Y p : 0 <= p < 2 -> (2 * Y + p) mod 2 = p. Proof. dlia. Qed.
Lemma k_half k : 0 <= k < 4 -> 0 <= k / 2 < 2. Proof. dlia. Qed.

Lemma rebin_conserves (d r : arr R) b fuel p q :
  wf d -> 1 <= b -> rows d mod 2 = 0 -> cols d mod 2 = 0 ->
  (0 <= p < 2) -> (0 <= q < 2) ->
  (Z.to_nat (Z.max (rows d) (cols d)) <= fuel)%nat ->
  micropolarray_rebin fuel d b = Ok r ->
  rsum2 (rows r / 2) (cols r / 2) (fun Y X => cell r (2 * Y + p) (2 * X + q)) =
  rsum2 (b * (rows d / (2 * b))) (b * (cols d / (2 * b)))
        (fun y x => cell d (2 * y + p) (2 * x + q)).
Proof.
  intros Hw Hb Er Ec Hp Hq Hf E.
  destruct (rebin_spec d b fuel Hw Hb Er Ec Hf) as (r' & E' & R & C & Hcell).
  rewrite E in E'. injection E' as <-.
  destruct Hw as [Hr Hc].
  assert (0 <= rows d / (2 * b)) by (apply Z.div_pos; lia).
  assert (0 <= cols d / (2 * b)) by (apply Z.div_pos; lia).
  rewrite R, C in *.
  set (h := rows d / (2 * b)) in *. set (w := cols d / (2 * b)) in *.
  rewrite !half_double.
  rewrite rsum2_group by lia. apply rsum2_ext. intros Y X HY HX.
  rewrite Hcell by lia. rewrite lsum_family_block.
  apply rsum2_ext. intros y x Hy Hx.
  rewrite !div2_pair, !mod2_pair by assumption.
  f_equal; ring.
Qed.

Lemma std_conserves (d r : arr R) b fuel :
  wf d -> 1 <= b -> (Z.to_nat (Z.max (rows d) (cols d)) <= fuel)%nat ->
  standard_rebin fuel d b = Ok r ->
  rsum2 (rows r) (cols r) (cell r) =
  rsum2 (b * (rows d / b)) (b * (cols d / b)) (cell d).
Proof.
  intros Hw Hb Hf E.
  destruct (std_rebin_spec d b fuel Hw Hb Hf) as (r' & E' & R & C & Hcell).
  rewrite E in E'. injection E' as <-.
  destruct Hw as [Hr Hc].
  assert (0 <= rows d / b) by (apply Z.div_pos; lia).
  assert (0 <= cols d / b) by (apply Z.div_pos; lia).
  rewrite rsum2_group by lia. rewrite R, C in *. apply rsum2_ext. intros Y X HY HX.
  rewrite Hcell by lia. apply lsum_plain_block.
Qed.

Lemma rebin_compose (d ra rb rab : arr R) a b f1 f2 f3 :
  wf d -> 1 <= a -> 1 <= b -> rows d mod 2 = 0 -> cols d mod 2 = 0 ->
  (Z.to_nat (Z.max (rows d) (cols d)) <= f1)%nat ->
  (Z.to_nat (Z.max (rows d) (cols d)) <= f2)%nat ->
  (Z.to_nat (Z.max (rows d) (cols d)) <= f3)%nat ->
  micropolarray_rebin f1 d a = Ok ra ->
  micropolarray_rebin f2 ra b = Ok rb ->
  micropolarray_rebin f3 d (a * b) = Ok rab ->
  rb =a= rab.
Proof.
  intros Hw Ha Hb Er Ec Hf1 Hf2 Hf3 E1 E2 E3.
  destruct (rebin_spec d a f1 Hw Ha Er Ec Hf1) as (r1 & E1' & R1 & C1 & H1).
  rewrite E1 in E1'. injection E1' as <-.
  destruct (rebin_spec d (a * b) f3 Hw ltac:(nia) Er Ec Hf3) as (r3 & E3' & R3 & C3 & H3).
  rewrite E3 in E3'. injection E3' as <-.
  destruct Hw as [Hr Hc].
  assert (Hda : 0 <= rows d / (2 * a)) by (apply Z.div_pos; lia).
  assert (Hca : 0 <= cols d / (2 * a)) by (apply Z.div_pos; lia).
  assert (Hle1 : 2 * (rows d / (2 * a)) <= rows d).
  { pose proof (Z.mul_div_le (rows d) (2 * a)). nia. }
  assert (Hle2 : 2 * (cols d / (2 * a)) <= cols d).
  { pose proof (Z.mul_div_le (cols d) (2 * a)). nia. }
  destruct (rebin_spec ra b f2) as (r2 & E2' & R2 & C2 & H2); try lia.
  { split; lia. }
  { rewrite R1. apply double_mod. }
  { rewrite C1. apply double_mod. }
  rewrite E2 in E2'. injection E2' as <-.
  assert (DR : rows ra / (2 * b) = rows d / (2 * (a * b))).
  { rewrite R1. rewrite Z.div_mul_cancel_l by lia. rewrite Z.div_div by lia. f_equal; ring. }
  assert (DC : cols ra / (2 * b) = cols d / (2 * (a * b))).
  { rewrite C1. rewrite Z.div_mul_cancel_l by lia. rewrite Z.div_div by lia. f_equal; ring. }
  split; [lia|]. split; [lia|].
  intros Y X HY HX. rewrite H2, H3 by lia. rewrite !lsum_family_block.
  set (p := Y mod 2). set (q := X mod 2).
  set (Y2 := Y / 2). set (X2 := X / 2).
  assert (Hp : 0 <= p < 2) by apply mod2_bound. assert (Hq : 0 <= q < 2) by apply mod2_bound.
  rewrite R2 in HY. rewrite C2 in HX.
  apply half_bound in HY. apply half_bound in HX. fold Y2 in HY. fold X2 in HX.
  assert (LY : Y2 + 1 <= rows ra / (2 * b)) by lia.
  assert (LX : X2 + 1 <= cols ra / (2 * b)) by lia.
  assert (BY : 2 * b * (Y2 + 1) <= rows ra).
  { apply Z.le_trans with (2 * b * (rows ra / (2 * b))); [nia|apply Z.mul_div_le; lia]. }
  assert (BX : 2 * b * (X2 + 1) <= cols ra).
  { apply Z.le_trans with (2 * b * (cols ra / (2 * b))); [nia|apply Z.mul_div_le; lia]. }
  rewrite rsum2_group by lia. apply rsum2_ext. intros y x Hy Hx.
  assert (0 <= b * Y2) by nia. assert (0 <= b * X2) by nia.
  rewrite H1 by lia. rewrite lsum_family_block. apply rsum2_ext. intros y' x' Hy' Hx'.
  replace (2 * b * Y2 + p + 2 * y) with (2 * (b * Y2 + y) + p) by ring.
  replace (2 * b * X2 + q + 2 * x) with (2 * (b * X2 + x) + q) by ring.
  rewrite !div2_pair, !mod2_pair by assumption.
  f_equal; ring.
Qed.

Lemma std_compose (d ra rb rab : arr R) a b f1 f2 f3 :
  wf d -> 1 <= a -> 1 <= b ->
  (Z.to_nat (Z.max (rows d) (cols d)) <= f1)%nat ->
  (Z.to_nat (Z.max (rows d) (cols d)) <= f2)%nat ->
  (Z.to_nat (Z.max (rows d) (cols d)) <= f3)%nat ->
  standard_rebin f1 d a = Ok ra ->
  standard_rebin f2 ra b = Ok rb ->
  standard_rebin f3 d (a * b) = Ok rab ->
  rb =a= rab.
Proof.
  intros Hw Ha Hb Hf1 Hf2 Hf3 E1 E2 E3.
  destruct (std_rebin_spec d a f1 Hw Ha Hf1) as (r1 & E1' & R1 & C1 & H1).
  rewrite E1 in E1'. injection E1' as <-.
  destruct (std_rebin_spec d (a * b) f3 Hw ltac:(nia) Hf3) as (r3 & E3' & R3 & C3 & H3).
  rewrite E3 in E3'. injection E3' as <-.
  destruct Hw as [Hr Hc].
  assert (Hda : 0 <= rows d / a) by (apply Z.div_pos; lia).
  assert (Hca : 0 <= cols d / a) by (apply Z.div_pos; lia).
  assert (Hle1 : rows d / a <= rows d).
  { pose proof (Z.mul_div_le (rows d) a). nia. }
  assert (Hle2 : cols d / a <= cols d).
  { pose proof (Z.mul_div_le (cols d) a). nia. }
  destruct (std_rebin_spec ra b f2) as (r2 & E2' & R2 & C2 & H2); try lia.
  { split; lia. }
  rewrite E2 in E2'. injection E2' as <-.
  assert (DR : rows ra / b = rows d / (a * b)).
  { rewrite R1, Z.div_div by lia. reflexivity. }
  assert (DC : cols ra / b = cols d / (a * b)).
  { rewrite C1, Z.div_div by lia. reflexivity. }
  split; [lia|]. split; [lia|].
  intros Y X HY HX. rewrite H2, H3 by lia. rewrite !lsum_plain_block.
  assert (BY : b * (Y + 1) <= rows ra).
  { apply Z.le_trans with (b * (rows ra / b)); [nia|apply Z.mul_div_le; lia]. }
  assert (BX : b * (X + 1) <= cols ra).
  { apply Z.le_trans with (b * (cols ra / b)); [nia|apply Z.mul_div_le; lia]. }
  rewrite rsum2_group by lia. apply rsum2_ext. intros y x Hy Hx.
  assert (0 <= b * Y) by nia. assert (0 <= b * X) by nia.
  rewrite H1 by lia. rewrite lsum_plain_block. apply rsum2_ext. intros y' x' Hy' Hx'.
  f_equal; ring.
Qed.

(** Splitting commutes with binning, in any number type: the same additions happen in
    the same order. *)
Lemma split_rebin {A} `{Num A} (d r : arr A) (s : quad A) b fuel :
  wf d -> 1 <= b -> rows d mod 2 = 0 -> cols d mod 2 = 0 ->
  (Z.to_nat (Z.max (rows d) (cols d)) <= fuel)%nat ->
  micropolarray_rebin fuel d b = Ok r -> split_polarizations d = Ok s ->
  exists t, split_polarizations r = Ok t /\
    forall k, 0 <= k < 4 ->
      exists u, standard_rebin fuel (qnth s k) b = Ok u /\ qnth t k =a= u.
Proof.
  intros Hw Hb Er Ec Hf E Es.
  destruct (rebin_spec d b fuel Hw Hb Er Ec Hf) as (r' & E' & R & C & Hcell).
  rewrite E in E'. injection E' as <-.
  destruct (split_spec d Hw Er Ec) as (s' & Es' & Hs).
  rewrite Es in Es'. injection Es' as <-.
  destruct Hw as [Hr Hc].
  assert (0 <= rows d / (2 * b)) by (apply Z.div_pos; lia).
  assert (0 <= cols d / (2 * b)) by (apply Z.div_pos; lia).
  destruct (split_spec r) as (t & Et & Ht); [split; lia|rewrite R; apply double_mod|rewrite C; apply double_mod|].
  exists t; split; [exact Et|]. intros k Hk.
  destruct (Hs k Hk) as (Rs & Cs & Hsc). destruct (Ht k Hk) as (Rt & Ct & Htc).
  destruct (std_rebin_spec (qnth s k) b fuel) as (u & Eu & Ru & Cu & Hu); try lia.
  { split; [rewrite Rs|rewrite Cs]; apply Z.div_pos; lia. }
  { rewrite Rs, Cs. assert (rows d / 2 <= rows d /\ cols d / 2 <= cols d); [|lia].
    split; apply Z.div_le_upper_bound; lia. }
  exists u; split; [exact Eu|].
  assert (DR : rows d / 2 / b = rows d / (2 * b)) by (rewrite Z.div_div by lia; reflexivity).
  assert (DC : cols d / 2 / b = cols d / (2 * b)) by (rewrite Z.div_div by lia; reflexivity).
  rewrite Rs in Ru. rewrite Cs in Cu.
  rewrite R, half_double in Rt. rewrite C, half_double in Ct.
  pose proof (k_half k Hk) as Hk2. pose proof (mod2_bound k) as Hkm.
  split; [lia|]. split; [lia|].
  intros Y X HY HX. rewrite Htc, Hcell by lia. rewrite Hu by lia.
  unfold family_block, plain_block. f_equal. apply map_ext. intros [y x]. cbn [fst snd].
  rewrite Hsc.
  rewrite !div2_pair, !mod2_pair by assumption.
  f_equal; ring.
Qed.
