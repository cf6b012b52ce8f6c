(** Raw 16-bit files: what [save_as_raw] writes is what a raw read returns. *)
From Coq Require Import ZifyBool Lia Reals Lra.
From Verif Require Import Base.Base Base.BaseFacts Base.Num Model.Codec Spec.CodecSpec Spec.Terminates
  Proofs.CodecFacts Proofs.BinaryFacts Proofs.PolFacts.
Local Open Scope Z_scope.
Ltac Zify.zify_post_hook ::= idtac.

Lemma int_part_unique z r : (IZR z <= r < IZR z + 1)%R -> Int_part r = z.
Proof.
  intros Hz. destruct (base_Int_part r) as [H1 H2].
  assert ((IZR (Int_part r) < IZR (z + 1))%R) by (rewrite plus_IZR; lra).
  assert ((IZR z < IZR (Int_part r + 1))%R) by (rewrite plus_IZR; lra).
  apply lt_IZR in H. apply lt_IZR in H0. lia.
Qed.

Lemma rtrunc_spec r : truncated r (rtrunc r).
Proof.
  unfold truncated, rtrunc. destruct (Rleb 0 r) eqn:E.
  - apply Rleb_true in E. destruct (base_Int_part r). split; lra.
  - apply Rleb_false in E. destruct (base_Int_part (- r)). rewrite opp_IZR. split; lra.
Qed.

Lemma truncated_unique r z z' : truncated r z -> truncated r z' -> z = z'.
Proof.
  intros [A1 A2] [B1 B2]. destruct (Rle_lt_dec 0 r) as [Hr|Hr].
  - specialize (A1 Hr). specialize (B1 Hr).
    rewrite <- (int_part_unique z r) by lra. apply int_part_unique. lra.
  - specialize (A2 Hr). specialize (B2 Hr).
    assert (E1 : Int_part (- r) = - z) by (apply int_part_unique; rewrite opp_IZR; lra).
    assert (E2 : Int_part (- r) = - z') by (apply int_part_unique; rewrite opp_IZR; lra). lia.
Qed.

Lemma truncated_IZR z : truncated (IZR z) z.
Proof. split; intros; lra. Qed.

Lemma nth_concat_const {A} (d : A) c : forall (ls : list (list A)) i j,
  Forall (fun l => length l = c) ls -> (i < length ls)%nat -> (j < c)%nat ->
  nth (i * c + j) (concat ls) d = nth j (nth i ls []) d.
Proof.
  induction ls as [|l ls IH]; intros i j Hl Hi Hj; [cbn in Hi; lia|].
  inversion Hl as [|? ? H1 H2]; subst. cbn [concat]. destruct i as [|i].
  - cbn [nth Nat.mul Nat.add]. apply app_nth1. lia.
  - rewrite app_nth2 by (cbn [Nat.mul]; lia).
    replace (S i * length l + j - length l)%nat with (i * length l + j)%nat by (cbn [Nat.mul]; lia).
    cbn [nth]. apply IH; [exact H2|cbn in Hi; lia|exact Hj].
Qed.

Section Raw.
  Variable oor : R -> Z.
  Variable data : arr R.
  Hypothesis Hwf : wf data.

  Definition raw_row (y : Z) : bytes :=
    concat (map (fun x => enc16 (to_int16 oor (cell data y x))) (zrange (cols data))).

  Lemma zrange_nth n i d : (i < Z.to_nat n)%nat -> nth i (zrange n) d = Z.of_nat i.
  Proof.
    intros Hi. unfold zrange. rewrite (nth_indep _ d (Z.of_nat 0)) by (rewrite map_length, seq_length; exact Hi).
    rewrite map_nth, seq_nth by exact Hi. reflexivity.
  Qed.

  Lemma zrange_length n : length (zrange n) = Z.to_nat n.
  Proof. unfold zrange. rewrite map_length. apply seq_length. Qed.

  Lemma raw_row_length y : length (raw_row y) = (Z.to_nat (cols data) * 2)%nat.
  Proof.
    unfold raw_row. rewrite (length_concat_const 2), map_length, zrange_length; [reflexivity|].
    apply Forall_map, Forall_forall. reflexivity.
  Qed.

  Lemma raw_length : zlen (raw_bytes oor data) = rows data * cols data * 2.
  Proof.
    unfold zlen, raw_bytes. destruct Hwf as [Hr Hc].
    rewrite (length_concat_const (Z.to_nat (cols data) * 2)), map_length, zrange_length.
    - rewrite !Nat2Z.inj_mul, !Z2Nat.id by assumption. lia.
    - apply Forall_map, Forall_forall. intros y _. apply raw_row_length.
  Qed.

  Lemma raw_nth y x k : 0 <= y < rows data -> 0 <= x < cols data -> (k < 2)%nat ->
    nth (Z.to_nat (2 * (cols data * y + x)) + k) (raw_bytes oor data) 0 =
    nth k (enc16 (to_int16 oor (cell data y x))) 0.
  Proof.
    intros Hy Hx Hk.
    replace (Z.to_nat (2 * (cols data * y + x)) + k)%nat with
      (Z.to_nat y * (Z.to_nat (cols data) * 2) + (Z.to_nat x * 2 + k))%nat.
    2:{ rewrite <- (Z2Nat.id y), <- (Z2Nat.id x), <- (Z2Nat.id (cols data)) by lia. lia. }
    unfold raw_bytes.
    rewrite nth_concat_const.
    - change (fun y0 : Z => concat (map (fun x0 : Z => enc16 (to_int16 oor (cell data y0 x0)))
                (zrange (cols data)))) with raw_row.
      rewrite (nth_indep _ [] (raw_row 0)) by (rewrite map_length, zrange_length; lia).
      rewrite (map_nth raw_row), zrange_nth, Z2Nat.id by lia.
      unfold raw_row. rewrite nth_concat_const.
      + set (g := fun x0 => enc16 (to_int16 oor (cell data y x0))).
        rewrite (nth_indep _ [] (g 0)) by (rewrite map_length, zrange_length; lia).
        rewrite (map_nth g), zrange_nth, Z2Nat.id by lia. reflexivity.
      + apply Forall_map, Forall_forall. reflexivity.
      + rewrite map_length, zrange_length. lia.
      + lia.
    - apply Forall_map, Forall_forall. intros y0 _. apply raw_row_length.
    - rewrite map_length, zrange_length. lia.
    - rewrite <- (Z2Nat.id x) in Hx by lia. lia.
  Qed.

  Lemma u2_value z : -32768 <= z <= 32767 -> z mod 256 + 256 * ((z / 256) mod 256) = z mod 65536.
  Proof.
    intros Hz.
    assert (E : z / 65536 = z / 256 / 256) by (rewrite Z.div_div by lia; reflexivity).
    pose proof (Z.div_mod z 256 ltac:(lia)). pose proof (Z.div_mod (z / 256) 256 ltac:(lia)).
    pose proof (Z.div_mod z 65536 ltac:(lia)). lia.
  Qed.

  (** What is read back is the truncated value modulo 2^16. *)
  Lemma raw_roundtrip :
    exists img, u2_array (rows data) (cols data) (raw_bytes oor data) = Ok img /\
      rows img = rows data /\ cols img = cols data /\
      forall y x z, 0 <= y < rows data -> 0 <= x < cols data ->
        truncated (cell data y x) z -> -32768 <= z <= 32767 -> cell img y x = z mod 65536.
  Proof.
    unfold u2_array. destruct Hwf as [Hr Hc]. rewrite raw_length.
    replace ((rows data <? 0) || (cols data <? 0)) with false by lia.
    replace (rows data * cols data * 2 <? rows data * cols data * 2) with false by lia.
    eexists. split; [reflexivity|]. cbn [rows cols cell]. split; [reflexivity|split; [reflexivity|]].
    intros y x z Hy Hx Ht Hz.
    pose proof (raw_nth y x 0 Hy Hx ltac:(lia)) as E0. pose proof (raw_nth y x 1 Hy Hx ltac:(lia)) as E1.
    rewrite Nat.add_0_r in E0. rewrite Nat.add_1_r in E1. rewrite E0, E1.
    unfold to_int16. rewrite (truncated_unique _ _ z (rtrunc_spec _) Ht).
    replace ((-32768 <=? z) && (z <=? 32767)) with true by lia. cbn [enc16 nth]. apply u2_value, Hz.
  Qed.

  (** The byte layout. *)
  Lemma raw_layout y x z : 0 <= y < rows data -> 0 <= x < cols data ->
    cell data y x = IZR z -> 0 <= z <= 32767 ->
    nth (Z.to_nat (2 * (cols data * y + x))) (raw_bytes oor data) 0 = z mod 256 /\
    nth (Z.to_nat (2 * (cols data * y + x) + 1)) (raw_bytes oor data) 0 = z / 256.
  Proof.
    intros Hy Hx E Hz.
    pose proof (raw_nth y x 0 Hy Hx ltac:(lia)) as E0. pose proof (raw_nth y x 1 Hy Hx ltac:(lia)) as E1.
    rewrite Nat.add_0_r in E0. 
    replace (Z.to_nat (2 * (cols data * y + x) + 1)) with (Z.to_nat (2 * (cols data * y + x)) + 1)%nat
      by (destruct Hwf as [_ Hc]; assert (0 <= cols data * y) by (apply Z.mul_nonneg_nonneg; lia); lia).
    rewrite E0, E1, E. unfold to_int16.
    rewrite (truncated_unique _ _ z (rtrunc_spec _) (truncated_IZR z)).
    replace ((-32768 <=? z) && (z <=? 32767)) with true by lia. cbn [enc16 nth].
    split; [reflexivity|]. apply Z.mod_small. split; [apply Z.div_pos; lia|].
    apply Z.div_lt_upper_bound; lia.
  Qed.
End Raw.

Lemma c47_roundtrip oor data : wf data ->
  (forall y x, 0 <= y < rows data -> 0 <= x < cols data ->
     exists z, cell data y x = IZR z /\ 0 <= z <= 32767) ->
  exists img, u2_array (rows data) (cols data) (raw_bytes oor data) = Ok img /\
    rows img = rows data /\ cols img = cols data /\
    forall y x, 0 <= y < rows data -> 0 <= x < cols data -> IZR (cell img y x) = cell data y x.
Proof.
  intros Hwf Hv. destruct (raw_roundtrip oor data Hwf) as (img & E & R1 & C1 & V).
  exists img. split; [exact E|split; [exact R1|split; [exact C1|]]].
  intros y x Hy Hx. destruct (Hv y x Hy Hx) as (z & Ez & Hz).
  rewrite (V y x z Hy Hx); [|rewrite Ez; apply truncated_IZR|lia].
  rewrite Ez, Z.mod_small by lia. reflexivity.
Qed.
