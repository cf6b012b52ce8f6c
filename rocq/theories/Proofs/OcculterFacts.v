From Coq Require Import Reals Lra.
From Verif Require Import Base.Base Base.Num Base.BaseFacts Model.Nrgf Model.Codec Spec.OcculterSpec
  Spec.SumSpec Spec.CodecSpec Proofs.PolFacts Proofs.RawFacts Proofs.SumFacts.
From Coq Require Import ZifyBool.
Local Open Scope Z_scope.

Definition profile_list (f : Z -> R) (n : Z) : list R := map f (zrange n).

Lemma profile_length f n : 0 <= n -> length (profile_list f n) = Z.to_nat n.
Proof. intros Hn. unfold profile_list. rewrite map_length. unfold zrange. rewrite map_length, seq_length. reflexivity. Qed.

Lemma firstn_zrange n i : 0 <= i <= n -> firstn (Z.to_nat i) (zrange n) = zrange i.
Proof.
  intros H. unfold zrange. rewrite firstn_map. f_equal.
  replace (Z.to_nat n) with (Z.to_nat i + Z.to_nat (n - i))%nat by lia.
  rewrite seq_app, firstn_app, seq_length, Nat.sub_diag, firstn_O, app_nil_r.
  rewrite firstn_all2 by (rewrite seq_length; lia). reflexivity.
Qed.

Lemma prefix_mean_spec f n i : 0 <= i <= n ->
  prefix_mean (profile_list f n) (Z.to_nat i) = (rsum i f / IZR i)%R.
Proof.
  intros H. unfold prefix_mean, profile_list. rewrite firstn_map, firstn_zrange by assumption.
  rewrite INR_IZR_INZ, Z2Nat.id by lia. reflexivity.
Qed.

Lemma first_jump_spec f n th : 0 <= n ->
  forall i, 0 <= i <= n ->
  match first_jump (profile_list f n) (map f (map Z.of_nat (seq (Z.to_nat i) (Z.to_nat (n - i)))))
          (Z.to_nat i) th with
  | Some k => i <= Z.of_nat k /\ jump_at f n th (Z.of_nat k) /\
              forall j, i <= j < Z.of_nat k -> ~ jump_at f n th j
  | None => forall j, i <= j -> ~ jump_at f n th j
  end.
Proof.
  intros Hn i Hi.
  remember (Z.to_nat (n - i)) as m eqn:Em. revert i Hi Em.
  induction m as [|m IH]; intros i Hi Em; cbn [seq map first_jump].
  - intros j Hj [Hb _]. lia.
  - rewrite Z2Nat.id by lia.
    assert (Ej : ((5 <? Z.to_nat i)%nat && Rltb (th * prefix_mean (profile_list f n) (Z.to_nat i)) (f i)) = true
                 <-> jump_at f n th i).
    { rewrite andb_true_iff, Nat.ltb_lt, Rltb_true, prefix_mean_spec by lia.
      unfold jump_at. split; intros [H1 H2]; (split; [lia|exact H2]). }
    destruct ((5 <? Z.to_nat i)%nat && _) eqn:E.
    + rewrite Z2Nat.id by lia. split; [lia|]. split; [apply Ej; reflexivity|]. intros; lia.
    + assert (Hno : ~ jump_at f n th i) by (rewrite <- Ej; discriminate).
      specialize (IH (i + 1) ltac:(lia) ltac:(lia)).
      replace (Z.to_nat (i + 1)) with (S (Z.to_nat i)) in IH by lia.
      destruct (first_jump _ _ (S (Z.to_nat i)) th) as [k|].
      * destruct IH as (I1 & I2 & I3). split; [lia|]. split; [exact I2|].
        intros j Hj. destruct (Z.eq_dec j i) as [->|]; [exact Hno|apply I3; lia].
      * intros j Hj. destruct (Z.eq_dec j i) as [->|]; [exact Hno|apply IH; lia].
Qed.

Lemma edge_spec f n th : 0 <= n ->
  match occulter_edge (profile_list f n) th with
  | Some k => first_jump_at f n th (Z.of_nat k)
  | None => forall j, ~ jump_at f n th j
  end.
Proof.
  intros Hn. pose proof (first_jump_spec f n th Hn 0 ltac:(lia)) as H.
  rewrite Z.sub_0_r in H. change (Z.to_nat 0) with 0%nat in H.
  unfold occulter_edge. change (map f (map Z.of_nat (seq 0 (Z.to_nat n)))) with (profile_list f n) in H.
  destruct (first_jump _ _ 0 th) as [k|].
  - destruct H as (_ & H1 & H2). split; [exact H1|].
    intros j Hj. destruct (Z_lt_ge_dec j 0) as [Hneg|]; [intros [Hb _]; lia|apply H2; lia].
  - intros j. destruct (Z_lt_ge_dec j 0) as [Hneg|]; [intros [Hb _]; lia|apply H; lia].
Qed.

Lemma first_jump_unique f n th i j : first_jump_at f n th i -> first_jump_at f n th j -> i = j.
Proof.
  intros [Hi Mi] [Hj Mj]. destruct (Z.lt_trichotomy i j) as [L|[E|L]]; [|exact E|].
  - exfalso. exact (Mj i L Hi).
  - exfalso. exact (Mi j L Hj).
Qed.

Lemma rev_zrange_map (f : Z -> R) n : 0 <= n ->
  rev (map f (zrange n)) = map (fun i => f (n - 1 - i)) (zrange n).
Proof.
  intros Hn. pattern n. apply zpos_ind; [reflexivity| |exact Hn].
  intros m Hm IH. rewrite zrange_succ at 1 by lia. rewrite map_app, rev_app_distr. cbn [map rev app].
  rewrite IH.
  assert (Es : zrange (m + 1) = 0 :: map (fun i => i + 1) (zrange m)).
  { unfold zrange. replace (Z.to_nat (m + 1)) with (S (Z.to_nat m)) by lia.
    cbn [seq map]. f_equal. rewrite <- seq_shift, !map_map. apply map_ext. intros; lia. }
  rewrite Es. cbn [map]. f_equal; [f_equal; lia|]. rewrite map_map. apply map_ext. intros; f_equal; lia.
Qed.

Section Algo.
  Variables (d : arr R) (th : R).
  Let hy := rows d / 2.
  Let hx := cols d / 2.

  Lemma algo_unfold :
    0 < rows d -> 0 < cols d ->
    find_occulter_algo d th =
    match occulter_edge (profile_list (leftwards d hy hx) hx) th,
          occulter_edge (profile_list (rightwards d hy hx) (cols d - hx)) th,
          occulter_edge (profile_list (upwards d hy hx) hy) th,
          occulter_edge (profile_list (downwards d hy hx) (rows d - hy)) th with
    | Some x0, Some x1, Some y0, Some y1 =>
        let b0 := hy - Z.of_nat y0 in
        let b1 := hy + Z.of_nat y1 in
        let b2 := hx - Z.of_nat x0 in
        let b3 := hx + Z.of_nat x1 in
        Ok (rtrunc ((IZR b0 + IZR b1) / 2),
            rtrunc ((IZR b2 + IZR b3) / 2),
            rtrunc ((Rabs (IZR b1 - IZR b0) / 2 + Rabs (IZR b3 - IZR b2) / 2) / 2))
    | _, _, _, _ => Raise ValueError
    end.
  Proof.
    intros Hr Hc. unfold find_occulter_algo.
    replace (0 <? rows d) with true by lia. replace (0 <? cols d) with true by lia. cbn [negb orb].
    rewrite !Z.quot_div_nonneg by lia. fold hy hx.
    assert (0 <= hy) by (apply Z.div_pos; lia). assert (0 <= hx) by (apply Z.div_pos; lia).
    unfold row_values, col_values. rewrite !rev_zrange_map by assumption. reflexivity.
  Qed.

  Lemma hy_bounds : 0 < rows d -> 0 <= hy < rows d.
  Proof. intros H. unfold hy. split; [apply Z.div_pos; lia|apply Z.div_lt; lia]. Qed.
  Lemma hx_bounds : 0 < cols d -> 0 <= hx < cols d.
  Proof. intros H. unfold hx. split; [apply Z.div_pos; lia|apply Z.div_lt; lia]. Qed.

  Lemma c70_found (left right up down : Z) :
    0 < rows d -> 0 < cols d ->
    first_jump_at (leftwards d hy hx) hx th left ->
    first_jump_at (rightwards d hy hx) (cols d - hx) th right ->
    first_jump_at (upwards d hy hx) hy th up ->
    first_jump_at (downwards d hy hx) (rows d - hy) th down ->
    find_occulter_algo d th =
      Ok ((2 * hy + down - up) / 2, (2 * hx + right - left) / 2, (left + right + up + down) / 4).
  Proof.
    intros Hr Hc Hl Hri Hu Hd. rewrite algo_unfold by assumption.
    pose proof (hy_bounds Hr) as By. pose proof (hx_bounds Hc) as Bx.
    pose proof (edge_spec (leftwards d hy hx) hx th ltac:(lia)) as E1.
    pose proof (edge_spec (rightwards d hy hx) (cols d - hx) th ltac:(lia)) as E2.
    pose proof (edge_spec (upwards d hy hx) hy th ltac:(lia)) as E3.
    pose proof (edge_spec (downwards d hy hx) (rows d - hy) th ltac:(lia)) as E4.
    destruct (occulter_edge (profile_list (leftwards d hy hx) hx) th) as [a|];
      [|exfalso; exact (E1 _ (proj1 Hl))].
    destruct (occulter_edge (profile_list (rightwards d hy hx) (cols d - hx)) th) as [b|];
      [|exfalso; exact (E2 _ (proj1 Hri))].
    destruct (occulter_edge (profile_list (upwards d hy hx) hy) th) as [c|];
      [|exfalso; exact (E3 _ (proj1 Hu))].
    destruct (occulter_edge (profile_list (downwards d hy hx) (rows d - hy)) th) as [e|];
      [|exfalso; exact (E4 _ (proj1 Hd))].
    pose proof (first_jump_unique _ _ _ _ _ E1 Hl) as ->.
    pose proof (first_jump_unique _ _ _ _ _ E2 Hri) as ->.
    pose proof (first_jump_unique _ _ _ _ _ E3 Hu) as ->.
    pose proof (first_jump_unique _ _ _ _ _ E4 Hd) as ->.
    destruct Hl as [[Bl _] _]. destruct Hri as [[Br _] _]. destruct Hu as [[Bu _] _]. destruct Hd as [[Bd _] _].
    assert (Tr : forall p q : Z, 0 <= p -> 0 < q -> rtrunc (IZR p / IZR q) = p / q).
    { intros p q Hp Hq. apply (truncated_unique (IZR p / IZR q)); [apply rtrunc_spec|].
      pose proof (Z.div_mod p q ltac:(lia)) as D. pose proof (Z.mod_pos_bound p q Hq) as M.
      assert (Dr : (IZR p / IZR q = IZR (p / q) + IZR (p mod q) / IZR q)%R).
      { rewrite D at 1. rewrite plus_IZR, mult_IZR. field. apply not_0_IZR. lia. }
      assert (Q0 : (0 < IZR q)%R) by (apply IZR_lt; exact Hq).
      assert (M0 : (0 <= IZR (p mod q) / IZR q)%R).
      { apply div_nonneg; [apply IZR_le; lia|exact Q0]. }
      assert (M1 : (IZR (p mod q) / IZR q < 1)%R).
      { apply (Rmult_lt_reg_r (IZR q)); [exact Q0|]. unfold Rdiv.
        rewrite Rmult_assoc, Rinv_l, Rmult_1_r, Rmult_1_l by lra. apply IZR_lt. lia. }
      assert (P0 : (0 <= IZR (p / q))%R) by (apply IZR_le, Z.div_pos; lia).
      split; intros H; lra. }
    cbn zeta. f_equal. f_equal; [f_equal|].
    - rewrite <- plus_IZR. rewrite Tr by lia. f_equal. lia.
    - rewrite <- plus_IZR. rewrite Tr by lia. f_equal. lia.
    - rewrite <- !minus_IZR.
      rewrite !Rabs_right by (apply Rle_ge, IZR_le; lia).
      match goal with |- rtrunc ((IZR ?u / 2 + IZR ?v / 2) / 2) = _ =>
        replace ((IZR u / 2 + IZR v / 2) / 2)%R with (IZR (u + v) / IZR 4)%R
          by (rewrite plus_IZR; field) end.
      rewrite Tr by lia. f_equal. lia.
  Qed.

  Lemma c70_missing :
    0 < rows d -> 0 < cols d ->
    (forall i, ~ jump_at (leftwards d hy hx) hx th i) \/
    (forall i, ~ jump_at (rightwards d hy hx) (cols d - hx) th i) \/
    (forall i, ~ jump_at (upwards d hy hx) hy th i) \/
    (forall i, ~ jump_at (downwards d hy hx) (rows d - hy) th i) ->
    find_occulter_algo d th = Raise ValueError.
  Proof.
    intros Hr Hc H. rewrite algo_unfold by assumption.
    pose proof (hy_bounds Hr) as By. pose proof (hx_bounds Hc) as Bx.
    pose proof (edge_spec (leftwards d hy hx) hx th ltac:(lia)) as E1.
    pose proof (edge_spec (rightwards d hy hx) (cols d - hx) th ltac:(lia)) as E2.
    pose proof (edge_spec (upwards d hy hx) hy th ltac:(lia)) as E3.
    pose proof (edge_spec (downwards d hy hx) (rows d - hy) th ltac:(lia)) as E4.
    destruct (occulter_edge (profile_list (leftwards d hy hx) hx) th) as [a|]; [|reflexivity].
    destruct (occulter_edge (profile_list (rightwards d hy hx) (cols d - hx)) th) as [b|]; [|reflexivity].
    destruct (occulter_edge (profile_list (upwards d hy hx) hy) th) as [c|]; [|reflexivity].
    destruct (occulter_edge (profile_list (downwards d hy hx) (rows d - hy)) th) as [e|]; [|reflexivity].
    exfalso. destruct H as [H|[H|[H|H]]].
    - exact (H _ (proj1 E1)).
    - exact (H _ (proj1 E2)).
    - exact (H _ (proj1 E3)).
    - exact (H _ (proj1 E4)).
  Qed.
End Algo.

(** A step profile jumps at its step. *)
Lemma step_jump f n th lo hi r :
  5 < r < n -> (0 <= lo)%R -> (1 <= th)%R -> (th * lo < hi)%R ->
  (forall i, 0 <= i < r -> f i = lo) -> f r = hi ->
  first_jump_at f n th r.
Proof.
  intros Hr Hlo Hth Hhi Hf Hfr.
  assert (Hmean : forall i, 0 < i <= r -> (rsum i f / IZR i = lo)%R).
  { intros i Hi. rewrite (rsum_ext i f (fun _ => lo)) by (intros; apply Hf; lia).
    rewrite rsum_const by lia. field. apply not_0_IZR. lia. }
  split.
  - split; [lia|]. rewrite Hmean by lia. rewrite Hfr. exact Hhi.
  - intros j Hj [Hb Hv]. rewrite Hmean in Hv by lia. rewrite Hf in Hv by lia. nra.
Qed.

Lemma c70_step (d : arr R) th lo hi a b r :
  rows d = 2 * a -> cols d = 2 * b -> 5 < r < a -> 5 < r < b ->
  (0 <= lo)%R -> (1 <= th)%R -> (th * lo < hi)%R ->
  (forall x, 0 <= x < cols d -> cell d a x = if (b - r <=? x) && (x <? b + r) then lo else hi) ->
  (forall y, 0 <= y < rows d -> cell d y b = if (a - r <=? y) && (y <? a + r) then lo else hi) ->
  find_occulter_algo d th = Ok (a, b, r).
Proof.
  intros Hrows Hcols Ha Hb Hlo Hth Hhi Hx Hy.
  assert (Ea : rows d / 2 = a) by (rewrite Hrows, Z.mul_comm; apply Z.div_mul; lia).
  assert (Eb : cols d / 2 = b) by (rewrite Hcols, Z.mul_comm; apply Z.div_mul; lia).
  rewrite (c70_found d th r r r r); try lia.
  - rewrite Ea, Eb. f_equal. f_equal; [f_equal|].
    + rewrite Z.add_simpl_r, Z.mul_comm, Z.div_mul by lia. reflexivity.
    + rewrite Z.add_simpl_r, Z.mul_comm, Z.div_mul by lia. reflexivity.
    + replace (r + r + r + r) with (r * 4) by lia. apply Z.div_mul. lia.
  - rewrite Ea, Eb. apply (step_jump _ _ _ lo hi); try assumption; try lia.
    + intros i Hi. unfold leftwards. rewrite Hx by lia. replace (_ && _) with true by lia. reflexivity.
    + unfold leftwards. rewrite Hx by lia. replace (_ && _) with false by lia. reflexivity.
  - rewrite Ea, Eb. apply (step_jump _ _ _ lo hi); try assumption; try lia.
    + intros i Hi. unfold rightwards. rewrite Hx by lia. replace (_ && _) with true by lia. reflexivity.
    + unfold rightwards. rewrite Hx by lia. replace (_ && _) with false by lia. reflexivity.
  - rewrite Ea, Eb. apply (step_jump _ _ _ lo hi); try assumption; try lia.
    + intros i Hi. unfold upwards. rewrite Hy by lia. replace (_ && _) with true by lia. reflexivity.
    + unfold upwards. rewrite Hy by lia. replace (_ && _) with false by lia. reflexivity.
  - rewrite Ea, Eb. apply (step_jump _ _ _ lo hi); try assumption; try lia.
    + intros i Hi. unfold downwards. rewrite Hy by lia. replace (_ && _) with true by lia. reflexivity.
    + unfold downwards. rewrite Hy by lia. replace (_ && _) with false by lia. reflexivity.
Qed.

Lemma c70_case :
  let d := mkarr 20 24 (fun y x => if (4 <=? y) && (y <? 16) && (6 <=? x) && (x <? 18)
                                   then 10%R else 100%R) in
  find_occulter_algo d 4 = Ok (10, 12, 6) /\
  find_occulter_algo (full 20 24 10%R) 4 = Raise ValueError.
Proof.
  cbn zeta. split.
  - apply (c70_step _ _ 10 100); cbn [rows cols cell]; try lia; try lra.
    + intros x Hx. change (4 <=? 10) with true. change (10 <? 16) with true. cbn [andb]. 
      reflexivity.
    + intros y Hy. change (6 <=? 12) with true. change (12 <? 18) with true.
      rewrite !andb_true_r. reflexivity.
  - apply c70_missing; cbn [full rows cols]; try lia. left. intros i [Hb Hv].
    change (4 * (rsum i (fun _ => 10) / IZR i) < 10)%R in Hv.
    rewrite rsum_const in Hv by lia.
    assert (IZR i <> 0%R) by (apply not_0_IZR; lia).
    replace (IZR i * 10 / IZR i)%R with 10%R in Hv by (field; assumption). lra.
Qed.
