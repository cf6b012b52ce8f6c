(** The 12-bit codec and parallel decoding. *)
From Coq Require Import ZifyBool Permutation Lia.
From Verif Require Import Base.Base Base.BaseFacts Model.Codec Spec.CodecSpec.
Local Open Scope Z_scope.
Ltac Zify.zify_post_hook ::= Z.div_mod_to_equations.

(** ** Bits *)
Definition bitval (s : list bool) : Z :=
  fold_left (fun acc (b : bool) => 2 * acc + (if b then 1 else 0)) s 0.

Lemma bitval_acc s : forall acc,
  fold_left (fun acc (b : bool) => 2 * acc + (if b then 1 else 0)) s acc
  = acc * 2 ^ zlen s + bitval s.
Proof.
  unfold bitval, zlen. induction s as [|b s IH]; intros acc.
  - cbn. lia.
  - cbn [fold_left length]. rewrite IH. rewrite (IH (2 * 0 + _)).
    rewrite Nat2Z.inj_succ, Z.pow_succ_r by lia. ring.
Qed.

Lemma bitval_app s t : bitval (s ++ t) = bitval s * 2 ^ zlen t + bitval t.
Proof. unfold bitval at 1. rewrite fold_left_app, bitval_acc. reflexivity. Qed.

Lemma int2_bitval s : s <> [] -> int2 s = Ok (bitval s).
Proof. destruct s; [congruence|reflexivity]. Qed.

Definition byte_ok (b : Z) : bool :=
  (bitval (bits8 b) =? b) && (bitval (firstn 4 (bits8 b)) =? b / 16)
  && (bitval (skipn 4 (bits8 b)) =? b mod 16).

Lemma all_bytes_ok : forallb byte_ok (zrange 256) = true.
Proof. vm_compute. reflexivity. Qed.

Lemma byte_bits b : is_byte b ->
  bitval (bits8 b) = b /\ bitval (firstn 4 (bits8 b)) = b / 16 /\
  bitval (skipn 4 (bits8 b)) = b mod 16.
Proof.
  intros Hb. pose proof all_bytes_ok as Hall. rewrite forallb_forall in Hall.
  specialize (Hall b). rewrite in_zrange in Hall. specialize (Hall Hb).
  unfold byte_ok in Hall. lia.
Qed.

Lemma triple_bits a b c : is_byte a -> is_byte b -> is_byte c ->
  let binsum := concat (map bits8 [a; b; c]) in
  int2 (slice binsum 0 12) = Ok (16 * a + b / 16) /\
  int2 (slice binsum 16 24 ++ slice binsum 12 16) = Ok (16 * c + b mod 16).
Proof.
  intros Ha Hb Hc. cbn zeta.
  destruct (byte_bits a Ha) as (A1 & _). destruct (byte_bits b Hb) as (_ & B1 & B2).
  destruct (byte_bits c Hc) as (C1 & _).
  assert (E1 : slice (concat (map bits8 [a; b; c])) 0 12 = bits8 a ++ firstn 4 (bits8 b))
    by reflexivity.
  assert (E2 : slice (concat (map bits8 [a; b; c])) 16 24 = bits8 c) by reflexivity.
  assert (E3 : slice (concat (map bits8 [a; b; c])) 12 16 = skipn 4 (bits8 b)) by reflexivity.
  rewrite E1, E2, E3. rewrite !int2_bitval by (unfold bits8; cbn; congruence).
  rewrite !bitval_app, A1, B1, B2, C1.
  split; f_equal.
  - change (zlen (firstn 4 (bits8 b))) with 4. change (2 ^ 4) with 16. ring.
  - change (zlen (skipn 4 (bits8 b))) with 4. change (2 ^ 4) with 16. ring.
Qed.

(** ** One worker *)
Lemma skipn_add {A} (l : list A) : forall i j, skipn i (skipn j l) = skipn (i + j) l.
Proof.
  induction l as [|x l IH]; intros i j.
  - rewrite !skipn_nil. reflexivity.
  - destruct j as [|j].
    + rewrite Nat.add_0_r. reflexivity.
    + rewrite Nat.add_succ_r. cbn [skipn]. apply IH.
Qed.

Lemma list_ind3 {A} (P : list A -> Prop) :
  P [] -> (forall a, P [a]) -> (forall a b, P [a; b]) ->
  (forall a b c l, P l -> P (a :: b :: c :: l)) -> forall l, P l.
Proof.
  intros H0 H1 H2 H3.
  assert (G : forall l, P l /\ (forall a, P (a :: l)) /\ (forall a b, P (a :: b :: l))).
  { induction l as [|x l (I0 & I1 & I2)].
    - repeat split; auto.
    - repeat split.
      + apply I1.
      + intros a. apply I2.
      + intros a b. apply H3, I0. }
  intros l. exact (proj1 (G l)).
Qed.

Lemma store_end size pre v m :
  size = zlen pre + 1 + Z.of_nat m ->
  store size (pre ++ repeat 0 (S m)) (zlen pre) v = Ok ((pre ++ [v]) ++ repeat 0 m).
Proof.
  intros Hs. unfold store, zlen in *.
  destruct ((0 <=? Z.of_nat (length pre)) && (Z.of_nat (length pre) <? size)) eqn:E; [|lia].
  rewrite Nat2Z.id. rewrite firstn_app, firstn_all, Nat.sub_diag. cbn [firstn].
  rewrite app_nil_r. rewrite skipn_app, skipn_all2 by lia.
  replace (S (length pre) - length pre)%nat with 1%nat by lia.
  cbn [repeat skipn app]. rewrite <- app_assoc. reflexivity.
Qed.

Lemma zlen_app {A} (a b : list A) : zlen (a ++ b) = zlen a + zlen b.
Proof. unfold zlen. rewrite app_length. lia. Qed.

Lemma zlen_nonneg {A} (l : list A) : 0 <= zlen l.
Proof. unfold zlen; lia. Qed.

Lemma decode12_length l : zlen (decode12 l) = 2 * (zlen l / 3).
Proof.
  unfold zlen. induction l as [| | |a b c l IH] using list_ind3; try reflexivity.
  cbn [decode12 length]. lia.
Qed.

(** The loop on a remaining suffix [rest]; [m] triples are complete. *)
Lemma three_loop_spec rest : forall fc i size pre m,
  Forall is_byte rest -> skipn i fc = rest -> length rest = (3 * m)%nat ->
  size = zlen pre + 2 * Z.of_nat m ->
  three_loop m i fc size (zlen pre) (pre ++ repeat 0 (2 * m)) = Ok (pre ++ decode12 rest).
Proof.
  induction rest as [|a|a b|a b c rest IH] using list_ind3; intros fc i size pre m Hb Hsk Hlen Hsize.
  - assert (m = 0)%nat as -> by (cbn [length] in Hlen; lia). reflexivity.
  - cbn [length] in Hlen; lia.
  - cbn [length] in Hlen; lia.
  - destruct m as [|m]; [cbn [length] in Hlen; lia|].
    cbn [three_loop].
    assert (Esl : slice fc i (i + 3) = [a; b; c]).
    { unfold slice. rewrite Hsk. replace (i + 3 - i)%nat with 3%nat by lia. reflexivity. }
    rewrite Esl.
    inversion Hb as [|? ? Ha Hb1]; subst. inversion Hb1 as [|? ? Hb' Hb2]; subst.
    inversion Hb2 as [|? ? Hc Hb3]; subst.
    destruct (triple_bits a b c Ha Hb' Hc) as [E1 E2]. cbn zeta in E1, E2.
    rewrite E1, E2. cbn [bind].
    replace (2 * S m)%nat with (S (S (2 * m))) by lia.
    rewrite store_end by (unfold zlen in *; lia). cbn [bind].
    change (S (2 * m)) with (S (2 * m)).
    replace (zlen pre + 1) with (zlen (pre ++ [16 * a + b / 16])) by (rewrite zlen_app; reflexivity).
    rewrite store_end by (rewrite zlen_app; cbn [zlen length] in *; unfold zlen in *; cbn [length]; lia).
    cbn [bind].
    match goal with |- three_loop _ _ _ _ ?p (?q ++ _) = _ =>
      replace p with (zlen q) by (rewrite !zlen_app; unfold zlen; cbn [length]; lia) end.
    rewrite (IH fc (i + 3)%nat).
    + cbn [decode12]. rewrite <- !app_assoc. reflexivity.
    + exact Hb3.
    + replace (i + 3)%nat with (3 + i)%nat by lia.
      rewrite <- skipn_add. rewrite Hsk. reflexivity.
    + cbn [length] in Hlen. lia.
    + rewrite !zlen_app. unfold zlen. cbn [length]. lia.
Qed.

Lemma three_ok l m :
  Forall is_byte l -> length l = (3 * m)%nat -> three_bytes_to_two_ints l = Ok (decode12 l).
Proof.
  intros Hb Hlen. unfold three_bytes_to_two_ints.
  assert (E : zlen l * 2 / 3 = 2 * Z.of_nat m) by (unfold zlen; lia).
  rewrite E. replace (Nat.div (length l + 2) 3) with m.
  - replace (Z.to_nat (2 * Z.of_nat m)) with (2 * m)%nat by lia.
    apply (three_loop_spec l l 0 (2 * Z.of_nat m) [] m Hb eq_refl Hlen).
    unfold zlen; cbn [length]; lia.
  - rewrite Hlen. replace (3 * m + 2)%nat with (2 + m * 3)%nat by lia.
    rewrite Nat.div_add by lia. reflexivity.
Qed.

(** A partial triple makes the worker fail. *)
Lemma three_loop_bad rest : forall fc i size pre n m t,
  Forall is_byte rest -> skipn i fc = rest -> length rest = (3 * m + t)%nat -> (0 < t < 3)%nat ->
  n = S m ->
  size = zlen pre + 2 * Z.of_nat m + (Z.of_nat t - 1) ->
  three_loop n i fc size (zlen pre) (pre ++ repeat 0 (2 * m + (t - 1))) = Raise IndexError.
Proof.
  assert (Hb8 : forall z, exists x0 x1 x2 x3 x4 x5 x6 x7, bits8 z = [x0;x1;x2;x3;x4;x5;x6;x7])
    by (intros z; repeat eexists).
  induction rest as [|a|a b|a b c rest IH] using list_ind3;
    intros fc i size pre n m t Hb Hsk Hlen Ht Hn Hsize; cbn [length] in Hlen; [lia| | |].
  - assert (m = 0)%nat by lia. assert (t = 1)%nat by lia. subst m t n.
    cbn [three_loop].
    assert (Esl : slice fc i (i + 3) = [a]).
    { unfold slice. rewrite Hsk. replace (i + 3 - i)%nat with 3%nat by lia. reflexivity. }
    rewrite Esl. cbn [map concat]. destruct (Hb8 a) as (x0&x1&x2&x3&x4&x5&x6&x7&->). cbn -[store zlen Z.mul].
    unfold store. replace ((0 <=? zlen pre) && (zlen pre <? size)) with false by lia. reflexivity.
  - assert (m = 0)%nat by lia. assert (t = 2)%nat by lia. subst m t n.
    cbn [three_loop].
    assert (Esl : slice fc i (i + 3) = [a; b]).
    { unfold slice. rewrite Hsk. replace (i + 3 - i)%nat with 3%nat by lia. reflexivity. }
    rewrite Esl. cbn [map concat]. destruct (Hb8 a) as (x0&x1&x2&x3&x4&x5&x6&x7&->).
    destruct (Hb8 b) as (y0&y1&y2&y3&y4&y5&y6&y7&->). cbn -[store zlen Z.mul Z.add].
    unfold store at 1. replace ((0 <=? zlen pre) && (zlen pre <? size)) with true
      by (pose proof (zlen_nonneg pre); lia). cbn [bind].
    unfold store. replace ((0 <=? zlen pre + 1) && (zlen pre + 1 <? size)) with false by lia.
    reflexivity.
  - subst n. cbn [three_loop].
    assert (Esl : slice fc i (i + 3) = [a; b; c]).
    { unfold slice. rewrite Hsk. replace (i + 3 - i)%nat with 3%nat by lia. reflexivity. }
    rewrite Esl.
    inversion Hb as [|? ? Ha Hb1]; subst. inversion Hb1 as [|? ? Hb' Hb2]; subst.
    inversion Hb2 as [|? ? Hc Hb3]; subst.
    destruct (triple_bits a b c Ha Hb' Hc) as [E1 E2]. cbn zeta in E1, E2.
    rewrite E1, E2. cbn [bind].
    destruct m as [|m]; [lia|].
    replace (2 * S m + (t - 1))%nat with (S (S (2 * m + (t - 1)))) by lia.
    rewrite store_end by (unfold zlen in *; lia). cbn [bind].
    replace (zlen pre + 1) with (zlen (pre ++ [16 * a + b / 16])) by (rewrite zlen_app; reflexivity).
    rewrite store_end by (rewrite zlen_app; unfold zlen in *; cbn [length]; lia).
    cbn [bind].
    match goal with |- three_loop _ _ _ _ ?p (?q ++ _) = _ =>
      replace p with (zlen q) by (rewrite !zlen_app; unfold zlen; cbn [length]; lia) end.
    apply IH with (m := m) (t := t); try assumption; try reflexivity.
    + replace (i + 3)%nat with (3 + i)%nat by lia.
      rewrite <- skipn_add. rewrite Hsk. reflexivity.
    + lia.
    + rewrite !zlen_app. unfold zlen in *. cbn [length]. lia.
Qed.

Lemma three_bad l :
  Forall is_byte l -> (length l mod 3 <> 0)%nat -> three_bytes_to_two_ints l = Raise IndexError.
Proof.
  intros Hb Hlen. unfold three_bytes_to_two_ints.
  pose proof (Nat.div_mod (length l) 3 ltac:(lia)) as Hdm.
  pose proof (Nat.mod_upper_bound (length l) 3 ltac:(lia)) as Hub.
  set (m := (length l / 3)%nat) in *. set (t := (length l mod 3)%nat) in *.
  assert (E : zlen l * 2 / 3 = 2 * Z.of_nat m + (Z.of_nat t - 1)) by (unfold zlen; lia).
  rewrite E. replace (Nat.div (length l + 2) 3) with (S m).
  - replace (Z.to_nat (2 * Z.of_nat m + (Z.of_nat t - 1))) with (2 * m + (t - 1))%nat by lia.
    apply (three_loop_bad l l 0 _ [] (S m) m t Hb eq_refl); try lia.
    unfold zlen; cbn [length]; lia.
  - rewrite Hdm. replace (3 * m + t + 2)%nat with ((t - 1) + (S m) * 3)%nat by lia.
    rewrite Nat.div_add by lia. rewrite Nat.div_small by lia. reflexivity.
Qed.

Lemma three_cases l : Forall is_byte l ->
  three_bytes_to_two_ints l =
  if (length l mod 3 =? 0)%nat then Ok (decode12 l) else Raise IndexError.
Proof.
  intros Hb. destruct (length l mod 3 =? 0)%nat eqn:E.
  - apply Nat.eqb_eq in E. apply (three_ok l (length l / 3) Hb).
    pose proof (Nat.div_mod (length l) 3 ltac:(lia)). lia.
  - apply Nat.eqb_neq in E. apply three_bad; assumption.
Qed.

(** ** C44 *)
Lemma decode_range l : Forall is_byte l -> Forall is_12bit (decode12 l).
Proof.
  induction l as [| | |a b c l IH] using list_ind3; intros Hb; cbn [decode12]; try constructor.
  - inversion Hb as [|? ? Ha Hb1]; subst. inversion Hb1 as [|? ? Hb' Hb2]; subst.
    unfold is_byte, is_12bit in *. lia.
  - inversion Hb as [|? ? Ha Hb1]; subst. inversion Hb1 as [|? ? Hb' Hb2]; subst.
    inversion Hb2 as [|? ? Hc Hb3]; subst. constructor.
    + unfold is_byte, is_12bit in *. lia.
    + apply IH, Hb3.
Qed.

Lemma encode_decode l : Forall is_byte l -> (length l mod 3 = 0)%nat -> encode12 (decode12 l) = l.
Proof.
  induction l as [| | |a b c l IH] using list_ind3; intros Hb Hlen; try reflexivity; try discriminate.
  inversion Hb as [|? ? Ha Hb1]; subst. inversion Hb1 as [|? ? Hb' Hb2]; subst.
  inversion Hb2 as [|? ? Hc Hb3]; subst. cbn [decode12 encode12].
  rewrite IH; [|exact Hb3|].
  - unfold is_byte in *. repeat f_equal; lia.
  - cbn [length] in Hlen. replace (S (S (S (length l)))) with (length l + 1 * 3)%nat in Hlen by lia.
    rewrite Nat.mod_add in Hlen by lia. exact Hlen.
Qed.

Lemma list_ind2 {A} (P : list A -> Prop) :
  P [] -> (forall a, P [a]) -> (forall a b l, P l -> P (a :: b :: l)) -> forall l, P l.
Proof.
  intros H0 H1 H2.
  assert (G : forall l, P l /\ (forall a, P (a :: l))).
  { induction l as [|x l (I0 & I1)].
    - split; auto.
    - split; [apply I1|]. intros a. apply H2, I0. }
  intros l. exact (proj1 (G l)).
Qed.

Lemma decode_encode l : Forall is_12bit l -> (length l mod 2 = 0)%nat ->
  decode12 (encode12 l) = l /\ Forall is_byte (encode12 l) /\
  (length (encode12 l) = 3 * (length l / 2))%nat.
Proof.
  induction l as [| |u v l IH] using list_ind2; intros Hb Hlen.
  - repeat split; constructor.
  - discriminate.
  - inversion Hb as [|? ? Hu Hb1]; subst. inversion Hb1 as [|? ? Hv Hb2]; subst.
    assert (Hlen' : (length l mod 2 = 0)%nat).
    { cbn [length] in Hlen. replace (S (S (length l))) with (length l + 1 * 2)%nat in Hlen by lia.
      rewrite Nat.mod_add in Hlen by lia. exact Hlen. }
    destruct (IH Hb2 Hlen') as (I1 & I2 & I3).
    cbn [encode12 decode12]. unfold is_12bit in *. split; [|split].
    + rewrite I1. repeat f_equal; lia.
    + repeat (constructor; [unfold is_byte; lia|]). exact I2.
    + cbn [length]. replace (S (S (length l))) with (length l + 1 * 2)%nat by lia.
      rewrite Nat.div_add by lia. lia.
Qed.

Lemma c44_decode l :
  Forall is_byte l ->
  ((length l mod 3 = 0)%nat ->
     three_bytes_to_two_ints l = Ok (decode12 l) /\
     (length (decode12 l) = 2 * (length l / 3))%nat /\
     Forall is_12bit (decode12 l) /\ encode12 (decode12 l) = l) /\
  ((length l mod 3 <> 0)%nat -> three_bytes_to_two_ints l = Raise IndexError).
Proof.
  intros Hb. split; intros Hlen.
  - split; [|split; [|split]].
    + rewrite three_cases by exact Hb. rewrite Hlen. reflexivity.
    + pose proof (decode12_length l) as E. unfold zlen in E.
      pose proof (Nat.div_mod (length l) 3 ltac:(lia)). lia.
    + apply decode_range, Hb.
    + apply encode_decode; assumption.
  - apply three_bad; assumption.
Qed.

Lemma c44_unique vs :
  Forall is_12bit vs -> (length vs mod 2 = 0)%nat ->
  exists! l, Forall is_byte l /\ three_bytes_to_two_ints l = Ok vs.
Proof.
  intros Hv Hlen. destruct (decode_encode vs Hv Hlen) as (E1 & E2 & E3).
  exists (encode12 vs). split.
  - split; [exact E2|]. rewrite (three_ok _ _ E2 E3), E1. reflexivity.
  - intros l [Hl El]. rewrite three_cases in El by exact Hl.
    destruct (length l mod 3 =? 0)%nat eqn:Em; [|discriminate].
    apply Nat.eqb_eq in Em. injection El as El. rewrite <- El. apply encode_decode; assumption.
Qed.

(** ** The worker pool *)
Section Pool.
  Context {A B : Type} (f : A -> result B).

  Definition slots_ok (tasks : list A) (slots : list (option B)) : Prop :=
    length slots = length tasks /\
    forall k b, nth_error slots k = Some (Some b) ->
      exists t, nth_error tasks k = Some t /\ f t = Ok b.

  Lemma fill_length k (v : option B) slots : (k < length slots)%nat ->
    length (firstn k slots ++ v :: skipn (S k) slots) = length slots.
  Proof. intros Hk. rewrite app_length, firstn_length. cbn [length]. rewrite skipn_length. lia. Qed.

  Lemma fill_nth k (v : option B) slots j : (k < length slots)%nat ->
    nth_error (firstn k slots ++ v :: skipn (S k) slots) j =
    if (j =? k)%nat then Some v else nth_error slots j.
  Proof.
    intros Hk. destruct (j =? k)%nat eqn:E.
    - apply Nat.eqb_eq in E. subst j. rewrite nth_error_app2; rewrite firstn_length; [|lia].
      replace (k - Nat.min k (length slots))%nat with 0%nat by lia. reflexivity.
    - apply Nat.eqb_neq in E. destruct (Nat.lt_ge_cases j k) as [Hlt|Hge].
      + rewrite nth_error_app1 by (rewrite firstn_length; lia).
        rewrite <- (firstn_skipn k slots) at 2. rewrite nth_error_app1 by (rewrite firstn_length; lia).
        reflexivity.
      + rewrite nth_error_app2 by (rewrite firstn_length; lia). rewrite firstn_length.
        replace (j - Nat.min k (length slots))%nat with (S (j - S k)) by lia. cbn [nth_error].
        rewrite <- (firstn_skipn (S k) slots) at 2.
        rewrite nth_error_app2 by (rewrite firstn_length; lia). rewrite firstn_length.
        f_equal. lia.
  Qed.

  Lemma pool_run_ok tasks sch : forall slots slots',
    slots_ok tasks slots -> pool_run f tasks sch slots = Ok slots' ->
    slots_ok tasks slots' /\
    (forall k, (k < length tasks)%nat -> (In k sch \/ exists b, nth_error slots k = Some (Some b)) ->
       exists b, nth_error slots' k = Some (Some b)).
  Proof.
    induction sch as [|k sch IH]; intros slots slots' Hs Hrun; cbn [pool_run] in Hrun.
    - injection Hrun as <-. split; [exact Hs|]. intros k Hk [[]|Hb]. exact Hb.
    - destruct (nth_error tasks k) as [t|] eqn:Et.
      + destruct (f t) as [b| |] eqn:Ef; cbn [bind] in Hrun; try discriminate.
        assert (Hk : (k < length slots)%nat).
        { destruct Hs as [Hl _]. rewrite Hl. apply nth_error_Some. congruence. }
        assert (Hs' : slots_ok tasks (firstn k slots ++ Some b :: skipn (S k) slots)).
        { destruct Hs as [Hl Hc]. split; [rewrite fill_length; assumption|].
          intros j c. rewrite fill_nth by exact Hk. destruct (j =? k)%nat eqn:E.
          - apply Nat.eqb_eq in E. subst j. intros Hc'. injection Hc' as <-. eauto.
          - intros Hj. apply Hc. exact Hj. }
        destruct (IH _ _ Hs' Hrun) as [I1 I2].
        split; [exact I1|]. intros j Hj Hin. apply I2; [exact Hj|].
        destruct Hin as [[->|Hin]|[c Hc]].
        * right. exists b. rewrite fill_nth by exact Hk. rewrite Nat.eqb_refl. reflexivity.
        * left; exact Hin.
        * right. rewrite fill_nth by exact Hk. destruct (j =? k)%nat; eauto.
      + destruct (IH _ _ Hs Hrun) as [I1 I2]. split; [exact I1|].
        intros j Hj Hin. apply I2; [exact Hj|]. destruct Hin as [[->|Hin]|Hc]; auto.
        apply nth_error_None in Et. lia.
  Qed.

  Lemma pool_run_total tasks sch : forall slots,
    (forall t, In t tasks -> exists b, f t = Ok b) ->
    exists slots', pool_run f tasks sch slots = Ok slots'.
  Proof.
    induction sch as [|k sch IH]; intros slots Hf; cbn [pool_run]; [eauto|].
    destruct (nth_error tasks k) as [t|] eqn:Et; [|apply IH, Hf].
    destruct (Hf t (nth_error_In _ _ Et)) as [b ->]. cbn [bind]. apply IH, Hf.
  Qed.

  Lemma all_some_ok (l : list (option B)) :
    (forall k, (k < length l)%nat -> exists b, nth_error l k = Some (Some b)) ->
    exists r, all_some l = Ok r /\ l = map Some r.
  Proof.
    induction l as [|x l IH]; intros Hl.
    - exists []. split; reflexivity.
    - destruct (Hl 0%nat) as [b Hb]; [cbn; lia|]. cbn in Hb. injection Hb as ->.
      destruct IH as (r & E & El).
      { intros k Hk. apply (Hl (S k)). cbn. lia. }
      exists (b :: r). cbn [all_some]. rewrite E. cbn [bind map]. rewrite El. split; reflexivity.
  Qed.

  Lemma all_some_inv (l : list (option B)) r : all_some l = Ok r -> l = map Some r.
  Proof.
    revert r. induction l as [|[x|] l IH]; intros r E; cbn [all_some] in E.
    - injection E as <-. reflexivity.
    - destruct (all_some l) as [r'| |]; cbn [bind] in E; try discriminate.
      injection E as <-. cbn [map]. f_equal. apply IH. reflexivity.
    - discriminate.
  Qed.

  Lemma slots_ok_init tasks : slots_ok tasks (repeat None (length tasks)).
  Proof.
    split; [apply repeat_length|]. intros k b Hk. exfalso.
    apply nth_error_In in Hk. apply repeat_spec in Hk. discriminate.
  Qed.

  Lemma slots_map tasks r : slots_ok tasks (map Some r) -> map f tasks = map Ok r.
  Proof.
    revert r. induction tasks as [|t tasks IH]; intros [|b r] [Hl Hc]; cbn in Hl; try discriminate.
    - reflexivity.
    - cbn [map]. f_equal.
      + destruct (Hc 0%nat b eq_refl) as (t' & E & Ef). cbn in E. congruence.
      + apply IH. split; [cbn in *; lia|]. intros k c Hk. apply (Hc (S k) c Hk).
  Qed.

  Lemma pool_map_sound tasks sch r : pool_map f tasks sch = Ok r -> map f tasks = map Ok r.
  Proof.
    unfold pool_map. destruct (pool_run f tasks sch _) as [slots| |] eqn:E; cbn [bind]; try discriminate.
    intros Ha. apply all_some_inv in Ha. subst slots.
    destruct (pool_run_ok _ _ _ _ (slots_ok_init tasks) E) as [Hs _]. apply slots_map, Hs.
  Qed.

  Lemma pool_map_complete tasks sch r :
    (forall k, (k < length tasks)%nat -> In k sch) ->
    map f tasks = map Ok r -> pool_map f tasks sch = Ok r.
  Proof.
    intros Hsch Hr.
    assert (Hf : forall t, In t tasks -> exists b, f t = Ok b).
    { intros t Ht. apply (in_map f) in Ht. rewrite Hr in Ht. apply in_map_iff in Ht.
      destruct Ht as (b & E & _). eauto. }
    unfold pool_map. destruct (pool_run_total tasks sch (repeat None (length tasks)) Hf) as [slots E].
    rewrite E. cbn [bind].
    destruct (pool_run_ok _ _ _ _ (slots_ok_init tasks) E) as [Hs Hc].
    destruct (all_some_ok slots) as (r' & Er & El).
    { intros k Hk. apply Hc; [destruct Hs as [Hl _]; lia|]. left. apply Hsch.
      destruct Hs as [Hl _]; lia. }
    rewrite Er. subst slots. apply slots_map in Hs. rewrite Hr in Hs. f_equal.
    clear - Hs. revert r' Hs. induction r as [|b r IH]; intros [|b' r'] Hs; cbn in Hs; try discriminate.
    - reflexivity.
    - injection Hs as -> Hs. f_equal. apply IH. exact Hs.
  Qed.

  Lemma pool_map_raises tasks sch :
    (forall k, (k < length tasks)%nat -> In k sch) ->
    (forall t, In t tasks -> f t <> NoFuel) ->
    (exists t e, In t tasks /\ f t = Raise e) ->
    exists e, pool_map f tasks sch = Raise e /\ exists t, In t tasks /\ f t = Raise e.
  Proof.
    intros Hsch Hnf (t0 & e0 & Hin0 & Ef0).
    destruct (In_nth_error _ _ Hin0) as [k0 Hk0].
    assert (Hin : In k0 sch). { apply Hsch. apply nth_error_Some. congruence. }
    unfold pool_map.
    assert (G : forall sch slots, In k0 sch ->
      exists e, pool_run f tasks sch slots = Raise e /\ exists t, In t tasks /\ f t = Raise e).
    { clear sch Hsch Hin. induction sch as [|k sch IH]; intros slots Hin; [destruct Hin|].
      cbn [pool_run]. destruct (nth_error tasks k) as [t|] eqn:Et.
      - destruct (f t) as [b|e|] eqn:Ef.
        + cbn [bind]. apply IH. destruct Hin as [->|Hin]; [|exact Hin].
          exfalso. congruence.
        + exists e. cbn [bind]. split; [reflexivity|]. exists t. split; [|exact Ef].
          eapply nth_error_In; eassumption.
        + exfalso. apply (Hnf t); [eapply nth_error_In; eassumption|exact Ef].
      - apply IH. destruct Hin as [->|Hin]; [congruence|exact Hin]. }
    destruct (G sch (repeat None (length tasks)) Hin) as (e & E & t & Ht).
    exists e. rewrite E. cbn [bind]. split; [reflexivity|]. exists t. exact Ht.
  Qed.
End Pool.
