(** Lemmas about loops, indexing and arrays. *)
From Coq Require Import ZifyBool FinFun.
From Verif Require Import Base.Base.
Ltac Zify.zify_post_hook ::= Z.div_mod_to_equations.

Section LoopFacts.
  Context {S : Type}.

  Lemma iter_range_inv (P : Z -> S -> Prop) (n : nat) :
    forall (i step : Z) (k0 : Z) (body : Z -> S -> result S) (s : S),
    P k0 s ->
    (forall k s, k0 <= k < k0 + Z.of_nat n -> P k s ->
       exists s', body (i + (k - k0) * step) s = Ok s' /\ P (k + 1) s') ->
    exists s', iter_range n i step body s = Ok s' /\ P (k0 + Z.of_nat n) s'.
  Proof.
    induction n as [|n IH]; intros i step k0 body s H0 Hb; cbn [iter_range].
    - exists s; split; [reflexivity|]. replace (k0 + Z.of_nat 0) with k0 by lia. exact H0.
    - destruct (Hb k0 s ltac:(lia) H0) as (s1 & E1 & H1).
      replace (i + (k0 - k0) * step) with i in E1 by lia.
      rewrite E1; cbn [bind].
      destruct (IH (i + step) step (k0 + 1) body s1 H1) as (s2 & E2 & H2).
      + intros k s' Hk HP.
        destruct (Hb k s' ltac:(lia) HP) as (s3 & E3 & H3).
        exists s3; split; [|exact H3].
        replace (i + step + (k - (k0 + 1)) * step) with (i + (k - k0) * step) by ring.
        exact E3.
      + exists s2; split; [exact E2|].
        replace (k0 + Z.of_nat (Datatypes.S n)) with (k0 + 1 + Z.of_nat n) by lia.
        exact H2.
  Qed.

  Lemma range_len_bound lo hi step k :
    0 < step -> 0 <= k < range_len lo hi step -> lo + k * step < hi.
  Proof.
    unfold range_len; intros Hs Hk.
    assert (Hk' : k + 1 <= (hi - lo + step - 1) / step) by lia.
    assert (H1 : (k + 1) * step <= hi - lo + step - 1).
    { apply Z.le_trans with (((hi - lo + step - 1) / step) * step).
      - apply Z.mul_le_mono_nonneg_r; lia.
      - rewrite Z.mul_comm. apply Z.mul_div_le; lia. }
    lia.
  Qed.

  Lemma range_len_complete lo hi step k :
    0 < step -> 0 <= k -> lo + k * step < hi -> k < range_len lo hi step.
  Proof.
    unfold range_len; intros Hs Hk Hlt.
    assert (H1 : k + 1 <= (hi - lo + step - 1) / step).
    { apply Z.div_le_lower_bound; [lia|]. lia. }
    lia.
  Qed.

  (** Invariant indexed by the iteration number. *)
  Lemma for_range_inv (P : Z -> S -> Prop) lo hi step body (s : S) :
    0 < step ->
    P 0 s ->
    (forall k s, 0 <= k -> lo + k * step < hi -> P k s ->
       exists s', body (lo + k * step) s = Ok s' /\ P (k + 1) s') ->
    exists s', for_range lo hi step body s = Ok s' /\ P (range_len lo hi step) s'.
  Proof.
    intros Hs H0 Hb. unfold for_range.
    destruct (iter_range_inv P (Z.to_nat (range_len lo hi step)) lo step 0 body s H0)
      as (s' & E & H).
    - intros k s1 Hk HP.
      rewrite Z2Nat.id in Hk by (unfold range_len; lia).
      destruct (Hb k s1 ltac:(lia)) as (s2 & E2 & H2); [|exact HP|].
      + apply range_len_bound; lia.
      + exists s2. replace (k - 0) with k by lia. auto.
    - exists s'; split; [exact E|].
      rewrite Z2Nat.id in H by (unfold range_len; lia). exact H.
  Qed.

  Lemma range_len_1 lo hi : range_len lo hi 1 = Z.max 0 (hi - lo).
  Proof. unfold range_len. rewrite Z.div_1_r. lia. Qed.

  (** [range(lo, hi)]: invariant indexed by the loop variable. *)
  Lemma for_range_1 (P : Z -> S -> Prop) lo hi body (s : S) :
    lo <= hi ->
    P lo s ->
    (forall i s, lo <= i < hi -> P i s ->
       exists s', body i s = Ok s' /\ P (i + 1) s') ->
    exists s', for_range lo hi 1 body s = Ok s' /\ P hi s'.
  Proof.
    intros Hle H0 Hb.
    destruct (for_range_inv (fun k s => P (lo + k) s) lo hi 1 body s) as (s' & E & H).
    - lia.
    - replace (lo + 0) with lo by lia. exact H0.
    - intros k s1 Hk Hlt HP.
      destruct (Hb (lo + k) s1 ltac:(lia) HP) as (s2 & E2 & H2).
      exists s2. replace (lo + k * 1) with (lo + k) by lia.
      replace (lo + (k + 1)) with (lo + k + 1) by lia. auto.
    - exists s'; split; [exact E|].
      rewrite range_len_1 in H. replace (lo + Z.max 0 (hi - lo)) with hi in H by lia. exact H.
  Qed.

  Lemma for_range_empty lo hi step body (s : S) :
    0 < step -> hi <= lo -> for_range lo hi step body s = Ok s.
  Proof.
    intros Hs Hle. unfold for_range.
    assert (E : range_len lo hi step = 0).
    { destruct (Z.eq_dec (range_len lo hi step) 0) as [E|E]; [exact E|].
      assert (0 <= range_len lo hi step) by (unfold range_len; lia).
      pose proof (range_len_bound lo hi step 0 Hs ltac:(lia)). lia. }
    rewrite E. reflexivity.
  Qed.

  Lemma for_range_step lo hi body (s : S) :
    lo < hi ->
    for_range lo hi 1 body s = bind (body lo s) (for_range (lo + 1) hi 1 body).
  Proof.
    intros H. unfold for_range. rewrite !range_len_1.
    replace (Z.to_nat (Z.max 0 (hi - lo)))
      with (Datatypes.S (Z.to_nat (Z.max 0 (hi - (lo + 1))))) by lia.
    reflexivity.
  Qed.

  Lemma for_range_ext lo hi step (b1 b2 : Z -> S -> result S) (s : S) :
    (forall i s, b1 i s = b2 i s) -> for_range lo hi step b1 s = for_range lo hi step b2 s.
  Proof.
    intros H. unfold for_range.
    set (n := Z.to_nat (range_len lo hi step)). clearbody n.
    revert lo s; induction n as [|n IH]; intros lo' s'; cbn [iter_range]; [reflexivity|].
    rewrite H. destruct (b2 lo' s'); cbn [bind]; auto.
  Qed.

  Lemma while_fuel_mono f1 f2 cond body (s r : S) :
    (f1 <= f2)%nat -> while_loop f1 cond body s = Ok r -> while_loop f2 cond body s = Ok r.
  Proof.
    revert f2 s; induction f1 as [|f1 IH]; intros f2 s Hle; cbn [while_loop].
    - destruct (cond s) eqn:E; [discriminate|]. intros H.
      destruct f2; cbn [while_loop]; rewrite E; exact H.
    - destruct f2 as [|f2]; [lia|]. cbn [while_loop].
      destruct (cond s); [|auto]. apply IH; lia.
  Qed.

  Lemma while_diverges (I : S -> Prop) cond body s :
    I s -> (forall s, I s -> cond s = true /\ I (body s)) ->
    forall fuel, while_loop fuel cond body s = NoFuel.
  Proof.
    intros H0 Hstep fuel; revert s H0.
    induction fuel as [|f IH]; intros s H0; cbn [while_loop];
      destruct (Hstep s H0) as [Hc Hn]; rewrite Hc; auto.
  Qed.
End LoopFacts.

(** ** Indexing *)

Lemma norm_idx_in n i : 0 <= i < n -> norm_idx n i = Some i.
Proof. intros H. unfold norm_idx. replace ((0 <=? i) && (i <? n)) with true by lia. reflexivity. Qed.

Lemma norm_idx_neg n i : - n <= i < 0 -> norm_idx n i = Some (n + i).
Proof.
  intros H. unfold norm_idx. replace ((0 <=? i) && (i <? n)) with false by lia.
  replace ((- n <=? i) && (i <? 0)) with true by lia. reflexivity.
Qed.

Lemma norm_idx_out n i : n <= i \/ i < - n -> 0 <= n -> norm_idx n i = None.
Proof.
  intros H Hn. unfold norm_idx. replace ((0 <=? i) && (i <? n)) with false by lia.
  replace ((- n <=? i) && (i <? 0)) with false by lia. reflexivity.
Qed.

Lemma get_in {A} (a : arr A) y x :
  0 <= y < rows a -> 0 <= x < cols a -> get a y x = Ok (cell a y x).
Proof. intros Hy Hx. unfold get. rewrite !norm_idx_in by assumption. reflexivity. Qed.

Lemma set_in {A} (a : arr A) y x v :
  0 <= y < rows a -> 0 <= x < cols a ->
  set a y x v = Ok (mkarr (rows a) (cols a) (upd (cell a) y x v)).
Proof. intros Hy Hx. unfold set. rewrite !norm_idx_in by assumption. reflexivity. Qed.

Lemma upd_eq {A} (f : Z -> Z -> A) y x v : upd f y x v y x = v.
Proof. unfold upd. rewrite !Z.eqb_refl. reflexivity. Qed.

Lemma upd_neq {A} (f : Z -> Z -> A) y x v y' x' :
  (y' <> y \/ x' <> x) -> upd f y x v y' x' = f y' x'.
Proof. intros H. unfold upd. replace ((y' =? y) && (x' =? x)) with false by lia. reflexivity. Qed.

(** ** Observable equality *)

Lemma aeq_refl {A} (a : arr A) : a =a= a.
Proof. repeat split. Qed.

Lemma aeq_sym {A} (a b : arr A) : a =a= b -> b =a= a.
Proof.
  intros (H1 & H2 & H3). split; [|split]; auto.
  intros y x Hy Hx. symmetry. apply H3; lia.
Qed.

Lemma aeq_trans {A} (a b c : arr A) : a =a= b -> b =a= c -> a =a= c.
Proof.
  intros (H1 & H2 & H3) (G1 & G2 & G3). split; [|split]; try congruence.
  intros y x Hy Hx. rewrite H3 by assumption. apply G3; lia.
Qed.

Lemma bind_ok {A B} (r : result A) (f : A -> result B) b :
  bind r f = Ok b -> exists a, r = Ok a /\ f a = Ok b.
Proof. destruct r; cbn [bind]; intros H; try discriminate. eauto. Qed.

(** ** [zrange] *)

Lemma zrange_0 : zrange 0 = [].
Proof. reflexivity. Qed.

Lemma zrange_neg n : n <= 0 -> zrange n = [].
Proof. intros H. unfold zrange. replace (Z.to_nat n) with O by lia. reflexivity. Qed.

Lemma zrange_succ n : 0 <= n -> zrange (n + 1) = zrange n ++ [n].
Proof.
  intros H. unfold zrange. replace (Z.to_nat (n + 1)) with (S (Z.to_nat n)) by lia.
  rewrite seq_S, map_app. cbn [map]. rewrite Nat.add_0_l, Z2Nat.id by lia. reflexivity.
Qed.

Lemma in_zrange n i : In i (zrange n) <-> 0 <= i < n.
Proof.
  unfold zrange. rewrite in_map_iff. split.
  - intros (k & <- & Hk). apply in_seq in Hk. lia.
  - intros H. exists (Z.to_nat i). split; [lia|]. apply in_seq. lia.
Qed.

Lemma length_zrange n : length (zrange n) = Z.to_nat n.
Proof. unfold zrange. rewrite map_length, seq_length. reflexivity. Qed.

Lemma NoDup_zrange n : NoDup (zrange n).
Proof.
  unfold zrange. apply FinFun.Injective_map_NoDup; [|apply seq_NoDup].
  intros x y Hxy. lia.
Qed.

Lemma nth_error_zrange n i : 0 <= i < n -> nth_error (zrange n) (Z.to_nat i) = Some i.
Proof.
  intros Hi. unfold zrange. rewrite nth_error_map, (nth_error_nth' _ 0%nat) by (rewrite seq_length; lia).
  rewrite seq_nth by lia. cbn [option_map]. f_equal. lia.
Qed.

(** ** A loop nest in which iteration (y, x) only updates cell (y, x) *)

Section Fill.
  Context {A : Type}.

  (** [s'] is [s] with cell (y, x) replaced by [v]. *)
  Definition upd1 (s s' : arr A) (y x : Z) (v : A) : Prop :=
    rows s' = rows s /\ cols s' = cols s /\
    forall y' x', cell s' y' x' = if (y' =? y) && (x' =? x) then v else cell s y' x'.

  Lemma set_upd1 (s : arr A) y x v :
    0 <= y < rows s -> 0 <= x < cols s ->
    exists s', set s y x v = Ok s' /\ upd1 s s' y x v.
  Proof.
    intros Hy Hx. rewrite set_in by assumption. eexists; split; [reflexivity|].
    repeat split; reflexivity.
  Qed.

  Lemma for_upd_row (a : arr A) y lo hi (V : Z -> A -> A) (body : Z -> arr A -> result (arr A)) :
    (forall x s, lo <= x < hi -> rows s = rows a -> cols s = cols a ->
        exists s', body x s = Ok s' /\ upd1 s s' y x (V x (cell s y x))) ->
    exists b, for_range lo hi 1 body a = Ok b /\ rows b = rows a /\ cols b = cols a /\
      forall y' x', cell b y' x' =
        if (y' =? y) && (lo <=? x') && (x' <? hi) then V x' (cell a y' x') else cell a y' x'.
  Proof.
    intros Hbody.
    destruct (Z_lt_le_dec lo hi) as [Hlt|Hge].
    2: { exists a. rewrite for_range_empty by lia. repeat split; try reflexivity.
         intros y' x'. replace ((y' =? y) && (lo <=? x') && (x' <? hi)) with false by lia.
         reflexivity. }
    destruct (for_range_1 (fun i b => rows b = rows a /\ cols b = cols a /\
      forall y' x', cell b y' x' =
        if (y' =? y) && (lo <=? x') && (x' <? i) then V x' (cell a y' x') else cell a y' x')
      lo hi body a) as (b & E & H).
    - lia.
    - repeat split; try reflexivity. intros y' x'.
      replace ((y' =? y) && (lo <=? x') && (x' <? lo)) with false by lia. reflexivity.
    - intros i s Hi (Hr & Hc & Hcell).
      destruct (Hbody i s Hi Hr Hc) as (s' & Es & Hr' & Hc' & Hcell').
      exists s'; split; [exact Es|]. split; [lia|]. split; [lia|].
      intros y' x'. rewrite Hcell', !Hcell.
      destruct (Z.eqb_spec y' y), (Z.eqb_spec x' i); cbn [andb];
        destruct (Z.leb_spec lo x'), (Z.ltb_spec x' i), (Z.ltb_spec x' (i + 1));
        cbn [andb]; try lia; subst; try reflexivity.
      replace ((y =? y) && (lo <=? i) && (i <? i)) with false by lia. reflexivity.
    - exists b; tauto.
  Qed.

  Lemma for_upd_rect (a : arr A) ylo yhi xlo xhi (V : Z -> Z -> A -> A)
        (body : Z -> Z -> arr A -> result (arr A)) :
    (forall y x s, ylo <= y < yhi -> xlo <= x < xhi -> rows s = rows a -> cols s = cols a ->
        exists s', body y x s = Ok s' /\ upd1 s s' y x (V y x (cell s y x))) ->
    exists b, for_range ylo yhi 1 (fun y => for_range xlo xhi 1 (body y)) a = Ok b /\
      rows b = rows a /\ cols b = cols a /\
      forall y' x', cell b y' x' =
        if (ylo <=? y') && (y' <? yhi) && (xlo <=? x') && (x' <? xhi)
        then V y' x' (cell a y' x') else cell a y' x'.
  Proof.
    intros Hbody.
    destruct (Z_lt_le_dec ylo yhi) as [Hlt|Hge].
    2: { exists a. rewrite for_range_empty by lia. repeat split; try reflexivity.
         intros y' x'.
         replace ((ylo <=? y') && (y' <? yhi) && (xlo <=? x') && (x' <? xhi)) with false by lia.
         reflexivity. }
    destruct (for_range_1 (fun i b => rows b = rows a /\ cols b = cols a /\
      forall y' x', cell b y' x' =
        if (ylo <=? y') && (y' <? i) && (xlo <=? x') && (x' <? xhi)
        then V y' x' (cell a y' x') else cell a y' x')
      ylo yhi (fun y => for_range xlo xhi 1 (body y)) a) as (b & E & H).
    - lia.
    - repeat split; try reflexivity. intros y' x'.
      replace ((ylo <=? y') && (y' <? ylo) && (xlo <=? x') && (x' <? xhi)) with false by lia.
      reflexivity.
    - intros i s Hi (Hr & Hc & Hcell).
      destruct (for_upd_row s i xlo xhi (V i) (body i)) as (b & Eb & Hbr & Hbc & Hbcell).
      { intros x s' Hx Hr' Hc'. apply Hbody; lia. }
      exists b; split; [exact Eb|]. split; [lia|]. split; [lia|].
      intros y' x'. rewrite Hbcell, !Hcell.
      destruct (Z.eqb_spec y' i), (Z.leb_spec ylo y'), (Z.ltb_spec y' i),
        (Z.ltb_spec y' (i + 1)), (Z.leb_spec xlo x'), (Z.ltb_spec x' xhi);
        cbn [andb]; try lia; subst; reflexivity.
    - exists b; tauto.
  Qed.

  (** A rectangle filled with state-independent values. *)
  Lemma for_set_rect (a : arr A) ylo yhi xlo xhi (v : Z -> Z -> A)
        (body : Z -> Z -> arr A -> result (arr A)) :
    0 <= ylo -> yhi <= rows a -> 0 <= xlo -> xhi <= cols a ->
    (forall y x s, ylo <= y < yhi -> xlo <= x < xhi -> rows s = rows a -> cols s = cols a ->
        body y x s = set s y x (v y x)) ->
    exists b, for_range ylo yhi 1 (fun y => for_range xlo xhi 1 (body y)) a = Ok b /\
      rows b = rows a /\ cols b = cols a /\
      forall y' x', cell b y' x' =
        if (ylo <=? y') && (y' <? yhi) && (xlo <=? x') && (x' <? xhi)
        then v y' x' else cell a y' x'.
  Proof.
    intros Hylo Hyhi Hxlo Hxhi Hbody.
    apply (for_upd_rect a ylo yhi xlo xhi (fun y x _ => v y x) body).
    intros y x s Hy Hx Hr Hc. rewrite Hbody by assumption.
    apply set_upd1; lia.
  Qed.

  (** Loops that accumulate into one fixed cell (Y, X): [l] lists the addends. *)
  Context (op : A -> A -> A).

  Definition accs (s s' : arr A) (Y X : Z) (l : list A) : Prop :=
    upd1 s s' Y X (fold_left op l (cell s Y X)).

  Lemma accs_nil s Y X : accs s s Y X [].
  Proof.
    repeat split; try reflexivity. intros y x. cbn [fold_left].
    destruct (Z.eqb_spec y Y), (Z.eqb_spec x X); cbn [andb]; subst; reflexivity.
  Qed.

  Lemma accs_app s s1 s2 Y X l1 l2 :
    accs s s1 Y X l1 -> accs s1 s2 Y X l2 -> accs s s2 Y X (l1 ++ l2).
  Proof.
    intros (R1 & C1 & H1) (R2 & C2 & H2). split; [lia|]. split; [lia|].
    intros y x. rewrite H2, fold_left_app.
    destruct ((y =? Y) && (x =? X)) eqn:E; [|rewrite H1, E; reflexivity].
    rewrite H1. replace ((Y =? Y) && (X =? X)) with true by lia. reflexivity.
  Qed.

  Lemma for_accs lo hi step body (g : Z -> list A) (s : arr A) Y X :
    0 < step ->
    (forall k s', 0 <= k -> lo + k * step < hi -> rows s' = rows s -> cols s' = cols s ->
       exists s'', body (lo + k * step) s' = Ok s'' /\ accs s' s'' Y X (g k)) ->
    exists s', for_range lo hi step body s = Ok s' /\
               accs s s' Y X (flat_map g (zrange (range_len lo hi step))).
  Proof.
    intros Hstep Hbody.
    destruct (for_range_inv (fun k s' => 0 <= k /\ accs s s' Y X (flat_map g (zrange k)))
                lo hi step body s) as (s' & E & H1 & H2).
    - exact Hstep.
    - split; [lia|]. apply accs_nil.
    - intros k s' Hk Hlt (_ & Hacc). pose proof Hacc as (Hr & Hc & _).
      destruct (Hbody k s' Hk Hlt Hr Hc) as (s'' & E & Hacc').
      exists s''; split; [exact E|]. split; [lia|].
      rewrite zrange_succ by lia. rewrite flat_map_app. cbn [flat_map].
      rewrite app_nil_r. eapply accs_app; eassumption.
    - exists s'; split; assumption.
  Qed.
End Fill.

(** Even numbers as doubles. *)
Lemma even_double n : n mod 2 = 0 -> n = 2 * (n / 2).
Proof. lia. Qed.

Lemma stride2_len_even n j : 0 <= n -> n mod 2 = 0 -> (j = 0 \/ j = 1) -> stride2_len n j = n / 2.
Proof. unfold stride2_len. intros Hn He [->| ->]; lia. Qed.
