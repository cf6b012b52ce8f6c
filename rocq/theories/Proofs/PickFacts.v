(** Resampling without interpolation (C146). *)
From Coq Require Import ZArith Reals Lra Lia List Floats.SpecFloat.
From Flocq Require Import Core Relative Plus_error BinarySingleNaN.
From Verif Require Import Base.Base Base.Num Base.BaseFacts Model.Congrid Model.CongridKind Spec.AngleSpec Spec.InterpSpec Spec.FloatSpec Spec.PickSpec
  Proofs.FloatFacts Proofs.ExactFacts Proofs.RoundFacts Proofs.AnglesFloatFacts Proofs.CongridFacts Proofs.ResampleFacts Proofs.ResampleFloat.
Local Open Scope R_scope.

#[local] Existing Instance Hprec.
#[local] Existing Instance Hmax.
#[local] Existing Instance fexp64_valid.
#[local] Existing Instance fexp64_mono.

(** ** Counting *)
Lemma count_prefix (p : Z -> bool) (n : Z) : (0 <= n)%Z -> (forall i j, (0 <= i <= j)%Z -> (j < n)%Z -> p j = true -> p i = true) ->
  exists c, Z.of_nat (length (filter p (zrange n))) = c /\ (0 <= c <= n)%Z /\ forall i, (0 <= i < n)%Z -> (p i = true <-> (i < c)%Z).
Proof.
  intros Hn. pattern n. apply natlike_ind; [|clear n Hn; intros n Hn IH|exact Hn]; intros Hp.
  - exists 0%Z. split; [reflexivity|]. split; [lia|]. intros i Hi. lia.
  - change (Z.succ n) with (n + 1)%Z in *. destruct IH as (c & Ec & Bc & Hc); [intros i j Hi Hj; apply Hp; lia|].
    rewrite zrange_succ by exact Hn. rewrite filter_app, app_length, Nat2Z.inj_add, Ec. cbn [filter]. destruct (p n) eqn:Epn.
    + assert (c = n) as ->.
      { destruct (Z.eq_dec c n) as [->|Ne]; [reflexivity|exfalso]. assert (P : p c = true) by (apply (Hp c n); [lia|lia|exact Epn]). apply Hc in P; lia. }
      exists (n + 1)%Z. split; [reflexivity|]. split; [lia|]. intros i Hi. split; [lia|]. intros _. apply (Hp i n); [lia|lia|exact Epn].
    + exists c. split; [cbn [length]; lia|]. split; [lia|]. intros i Hi. destruct (Z.eq_dec i n) as [->|Ne]; [rewrite Epn; split; [discriminate|lia]|apply Hc; lia].
Qed.

Lemma half_way_value i : (0 <= i < 2 ^ 50)%Z -> is_value (half_way i) (IZR i + / 2).
Proof.
  intros Hi. assert (H2 : forall j, (0 <= j <= 2 ^ 50)%Z -> is_value (nofZ j /! nofZ 2) (fixed j 1)).
  { intros j Hj. rewrite <- (rnd_fixed j 1) by lia. replace (fixed j 1) with (IZR j / 2) by (unfold fixed; change (bpow radix2 (- (1))) with (/ 2); reflexivity).
    apply div_value; [apply ofZ_value; lia|apply (ofZ_value 2); lia|lra|]. replace (IZR j / 2) with (fixed j 1) by (unfold fixed; change (bpow radix2 (- (1))) with (/ 2); reflexivity).
    rewrite rnd_fixed by lia. apply fixed_small; lia. }
  unfold half_way. replace (IZR i + / 2) with (rnd (fixed (i + 1) 1 + fixed i 1)).
  - apply add_value; [apply H2; lia|apply H2; lia|]. rewrite fixed_add, rnd_fixed by lia. apply fixed_small; lia.
  - rewrite fixed_add, rnd_fixed by lia. unfold fixed. change (bpow radix2 (- (1))) with (/ 2). rewrite plus_IZR, plus_IZR. lra.
Qed.

Lemma left_count (n : Z) (b : Z -> b64) (t : Z -> R) v r : (0 <= n)%Z -> (forall i, (0 <= i < n)%Z -> is_value (b i) (t i)) ->
  (forall i j, (0 <= i <= j)%Z -> (j < n)%Z -> t i <= t j) -> is_value v r ->
  exists c, search_left n b v = c /\ (0 <= c <= n)%Z /\ forall i, (0 <= i < n)%Z -> (t i < r <-> (i < c)%Z).
Proof.
  intros Hn Hb Ht V. assert (E : forall i, (0 <= i < n)%Z -> (nltb (b i) v = true <-> t i < r)).
  { intros i Hi. rewrite (ltb_value _ _ _ _ (Hb i Hi) V). case Rlt_bool_spec; intros L; split; intros M; try reflexivity; try discriminate; lra. }
  destruct (count_prefix (fun i => nltb (b i) v) n Hn) as (c & Ec & Bc & Hc).
  { intros i j Hi Hj Hp. apply E in Hp; [|lia]. apply E; [lia|]. pose proof (Ht i j Hi Hj). lra. }
  exists c. split; [exact Ec|]. split; [exact Bc|]. intros i Hi. rewrite <- (Hc i Hi). symmetry. apply E, Hi.
Qed.
Lemma right_count (n : Z) (b : Z -> b64) (t : Z -> R) v r : (0 <= n)%Z -> (forall i, (0 <= i < n)%Z -> is_value (b i) (t i)) ->
  (forall i j, (0 <= i <= j)%Z -> (j < n)%Z -> t i <= t j) -> is_value v r ->
  exists c, search_right n b v = c /\ (0 <= c <= n)%Z /\ forall i, (0 <= i < n)%Z -> (t i <= r <-> (i < c)%Z).
Proof.
  intros Hn Hb Ht V. assert (E : forall i, (0 <= i < n)%Z -> (nleb (b i) v = true <-> t i <= r)).
  { intros i Hi. rewrite (leb_value _ _ _ _ (Hb i Hi) V). case Rle_bool_spec; intros L; split; intros M; try reflexivity; try discriminate; lra. }
  destruct (count_prefix (fun i => nleb (b i) v) n Hn) as (c & Ec & Bc & Hc).
  { intros i j Hi Hj Hp. apply E in Hp; [|lia]. apply E; [lia|]. pose proof (Ht i j Hi Hj). lra. }
  exists c. split; [exact Ec|]. split; [exact Bc|]. intros i Hi. rewrite <- (Hc i Hi). symmetry. apply E, Hi.
Qed.

(** ** Picking *)
(** [r], moved into the range of the samples *)
Definition inside (n : Z) (r : R) : R := Rmin r (IZR (n - 1)).

Lemma pick_spec k n v r : (2 <= n <= 2 ^ 26)%Z -> is_value v r -> 0 <= r ->
  (k = Next /\ IZR (n - 1) < r /\ pick k n v = None) \/
  (~ (k = Next /\ IZR (n - 1) < r) /\ exists i, pick k n v = Some i /\ (0 <= i < n)%Z /\ asked k (inside n r) i).
Proof.
  intros Hn V R0. assert (N1 : 1 <= IZR (n - 1)) by (apply IZR_le; lia).
  assert (V0 : is_value (nofZ 0) 0) by (apply (ofZ_value 0); lia). assert (Vn : is_value (nofZ (n - 1)) (IZR (n - 1))) by (apply ofZ_value; lia).
  assert (Mh : forall i j, (0 <= i <= j)%Z -> (j < n - 1)%Z -> IZR i + / 2 <= IZR j + / 2) by (intros i j Hi _; assert (IZR i <= IZR j) by (apply IZR_le; lia); lra).
  assert (Mi : forall i j, (0 <= i <= j)%Z -> (j < n)%Z -> IZR i <= IZR j) by (intros i j Hi _; apply IZR_le; lia).
  assert (In : r <= IZR (n - 1) /\ inside n r = r \/ IZR (n - 1) < r /\ inside n r = IZR (n - 1)).
  { unfold inside. destruct (Rle_or_lt r (IZR (n - 1))) as [L|L]; [left; split; [exact L|apply Rmin_left, L]|right; split; [exact L|apply Rmin_right; lra]]. }
  destruct k; cbn [pick].
  - right. split; [intros [E _]; discriminate|].
    destruct (left_count (n - 1) half_way (fun i => IZR i + / 2) v r) as (c & -> & Bc & Hc); [lia|intros i Hi; apply half_way_value; lia|exact Mh|exact V|].
    exists c. unfold clip. split; [f_equal; lia|]. split; [lia|]. cbn [asked].
    assert (A1 : (c = 0)%Z \/ IZR (c - 1) + / 2 < r) by (destruct (Z.eq_dec c 0) as [->|Ne]; [left; reflexivity|right; apply Hc; lia]).
    assert (A2 : (c = n - 1)%Z \/ r <= IZR c + / 2) by (destruct (Z.eq_dec c (n - 1)) as [->|Ne]; [left; reflexivity|right; destruct (Rle_or_lt r (IZR c + / 2)) as [L|L]; [exact L|apply Hc in L; lia]]).
    assert (C0 : 0 <= IZR c <= IZR (n - 1)) by (split; apply IZR_le; lia).
    destruct A1 as [E1|A1]; destruct A2 as [E2|A2]; destruct In as [[L ->]|[L ->]]; try rewrite minus_IZR in A1; try (rewrite E1 in *); try lia; try lra.
    all: rewrite <- E2 in *; lra.
  - right. split; [intros [E _]; discriminate|].
    destruct (right_count (n - 1) half_way (fun i => IZR i + / 2) v r) as (c & -> & Bc & Hc); [lia|intros i Hi; apply half_way_value; lia|exact Mh|exact V|].
    exists c. unfold clip. split; [f_equal; lia|]. split; [lia|]. cbn [asked].
    assert (A1 : (c = 0)%Z \/ IZR (c - 1) + / 2 <= r) by (destruct (Z.eq_dec c 0) as [->|Ne]; [left; reflexivity|right; apply Hc; lia]).
    assert (A2 : (c = n - 1)%Z \/ r < IZR c + / 2) by (destruct (Z.eq_dec c (n - 1)) as [->|Ne]; [left; reflexivity|right; destruct (Rlt_or_le r (IZR c + / 2)) as [L|L]; [exact L|apply Hc in L; lia]]).
    assert (C0 : 0 <= IZR c <= IZR (n - 1)) by (split; apply IZR_le; lia).
    destruct A1 as [E1|A1]; destruct A2 as [E2|A2]; destruct In as [[L ->]|[L ->]]; try rewrite minus_IZR in A1; try (rewrite E1 in *); try lia; try lra.
    all: rewrite <- E2 in *; lra.
  - right. split; [intros [E _]; discriminate|].
    rewrite (ltb_value _ _ _ _ V V0), (ltb_value _ _ _ _ Vn V). rewrite Rlt_bool_false by exact R0. case Rlt_bool_spec; intros L.
    + exists (n - 1)%Z. split; [reflexivity|]. split; [lia|]. destruct In as [[L' _]|[_ ->]]; [lra|]. cbn [asked]. lra.
    + destruct (right_count n nofZ IZR v r) as (c & -> & Bc & Hc); [lia|intros i Hi; apply ofZ_value; lia|exact Mi|exact V|].
      assert (C1 : (0 < c)%Z) by (apply Hc; [lia|exact R0]). assert (L1 : IZR (c - 1) <= r) by (apply Hc; lia).
      exists (c - 1)%Z. unfold clip. split; [f_equal; lia|]. split; [lia|]. destruct In as [[_ ->]|[L' _]]; [|lra]. cbn [asked]. split; [exact L1|].
      destruct (Z.eq_dec c n) as [->|Ne]; [lra|]. destruct (Rlt_or_le r (IZR c)) as [M|M]; [rewrite minus_IZR; lra|]. apply Hc in M; lia.
  - rewrite (ltb_value _ _ _ _ V V0), (ltb_value _ _ _ _ Vn V). rewrite Rlt_bool_false by exact R0. case Rlt_bool_spec; intros L.
    + left. split; [reflexivity|]. split; [exact L|reflexivity].
    + right. split; [intros [_ L']; lra|].
      destruct (left_count n nofZ IZR v r) as (c & -> & Bc & Hc); [lia|intros i Hi; apply ofZ_value; lia|exact Mi|exact V|].
      assert (C1 : (c < n)%Z).
      { destruct (Z.eq_dec c n) as [->|Ne]; [|lia]. assert (IZR (n - 1) < r) by (apply Hc; lia). lra. }
      exists c. unfold clip. split; [f_equal; lia|]. split; [lia|]. destruct In as [[_ ->]|[L' _]]; [|lra]. cbn [asked]. split.
      * destruct (Z.eq_dec c 0) as [->|Ne]; [lra|]. assert (IZR (c - 1) < r) by (apply Hc; lia). rewrite minus_IZR in H. lra.
      * destruct (Rle_or_lt r (IZR c)) as [M|M]; [exact M|]. apply Hc in M; lia.
Qed.

(** ** Positions *)
Lemma asked_le k r r' i j : r <= r' -> asked k r i -> asked k r' j -> (i <= j)%Z.
Proof. intros L Hi Hj. apply Z.lt_succ_r. unfold Z.succ. apply lt_IZR. rewrite plus_IZR. destruct k; cbn [asked] in *; lra. Qed.
Lemma asked_unique k r i j : asked k r i -> asked k r j -> i = j.
Proof. intros Hi Hj. apply Z.le_antisymm; [apply (asked_le k r r)|apply (asked_le k r r)]; auto using Rle_refl. Qed.

Lemma inside_le n r r' : r <= r' -> inside n r <= inside n r'.
Proof. intros L. unfold inside. apply Rle_min_compat_r, L. Qed.
Lemma inside_near n r s e : s <= IZR (n - 1) -> Rabs (r - s) <= e -> Rabs (inside n r - s) <= e.
Proof.
  intros Hs He. unfold inside. destruct (Rle_or_lt r (IZR (n - 1))) as [L|L]; [rewrite Rmin_left by exact L; exact He|].
  rewrite Rmin_right by lra. apply Rle_trans with (2 := He). rewrite !Rabs_pos_eq by lra. lra.
Qed.
Lemma inside_same n r : r <= IZR (n - 1) -> inside n r = r.
Proof. intros L. apply Rmin_left, L. Qed.

Lemma position_error_val n : position_error n = 3 * u * IZR (n - 1).
Proof. unfold position_error. rewrite <- (bpow_powerRZ radix2). reflexivity. Qed.

Lemma positions n m : (2 <= n <= 2 ^ 26)%Z -> (2 <= m <= 2 ^ 26)%Z ->
  exists r : Z -> R,
    (forall k, (0 <= k < m)%Z -> is_value (position (A := b64) n m k) (r k) /\ 0 <= r k /\ Rabs (r k - spread n m k) <= position_error n /\ ((k < m - 1)%Z -> r k <= IZR (n - 1))) /\
    (forall k l, (0 <= k <= l)%Z -> (l < m)%Z -> r k <= r l).
Proof.
  intros Hn Hm. exists (fun k => fval (position (A := b64) n m k)).
  assert (N1 : 1 <= IZR (n - 1) <= bpow radix2 26) by (split; [apply (IZR_le 1); lia|change (bpow radix2 26) with (IZR (2 ^ 26)); apply IZR_le; lia]).
  assert (M1 : 1 <= IZR (m - 1) <= bpow radix2 26) by (split; [apply (IZR_le 1); lia|change (bpow radix2 26) with (IZR (2 ^ 26)); apply IZR_le; lia]).
  assert (V : forall k, (0 <= k < m)%Z -> is_value (position (A := b64) n m k) (fval (position (A := b64) n m k)) /\ 0 <= fval (position (A := b64) n m k) /\ Rabs (fval (position (A := b64) n m k) - spread n m k) <= position_error n).
  { intros k Hk. destruct (position_value n m k Hn Hm ltac:(lia)) as (r & Vr & R0 & Er). rewrite (value_val _ _ Vr). rewrite position_error_val. auto. }
  split.
  - intros k Hk. destruct (V k Hk) as (V1 & V2 & V3). split; [exact V1|]. split; [exact V2|]. split; [exact V3|]. intros Hl.
    rewrite position_error_val in V3. apply Rabs_le_inv in V3.
    assert (K : IZR k <= IZR (m - 1) - 1) by (rewrite <- minus_IZR; apply IZR_le; lia).
    assert (S : spread n m k <= (1 - / bpow radix2 26) * IZR (n - 1)).
    { unfold spread. replace (IZR k * IZR (n - 1) / IZR (m - 1)) with (IZR k / IZR (m - 1) * IZR (n - 1)) by (field; lra). apply Rmult_le_compat_r; [lra|].
      apply Rle_trans with ((IZR (m - 1) - 1) / IZR (m - 1)); [apply Rmult_le_compat_r; [apply Rlt_le, Rinv_0_lt_compat; lra|exact K]|].
      replace ((IZR (m - 1) - 1) / IZR (m - 1)) with (1 - / IZR (m - 1)) by (field; lra). assert (/ bpow radix2 26 <= / IZR (m - 1)) by (apply Rinv_le; lra). lra. }
    assert (3 * u <= / bpow radix2 26) by (rewrite <- bpow_opp; change u with (/ 9007199254740992); change (bpow radix2 (- (26))) with (/ 67108864); lra).
    assert (3 * u * IZR (n - 1) <= / bpow radix2 26 * IZR (n - 1)) by (apply Rmult_le_compat_r; lra). lra.
  - intros k l Hk Hl.
    assert (Q1 : 0 <= IZR (n - 1) / IZR (m - 1) <= bpow radix2 26).
    { split; [apply Rmult_le_pos; [lra|apply Rlt_le, Rinv_0_lt_compat; lra]|]. apply Rle_trans with (IZR (n - 1) / 1); [|lra]. apply Rmult_le_compat_l; [lra|]. apply Rinv_le; lra. }
    set (q := rnd (IZR (n - 1) / IZR (m - 1))).
    assert (Q2 : 0 <= q <= bpow radix2 26).
    { unfold q. split; [apply round_ge_generic; [typeclasses eauto|typeclasses eauto|apply generic_format_0|lra]|apply round_le_generic; [typeclasses eauto|typeclasses eauto| |lra]].
      apply generic_format_bpow. cbn. lia. }
    assert (T26 : bpow radix2 26 < top) by (apply bpow_lt; reflexivity).
    assert (Vq : is_value (nofZ (n - 1) /! nofZ (m - 1)) q).
    { apply div_value; [apply ofZ_value; lia|apply ofZ_value; lia|lra|]. rewrite Rabs_pos_eq by apply Q2. fold q. lra. }
    assert (P : forall j, (0 <= j < m)%Z -> fval (position (A := b64) n m j) = rnd (q * IZR j)).
    { intros j Hj. assert (J : 0 <= IZR j <= bpow radix2 26) by (split; [apply (IZR_le 0); lia|apply Rle_trans with (2 := proj2 M1), IZR_le; lia]).
      assert (B : 0 <= q * IZR j <= bpow radix2 52).
      { split; [apply Rmult_le_pos; lra|]. change 52%Z with (26 + 26)%Z. rewrite bpow_plus. apply Rmult_le_compat; lra. }
      assert (B' : 0 <= rnd (q * IZR j) <= bpow radix2 52).
      { split; [apply round_ge_generic; [typeclasses eauto|typeclasses eauto|apply generic_format_0|lra]|apply round_le_generic; [typeclasses eauto|typeclasses eauto| |lra]].
        apply generic_format_bpow. cbn. lia. }
      assert (T52 : bpow radix2 52 < top) by (apply bpow_lt; reflexivity).
      apply value_val. apply mul_value; [exact Vq|apply ofZ_value; lia|]. rewrite Rabs_pos_eq by apply B'. lra. }
    rewrite !P by lia. apply round_le; [typeclasses eauto|typeclasses eauto|]. apply Rmult_le_compat_l; [lra|apply IZR_le; lia].
Qed.

(** ** One axis *)
Lemma axis k n m : (2 <= n <= 2 ^ 26)%Z -> (2 <= m <= 2 ^ 26)%Z ->
  exists m' f, (m' = m \/ k = Next /\ m' = (m - 1)%Z) /\
    (forall i, (0 <= i < m')%Z -> pick k n (position n m i) = Some (f i) /\ (0 <= f i < n)%Z /\ asked_near k (position_error n) (spread n m i) (f i)) /\
    (forall i j, (0 <= i <= j)%Z -> (j < m')%Z -> (f i <= f j)%Z) /\
    (forall i, (m' <= i < m)%Z -> pick k n (position n m i) = None).
Proof.
  intros Hn Hm. destruct (positions n m Hn Hm) as (r & Hr & Mr).
  assert (P : forall i, (0 <= i < m)%Z -> ~ (k = Next /\ IZR (n - 1) < r i) -> exists j, pick k n (position n m i) = Some j /\ (0 <= j < n)%Z /\ asked k (inside n (r i)) j).
  { intros i Hi N. destruct (Hr i Hi) as (V & R0 & _). destruct (pick_spec k n _ _ Hn V R0) as [(E & L & _)|(_ & H)]; [destruct N; auto|exact H]. }
  assert (Near : forall i j, (0 <= i < m)%Z -> asked k (inside n (r i)) j -> asked_near k (position_error n) (spread n m i) j).
  { intros i j Hi Hj. exists (inside n (r i)). split; [|exact Hj]. apply inside_near; [apply spread_range; lia|apply Hr, Hi]. }
  set (f := fun i => match pick k n (position n m i) with Some j => j | None => 0%Z end).
  assert (Done : forall m', (m' <= m)%Z -> (forall i, (0 <= i < m')%Z -> ~ (k = Next /\ IZR (n - 1) < r i)) ->
    (forall i, (0 <= i < m')%Z -> pick k n (position n m i) = Some (f i) /\ (0 <= f i < n)%Z /\ asked_near k (position_error n) (spread n m i) (f i)) /\
    (forall i j, (0 <= i <= j)%Z -> (j < m')%Z -> (f i <= f j)%Z)).
  { intros m' Hm' N. split.
    - intros i Hi. destruct (P i ltac:(lia) (N i Hi)) as (j & E & B & A). unfold f. rewrite E. split; [reflexivity|]. split; [exact B|]. apply Near; [lia|exact A].
    - intros i j Hi Hj. destruct (P i ltac:(lia) (N i ltac:(lia))) as (i' & E & _ & A). destruct (P j ltac:(lia) (N j ltac:(lia))) as (j' & E' & _ & A').
      unfold f. rewrite E, E'. apply (asked_le k (inside n (r i)) (inside n (r j))); [apply inside_le, Mr; lia|exact A|exact A']. }
  assert (K : {k = Next} + {k <> Next}) by (decide equality).
  destruct K as [->|Nk].
  - destruct (Rle_or_lt (r (m - 1)%Z) (IZR (n - 1))) as [L|L].
    + exists m, f. split; [left; reflexivity|]. destruct (Done m ltac:(lia)) as (D1 & D2).
      { intros i Hi [_ G]. pose proof (Mr i (m - 1)%Z ltac:(lia) ltac:(lia)). lra. }
      split; [exact D1|]. split; [exact D2|]. intros i Hi. lia.
    + exists (m - 1)%Z, f. split; [right; split; reflexivity|]. destruct (Done (m - 1)%Z ltac:(lia)) as (D1 & D2).
      { intros i Hi [_ G]. destruct (Hr i ltac:(lia)) as (_ & _ & _ & W). specialize (W ltac:(lia)). lra. }
      split; [exact D1|]. split; [exact D2|]. intros i Hi. replace i with (m - 1)%Z by lia. destruct (Hr (m - 1)%Z ltac:(lia)) as (V & R0 & _).
      destruct (pick_spec Next n _ _ Hn V R0) as [(_ & _ & E)|(N & _)]; [exact E|]. destruct N. auto.
  - exists m, f. split; [left; reflexivity|]. destruct (Done m ltac:(lia)) as (D1 & D2); [intros i _ [E _]; contradiction|].
    split; [exact D1|]. split; [exact D2|]. intros i Hi. lia.
Qed.

Lemma axis_exact k n j i : (2 <= n <= 2 ^ 26)%Z -> (0 <= j <= 26)%Z -> (0 <= i <= 2 ^ j * (n - 1))%Z ->
  exists l, pick k n (position n (2 ^ j * (n - 1) + 1) i) = Some l /\ (0 <= l < n)%Z /\ asked k (spread n (2 ^ j * (n - 1) + 1) i) l.
Proof.
  intros Hn Hj Hi. destruct (refined_position n j i Hn Hj Hi) as (V & E).
  assert (P : (1 <= 2 ^ j)%Z) by (apply (Z.pow_le_mono_r 2 0 j); lia).
  assert (S : 0 <= spread n (2 ^ j * (n - 1) + 1) i <= IZR (n - 1)) by (apply spread_range; [lia| |lia]; assert (1 * 1 <= 2 ^ j * (n - 1))%Z by (apply Z.mul_le_mono_nonneg; lia); lia).
  rewrite <- E in V. destruct (pick_spec k n _ _ Hn V (proj1 S)) as [(_ & L & _)|(_ & l & El & Bl & A)]; [lra|].
  exists l. split; [exact El|]. split; [exact Bl|]. rewrite inside_same in A by apply S. exact A.
Qed.

(** ** Images *)
Lemma cell_kind k (a : arr b64) h w y x : cell (congrid_kind k a h w) y x =
  match pick k (rows a) (position (rows a) h y) with
  | Some i => match pick k (cols a) (position (cols a) w x) with Some j => cell a i j | None => S754_nan end
  | None => S754_nan
  end.
Proof. unfold congrid_kind, picked. cbn [cell rows cols]. reflexivity. Qed.

Lemma c146_picks k (a : arr b64) h w : (2 <= rows a <= 2 ^ 26)%Z -> (2 <= cols a <= 2 ^ 26)%Z -> (2 <= h <= 2 ^ 26)%Z -> (2 <= w <= 2 ^ 26)%Z ->
  rows (congrid_kind k a h w) = h /\ cols (congrid_kind k a h w) = w /\
  exists h' w' f g, (h' = h \/ k = Next /\ h' = (h - 1)%Z) /\ (w' = w \/ k = Next /\ w' = (w - 1)%Z) /\
    takes h' w' (congrid_kind k a h w) a f g /\
    (forall y, (0 <= y < h')%Z -> asked_near k (position_error (rows a)) (spread (rows a) h y) (f y)) /\
    (forall x, (0 <= x < w')%Z -> asked_near k (position_error (cols a)) (spread (cols a) w x) (g x)) /\
    forall y x, (0 <= y < h)%Z -> (0 <= x < w)%Z -> (h' <= y \/ w' <= x)%Z -> cell (congrid_kind k a h w) y x = S754_nan.
Proof.
  intros Hr Hc Hh Hw. split; [reflexivity|]. split; [reflexivity|].
  destruct (axis k (rows a) h Hr Hh) as (h' & f & Ch & F1 & F2 & F3). destruct (axis k (cols a) w Hc Hw) as (w' & g & Cw & G1 & G2 & G3).
  exists h', w', f, g. split; [exact Ch|]. split; [exact Cw|]. split.
  { split; [intros y Hy; apply F1, Hy|]. split; [intros x Hx; apply G1, Hx|]. split; [exact F2|]. split; [exact G2|].
    intros y x Hy Hx. rewrite cell_kind. rewrite (proj1 (F1 y Hy)), (proj1 (G1 x Hx)). reflexivity. }
  split; [intros y Hy; apply F1, Hy|]. split; [intros x Hx; apply G1, Hx|].
  intros y x Hy Hx [L|L]; rewrite cell_kind.
  - rewrite F3 by lia. reflexivity.
  - rewrite (G3 x) by lia. destruct (pick k (rows a) _); reflexivity.
Qed.

Lemma surely_axis k n m i l : (2 <= n <= 2 ^ 26)%Z -> (2 <= m <= 2 ^ 26)%Z -> (0 <= i < m)%Z -> (0 <= l < n)%Z ->
  surely_asked k (position_error n) (spread n m i) l -> pick k n (position n m i) = Some l.
Proof.
  intros Hn Hm Hi Hl Hs. destruct (axis k n m Hn Hm) as (m' & f & C & F1 & _ & _).
  assert (I : (i < m')%Z).
  { destruct C as [->|[-> ->]]; [lia|]. destruct (Z.eq_dec i (m - 1)) as [->|Ne]; [exfalso|lia].
    assert (E : spread n m (m - 1) = IZR (n - 1)) by (unfold spread; field; apply not_0_IZR; lia). rewrite E in Hs.
    assert (0 < position_error n).
    { rewrite position_error_val. apply Rmult_lt_0_compat; [pose proof u_small; lra|apply (IZR_lt 0); lia]. }
    specialize (Hs (IZR (n - 1) + position_error n)). cbn [asked] in Hs. destruct Hs as [_ G].
    { rewrite Rabs_pos_eq; lra. }
    assert (IZR l <= IZR (n - 1)) by (apply IZR_le; lia). lra. }
  destruct (F1 i ltac:(lia)) as (E & _ & (r & Er & A)). rewrite E. f_equal. apply (asked_unique k r); [exact A|apply Hs, Er].
Qed.

Lemma c146_asked k (a : arr b64) h w y x i j : (2 <= rows a <= 2 ^ 26)%Z -> (2 <= cols a <= 2 ^ 26)%Z -> (2 <= h <= 2 ^ 26)%Z -> (2 <= w <= 2 ^ 26)%Z ->
  (0 <= y < h)%Z -> (0 <= x < w)%Z -> (0 <= i < rows a)%Z -> (0 <= j < cols a)%Z ->
  surely_asked k (position_error (rows a)) (spread (rows a) h y) i -> surely_asked k (position_error (cols a)) (spread (cols a) w x) j ->
  cell (congrid_kind k a h w) y x = cell a i j.
Proof.
  intros Hr Hc Hh Hw Hy Hx Hi Hj Si Sj. rewrite cell_kind. rewrite (surely_axis k (rows a) h y i), (surely_axis k (cols a) w x j) by assumption. reflexivity.
Qed.

Lemma position_error_small n : (2 <= n <= 2 ^ 26)%Z -> position_error n < / 4.
Proof.
  intros Hn. rewrite position_error_val. assert (1 <= IZR (n - 1) <= IZR (2 ^ 26)) by (split; apply IZR_le; lia).
  apply Rle_lt_trans with (3 * u * IZR (2 ^ 26)); [apply Rmult_le_compat_l; [pose proof u_small; lra|lra]|]. change u with (/ 9007199254740992). change (2 ^ 26)%Z with 67108864%Z. lra.
Qed.

Lemma c146_grid k (a : arr b64) h w y x i j : (k = Nearest \/ k = NearestUp) ->
  (2 <= rows a <= 2 ^ 26)%Z -> (2 <= cols a <= 2 ^ 26)%Z -> (2 <= h <= 2 ^ 26)%Z -> (2 <= w <= 2 ^ 26)%Z ->
  (0 <= y < h)%Z -> (0 <= x < w)%Z -> spread (rows a) h y = IZR i -> spread (cols a) w x = IZR j ->
  cell (congrid_kind k a h w) y x = cell a i j.
Proof.
  intros Hk Hr Hc Hh Hw Hy Hx Ei Ej.
  assert (B : forall n m z l, (2 <= n <= 2 ^ 26)%Z -> (2 <= m <= 2 ^ 26)%Z -> (0 <= z < m)%Z -> spread n m z = IZR l -> (0 <= l < n)%Z /\ surely_asked k (position_error n) (spread n m z) l).
  { intros n m z l Hn Hm Hz E. pose proof (spread_range n m z ltac:(lia) ltac:(lia) ltac:(lia)) as S. rewrite E in *. split.
    - split; [apply le_IZR; lra|]. assert (l <= n - 1)%Z by (apply le_IZR; lra). lia.
    - intros r Hr'. pose proof (position_error_small n Hn). apply Rabs_le_inv in Hr'. destruct Hk as [->| ->]; cbn [asked]; lra. }
  destruct (B _ _ _ _ Hr Hh Hy Ei) as (Bi & Si). destruct (B _ _ _ _ Hc Hw Hx Ej) as (Bj & Sj). apply c146_asked; assumption.
Qed.

Lemma c146_exact k (a : arr b64) c e y x : (2 <= rows a <= 2 ^ 26)%Z -> (2 <= cols a <= 2 ^ 26)%Z -> (0 <= c <= 26)%Z -> (0 <= e <= 26)%Z ->
  let h := (2 ^ c * (rows a - 1) + 1)%Z in let w := (2 ^ e * (cols a - 1) + 1)%Z in
  (0 <= y < h)%Z -> (0 <= x < w)%Z -> exists i j, (0 <= i < rows a)%Z /\ (0 <= j < cols a)%Z /\
    asked k (spread (rows a) h y) i /\ asked k (spread (cols a) w x) j /\ cell (congrid_kind k a h w) y x = cell a i j.
Proof.
  cbv zeta. intros Hr Hc Hcc He Hy Hx. destruct (axis_exact k (rows a) c y Hr Hcc ltac:(lia)) as (i & Ei & Bi & Ai).
  destruct (axis_exact k (cols a) e x Hc He ltac:(lia)) as (j & Ej & Bj & Aj). exists i, j. rewrite cell_kind, Ei, Ej. auto.
Qed.

Lemma c146_same k (a : arr b64) y x : (2 <= rows a <= 2 ^ 26)%Z -> (2 <= cols a <= 2 ^ 26)%Z -> (0 <= y < rows a)%Z -> (0 <= x < cols a)%Z ->
  cell (congrid_kind k a (rows a) (cols a)) y x = cell a y x.
Proof.
  intros Hr Hc Hy Hx. pose proof (c146_exact k a 0 0 y x Hr Hc ltac:(lia) ltac:(lia)) as H. cbv zeta in H. change (2 ^ 0)%Z with 1%Z in H.
  replace (1 * (rows a - 1) + 1)%Z with (rows a) in H by lia. replace (1 * (cols a - 1) + 1)%Z with (cols a) in H by lia.
  destruct (H Hy Hx) as (i & j & Bi & Bj & Ai & Aj & ->).
  assert (S : forall n z, (2 <= n)%Z -> spread n n z = IZR z) by (intros n z Hn; unfold spread; field; apply not_0_IZR; lia).
  rewrite S in Ai, Aj by lia.
  assert (K : forall z, asked k (IZR z) z) by (intros z; destruct k; cbn [asked]; lra).
  rewrite (asked_unique k _ _ _ Ai (K y)), (asked_unique k _ _ _ Aj (K x)). reflexivity.
Qed.

(** ** The last pixels *)
Lemma c146_previous (a : arr b64) : rows a = 2%Z -> cols a = 2%Z ->
  spread 2 50 49 = 1 /\ cell (congrid_kind Previous a 2 50) 0 49 = cell a 0 0.
Proof.
  intros Hr Hc. split; [unfold spread; cbn; lra|]. rewrite cell_kind, Hr, Hc.
  replace (pick Previous 2 (position 2 2 0)) with (Some 0%Z) by (vm_compute; reflexivity).
  replace (pick Previous 2 (position 2 50 49)) with (Some 0%Z) by (vm_compute; reflexivity). reflexivity.
Qed.
Lemma c146_next (a : arr b64) y : rows a = 2%Z -> cols a = 8%Z ->
  spread 8 26 25 = 7 /\ cell (congrid_kind Next a 2 26) y 25 = S754_nan.
Proof.
  intros Hr Hc. split; [unfold spread; cbn; lra|]. rewrite cell_kind, Hr, Hc.
  replace (pick Next 8 (position 8 26 25)) with (@None Z) by (vm_compute; reflexivity). destruct (pick _ _ _); reflexivity.
Qed.
