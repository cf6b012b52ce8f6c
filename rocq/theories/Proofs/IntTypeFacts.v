(** Images of integers of different types. *)
From Coq Require Import Reals Lra Lia.
From Verif Require Import Base.Base Base.BaseFacts Base.Num Base.Bcast Model.IntData Model.IntTypes Spec.MosaicSpec
  Spec.AngleSpec Spec.FloatSpec Spec.IntSpec Spec.IntTypeSpec Proofs.UtilFacts Proofs.IntFacts Proofs.ExactFacts.
Local Open Scope Z_scope.

Lemma numpy_bits t : numpy_type t -> 0 < bits t. Proof. unfold numpy_type. lia. Qed.

(** ** The common type *)
Definition both (t1 t2 : itype) (z : Z) : Prop := representable t1 z \/ representable t2 z.

Lemma narrowest_between t (P : Z -> Prop) lo hi : numpy_type t -> P lo -> P hi -> (forall z, P z -> lo <= z <= hi) ->
  representable t lo -> representable t hi ->
  (forall v, numpy_type v -> representable v lo -> representable v hi -> bits t <= bits v) ->
  (is_signed t = true <-> lo < 0) -> narrowest t P.
Proof.
  intros Ht Hlo Hhi HP Rlo Rhi Hmin Hs. split; [exact Ht|]. split; [|split].
  - intros z Hz. apply HP in Hz. rewrite representable_range in * by (apply numpy_bits; exact Ht). lia.
  - intros v Hv Hr. apply (Hmin v Hv); apply Hr; assumption.
  - rewrite Hs. split; [intros H; exists lo; tauto|]. intros (z & Hz & Hn). apply HP in Hz. lia.
Qed.

Lemma type_eq t : numpy_type t -> In t [mkitype 8 true; mkitype 8 false; mkitype 16 true; mkitype 16 false;
  mkitype 32 true; mkitype 32 false; mkitype 64 true; mkitype 64 false].
Proof.
  destruct t as [b s]. unfold numpy_type. cbn [bits]. intros [-> | [-> | [-> | ->]]]; destruct s; cbn [In]; tauto.
Qed.

Ltac known t H := let K := fresh in pose proof (type_eq t H) as K; cbn [In] in K;
  destruct K as [<-|[<-|[<-|[<-|[<-|[<-|[<-|[<-|[]]]]]]]]].

Definition low (t : itype) : Z := least t.
Definition high (t : itype) : Z := least t + 2 ^ bits t - 1.

Lemma in_range t z : numpy_type t -> (representable t z <-> low t <= z <= high t).
Proof. intros Ht. rewrite representable_range by (apply numpy_bits; exact Ht). unfold low, high. lia. Qed.

Lemma promote_narrowest t1 t2 : numpy_type t1 -> numpy_type t2 ->
  match promote t1 t2 with
  | Some t => narrowest t (both t1 t2)
  | None => forall v, numpy_type v -> ~ room v (both t1 t2)
  end.
Proof.
  intros H1 H2.
  assert (K : forall z, both t1 t2 z <-> low t1 <= z <= high t1 \/ low t2 <= z <= high t2).
  { intros z. unfold both. rewrite !in_range by assumption. reflexivity. }
  set (lo := Z.min (low t1) (low t2)). set (hi := Z.max (high t1) (high t2)).
  assert (Plo : both t1 t2 lo) by (apply K; known t1 H1; known t2 H2; vm_compute; intuition congruence).
  assert (Phi : both t1 t2 hi) by (apply K; known t1 H1; known t2 H2; vm_compute; intuition congruence).
  assert (Pall : forall z, both t1 t2 z -> lo <= z <= hi) by (intros z Hz; apply K in Hz; subst lo hi; lia).
  destruct (promote t1 t2) as [t|] eqn:E.
  - assert (Ht : numpy_type t).
    { revert E. known t1 H1; known t2 H2; cbn; intros E; try discriminate E; injection E as <-; unfold numpy_type; cbn; lia. }
    apply (narrowest_between t _ lo hi); try assumption.
    + rewrite in_range by exact Ht. revert E. subst lo hi. known t1 H1; known t2 H2; cbn; intros E; try discriminate E; injection E as <-; vm_compute; split; congruence.
    + rewrite in_range by exact Ht. revert E. subst lo hi. known t1 H1; known t2 H2; cbn; intros E; try discriminate E; injection E as <-; vm_compute; split; congruence.
    + intros v Hv. rewrite !in_range by exact Hv. revert E. subst lo hi.
      known t1 H1; known t2 H2; cbn; intros E; try discriminate E; injection E as <-; known v Hv; vm_compute; intuition congruence.
    + revert E. subst lo hi. known t1 H1; known t2 H2; cbn; intros E; try discriminate E; injection E as <-; vm_compute; intuition congruence.
  - intros v Hv Hr. pose proof (Hr _ Plo) as Rlo. pose proof (Hr _ Phi) as Rhi. revert E Rlo Rhi. rewrite !in_range by exact Hv.
    subst lo hi. known t1 H1; known t2 H2; cbn; intros E; try discriminate E; known v Hv; vm_compute; intuition congruence.
Qed.

(** ** An image and a number *)
Lemma low_high : low (mkitype 8 true) = -128 /\ high (mkitype 8 true) = 127 /\ low (mkitype 8 false) = 0 /\ high (mkitype 8 false) = 255 /\
  low (mkitype 16 true) = -32768 /\ high (mkitype 16 true) = 32767 /\ low (mkitype 16 false) = 0 /\ high (mkitype 16 false) = 65535 /\
  low (mkitype 32 true) = -2147483648 /\ high (mkitype 32 true) = 2147483647 /\ low (mkitype 32 false) = 0 /\ high (mkitype 32 false) = 4294967295 /\
  low (mkitype 64 true) = -9223372036854775808 /\ high (mkitype 64 true) = 9223372036854775807 /\
  low (mkitype 64 false) = 0 /\ high (mkitype 64 false) = 18446744073709551615.
Proof. vm_compute. repeat split. Qed.

Lemma number_cases t k : numpy_type t -> - 2 ^ 63 <= k < 2 ^ 64 ->
  exists u, numpy_type u /\ number_type t k = promote t u /\ representable u k /\
    (is_signed u = true -> is_signed t = true \/ k < 0) /\
    (bits u = 8 \/ (k < 0 /\ k < - 2 ^ (bits u / 2 - 1)) \/ (0 <= k /\ 2 ^ (bits u / 2) <= k)) /\
    (is_signed u = false -> 0 <= k /\ (is_signed t = false \/ 2 ^ (bits u - 1) <= k)).
Proof.
  intros Ht Hk. unfold number_type, width_signed, width_unsigned.
  change (- 2 ^ 63) with (-9223372036854775808) in *. change (2 ^ 64) with 18446744073709551616 in *.
  change (- 2 ^ 7) with (-128). change (- 2 ^ 15) with (-32768). change (- 2 ^ 31) with (-2147483648).
  change (2 ^ 8) with 256. change (2 ^ 16) with 65536. change (2 ^ 32) with 4294967296.
  assert (N : forall b s, b = 8 \/ b = 16 \/ b = 32 \/ b = 64 -> numpy_type (mkitype b s)) by (intros; unfold numpy_type; cbn [bits]; lia).
  pose proof low_high as L.
  destruct (Z.ltb_spec k 0).
  - destruct (Z.leb_spec (-128) k); [exists (mkitype 8 true)|destruct (Z.leb_spec (-32768) k); [exists (mkitype 16 true)|
      destruct (Z.leb_spec (-2147483648) k); [exists (mkitype 32 true)|exists (mkitype 64 true)]]];
    (split; [apply N; lia|]); (split; [reflexivity|]); (split; [rewrite in_range by (apply N; lia); lia|]); cbn [is_signed bits];
    (split; [tauto|]); (split; [|discriminate]).
    + tauto.
    + right; left; change (2 ^ (16 / 2 - 1)) with 128; lia.
    + right; left; change (2 ^ (32 / 2 - 1)) with 32768; lia.
    + right; left; change (2 ^ (64 / 2 - 1)) with 2147483648; lia.
  - cbv zeta.
    set (w := if k <? 256 then 8 else if k <? 65536 then 16 else if k <? 4294967296 then 32 else 64).
    assert (W : (w = 8 /\ k < 256) \/ (w = 16 /\ 256 <= k < 65536) \/ (w = 32 /\ 65536 <= k < 4294967296) \/
                (w = 64 /\ 4294967296 <= k)).
    { subst w. destruct (Z.ltb_spec k 256); [lia|]. destruct (Z.ltb_spec k 65536); [lia|]. destruct (Z.ltb_spec k 4294967296); lia. }
    clearbody w. exists (mkitype w (is_signed t && (k <? 2 ^ (w - 1)))).
    assert (Nw : forall s, numpy_type (mkitype w s)) by (intros s; apply N; lia).
    split; [apply Nw|]. split; [reflexivity|]. cbn [is_signed bits].
    assert (B : w = 8 \/ (0 <= k /\ 2 ^ (w / 2) <= k)).
    { destruct W as [(-> & ?)|[(-> & ?)|[(-> & ?)|(-> & ?)]]]; [tauto|right..].
      - change (2 ^ (16 / 2)) with 256. lia.
      - change (2 ^ (32 / 2)) with 65536. lia.
      - change (2 ^ (64 / 2)) with 4294967296. lia. }
    split; [|split; [|split]].
    + rewrite in_range by apply Nw. destruct (is_signed t); cbn [andb].
      * destruct (Z.ltb_spec k (2 ^ (w - 1))) as [Q|Q]; destruct W as [(-> & ?)|[(-> & ?)|[(-> & ?)|(-> & ?)]]]; lia.
      * destruct W as [(-> & ?)|[(-> & ?)|[(-> & ?)|(-> & ?)]]]; lia.
    + intros E. apply andb_prop in E. tauto.
    + tauto.
    + intros E. split; [assumption|]. apply andb_false_iff in E. destruct E as [E|E]; [tauto|]. apply Z.ltb_ge in E. tauto.
Qed.

Definition with_one (t : itype) (k : Z) (z : Z) : Prop := representable t z \/ z = k.

Lemma number_narrowest t k : numpy_type t -> - 2 ^ 63 <= k < 2 ^ 64 ->
  match number_type t k with
  | Some u => narrowest u (with_one t k)
  | None => forall v, numpy_type v -> ~ room v (with_one t k)
  end.
Proof.
  intros Ht Hk. destruct (number_cases t k Ht Hk) as (u & Hu & -> & Ru & S1 & Sw & S2).
  assert (K : forall z, with_one t k z <-> low t <= z <= high t \/ z = k).
  { intros z. unfold with_one. rewrite in_range by assumption. reflexivity. }
  pose proof low_high as L. rewrite in_range in Ru by exact Hu.
  assert (Ord : low t <= high t) by (known t Ht; lia).
  set (lo := Z.min (low t) k). set (hi := Z.max (high t) k).
  assert (Plo : with_one t k lo) by (apply K; lia).
  assert (Phi : with_one t k hi) by (apply K; lia).
  assert (Pall : forall z, with_one t k z -> lo <= z <= hi) by (intros z Hz; apply K in Hz; lia).
  assert (Sw' : bits u = 8 \/ (bits u = 16 /\ (k < -128 \/ 256 <= k)) \/ (bits u = 32 /\ (k < -32768 \/ 65536 <= k)) \/
                (bits u = 64 /\ (k < -2147483648 \/ 4294967296 <= k))).
  { destruct Hu as [B | [B | [B | B]]]; rewrite B in Sw; [tauto| | |].
    - change (2 ^ (16 / 2 - 1)) with 128 in Sw. change (2 ^ (16 / 2)) with 256 in Sw. lia.
    - change (2 ^ (32 / 2 - 1)) with 32768 in Sw. change (2 ^ (32 / 2)) with 65536 in Sw. lia.
    - change (2 ^ (64 / 2 - 1)) with 2147483648 in Sw. change (2 ^ (64 / 2)) with 4294967296 in Sw. lia. }
  assert (S2' : is_signed u = false -> 0 <= k /\ (is_signed t = false \/ (bits u = 8 /\ 128 <= k) \/ (bits u = 16 /\ 32768 <= k) \/
     (bits u = 32 /\ 2147483648 <= k) \/ (bits u = 64 /\ 9223372036854775808 <= k))).
  { intros E. destruct (S2 E) as (? & Q). split; [assumption|]. destruct Q as [Q|Q]; [tauto|]. right.
    destruct Hu as [B | [B | [B | B]]]; rewrite B in Q |- *; change (2 ^ (8 - 1)) with 128 in Q;
      change (2 ^ (16 - 1)) with 32768 in Q; change (2 ^ (32 - 1)) with 2147483648 in Q;
      change (2 ^ (64 - 1)) with 9223372036854775808 in Q; tauto. }
  clear S2 Sw K.
  destruct (promote t u) as [w|] eqn:E.
  - assert (Hw : numpy_type w).
    { revert E. clear - Ht Hu. known t Ht; known u Hu; cbn; intros E; try discriminate E; injection E as <-; unfold numpy_type; cbn; lia. }
    apply (narrowest_between w _ lo hi); try assumption.
    + rewrite in_range by exact Hw. revert E. subst lo hi. clear - Ht Hu Ru S1 Sw' S2' L Ord.
      known t Ht; known u Hu; cbn [is_signed bits] in *; cbn; intros E; try discriminate E; injection E as <-; lia.
    + rewrite in_range by exact Hw. revert E. subst lo hi. clear - Ht Hu Ru S1 Sw' S2' L Ord.
      known t Ht; known u Hu; cbn [is_signed bits] in *; cbn; intros E; try discriminate E; injection E as <-; lia.
    + intros v Hv. rewrite !in_range by exact Hv. revert E. subst lo hi. clear - Ht Hu Hv Ru S1 Sw' S2' L Ord.
      known t Ht; known u Hu; cbn [is_signed bits] in *; cbn; intros E; try discriminate E; injection E as <-; known v Hv; cbn [bits]; lia.
    + revert E. subst lo hi. clear - Ht Hu Ru S1 Sw' S2' L Ord.
      known t Ht; known u Hu; cbn [is_signed bits] in *; cbn; intros E; try discriminate E; injection E as <-; cbn [is_signed]; lia.
  - intros v Hv Hr. pose proof (Hr _ Plo) as Rlo. pose proof (Hr _ Phi) as Rhi. revert E Rlo Rhi. rewrite !in_range by exact Hv.
    subst lo hi. clear - Ht Hu Hv Ru S1 Sw' S2' L Ord.
    known t Ht; known u Hu; cbn [is_signed bits] in *; cbn; intros E; try discriminate E; known v Hv; lia.
Qed.
