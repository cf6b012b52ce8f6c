(** Resampling arrays of any number of dimensions (C147). *)
From Coq Require Import ZArith Reals Lra Lia List Floats.SpecFloat FunctionalExtensionality.
From Verif Require Import Base.Base Base.Num Model.Congrid Model.CongridKind Model.CongridNd Spec.InterpSpec Spec.PickSpec Spec.TensorSpec
  Proofs.CongridFacts Proofs.ResampleFacts Proofs.PickFacts.
Local Open Scope Z_scope.

Section Nest.
  Context {A : Type} (along : Z -> Z -> (Z -> A) -> Z -> A).

  (** The axes one inside the other, the first one outside *)
  Fixpoint nest (old new : list Z) (f : list Z -> A) (l : list Z) : A :=
    match old, new, l with
    | n :: old, m :: new, k :: l => along n m (fun x => nest old new (fun j => f (x :: j)) l) k
    | _, _, _ => f []
    end.

  Definition reached (S1 : list Z) (s : Z) (S2 : list Z) (m : Z) (N2 : list Z) (a : list Z -> A) (t : tensor A) : Prop :=
    shape t = N2 ++ S1 ++ [m] /\
    forall ks xs k, length ks = length S2 -> length xs = length S1 ->
      at_index t (ks ++ xs ++ [k]) = nest (s :: S2) (m :: N2) (fun l => a (xs ++ l)) (k :: ks).

  Lemma removelast_end {B} (l : list B) x : removelast (l ++ [x]) = l.
  Proof. rewrite removelast_app by discriminate. cbn. apply app_nil_r. Qed.
  Lemma last_end {B} (l : list B) x d : last (l ++ [x]) d = x.
  Proof. apply last_last. Qed.

  Lemma reached_step S1 s' s S2 m' m N2 a t : length N2 = length S2 ->
    reached (S1 ++ [s']) s S2 m N2 a t -> reached S1 s' (s :: S2) m' (m :: N2) a (resample_last along s' m' (roll t)).
  Proof.
    intros HN (Sh & At). split.
    - cbn [resample_last roll shape]. rewrite Sh. rewrite !app_assoc, !removelast_end, !last_end, <- !app_assoc.
      change (m :: N2 ++ S1 ++ [s']) with ((m :: N2) ++ S1 ++ [s']). rewrite app_assoc, removelast_end, <- app_assoc. reflexivity.
    - intros ks xs k Hk Hx. destruct ks as [|k0 ks]; [discriminate|]. cbn [resample_last roll at_index].
      rewrite app_assoc, removelast_end, last_end. cbn [nest]. f_equal. apply functional_extensionality. intros x.
      cbn [app tl hd]. rewrite <- !app_assoc. rewrite (app_assoc xs). rewrite At; [|cbn in Hk; lia|rewrite !app_length, Hx; reflexivity].
      cbn [nest]. f_equal. apply functional_extensionality. intros y. f_equal. apply functional_extensionality. intros l. rewrite <- app_assoc. reflexivity.
  Qed.

  Lemma reached_all (old new : list Z) (a : list Z -> A) : forall S1 N1 s S2 m N2 t, old = S1 ++ s :: S2 -> (exists E, new = N1 ++ m :: N2 ++ E) ->
    length N1 = length S1 -> length N2 = length S2 -> reached S1 s S2 m N2 a t ->
    let t' := fold_left (fun t i => resample_last along (nth i old 0) (nth i new 0) (roll t)) (rev (seq 0 (length S1))) t in
    shape t' = tl (firstn (length old) new) ++ [hd 0 new] /\
    forall ks k, length ks = (length old - 1)%nat -> at_index t' (ks ++ [k]) = nest old (firstn (length old) new) a (k :: ks).
  Proof.
    intros S1. induction S1 as [|s' S1 IH] using rev_ind; intros N1 s S2 m N2 t Eo (E & En) HN1 HN2 HR; cbv zeta.
    - destruct N1; [|discriminate]. cbn [app length seq rev fold_left] in *. subst old new. cbn [length firstn hd tl].
      assert (F : firstn (length S2) (N2 ++ E) = N2) by (rewrite <- HN2, firstn_app, Nat.sub_diag, firstn_all, firstn_O, app_nil_r; reflexivity).
      rewrite F. destruct HR as (Sh & At). split; [exact Sh|]. intros ks k Hk. specialize (At ks [] k). cbn [app] in At. apply At; [lia|reflexivity].
    - assert (N1 <> []) by (intros ->; rewrite app_length in HN1; cbn in HN1; lia).
      destruct (exists_last H) as (N1' & m' & ->). rewrite !app_length in HN1. cbn [length] in HN1.
      rewrite app_length. cbn [length]. rewrite Nat.add_1_r, seq_S, rev_app_distr. cbn [rev app fold_left Nat.add].
      assert (Es : nth (length S1) old 0 = s') by (rewrite Eo, <- app_assoc, app_nth2, Nat.sub_diag by lia; reflexivity).
      assert (Em : nth (length S1) new 0 = m') by (rewrite En, <- app_assoc, app_nth2 by lia; replace (length S1 - length N1')%nat with 0%nat by lia; reflexivity).
      rewrite Es, Em. apply (IH N1' s' (s :: S2) m' (m :: N2)).
      + rewrite Eo, <- app_assoc. reflexivity.
      + exists E. rewrite En, <- app_assoc. reflexivity.
      + lia.
      + cbn [length]. lia.
      + apply reached_step; [lia|exact HR].
  Qed.

  Lemma congrid_nest (a : tensor A) (newdims : list Z) : shape a <> [] -> (length (shape a) <= length newdims)%nat ->
    exists t, congrid_nd along a newdims = Ok t /\ shape t = firstn (length (shape a)) newdims /\
      forall l, length l = length (shape a) -> at_index t l = nest (shape a) (firstn (length (shape a)) newdims) (at_index a) l.
  Proof.
    intros Hne Hl. unfold congrid_nd. replace (length newdims <? length (shape a))%nat with false by (symmetry; apply Nat.ltb_ge, Hl).
    destruct (exists_last Hne) as (S1 & s & Es).
    assert (Ln : length (shape a) = S (length S1)) by (rewrite Es, app_length; cbn; lia). rewrite Ln.
    assert (Hn : (length S1 < length newdims)%nat) by lia.
    destruct (nth_split newdims 0 Hn) as (N1 & E & En & HN1). set (m := nth (length S1) newdims 0) in *.
    assert (Ens : nth (length S1) (shape a) 0 = s) by (rewrite Es, app_nth2, Nat.sub_diag by lia; reflexivity). rewrite Ens.
    assert (R0 : reached S1 s [] m [] (at_index a) (resample_last along s m a)).
    { split; [cbn [resample_last shape app]; rewrite Es, removelast_end; reflexivity|]. intros ks xs k Hk Hx. destruct ks; [|discriminate].
      cbn [app resample_last at_index nest]. rewrite removelast_end, last_end. reflexivity. }
    pose proof (reached_all (shape a) newdims (at_index a) S1 N1 s [] m [] _ Es (ex_intro _ E En) HN1 eq_refl R0) as H. cbv zeta in H.
    set (t' := fold_left _ _ _) in *. destruct H as (Sh & At). rewrite Ln in *. 
    exists (if (1 <? S (length S1))%nat then roll t' else t'). split; [reflexivity|].
    destruct newdims as [|m0 rest]; [cbn in Hl; lia|]. cbn [firstn tl hd] in *.
    destruct S1 as [|s0 S1].
    - cbn [length Nat.ltb Nat.leb firstn] in *. split; [exact Sh|]. intros [|k [|]] Hk; try discriminate. apply (At [] k). reflexivity.
    - replace (1 <? S (length (s0 :: S1)))%nat with true by reflexivity. split.
      + cbn [roll shape]. rewrite Sh, last_end, removelast_end. reflexivity.
      + intros [|k ks] Hk; [discriminate|]. cbn [roll at_index tl hd]. apply At. cbn [length] in Hk |- *. lia.
  Qed.
End Nest.

(** ** What it comes to *)
Lemma index_length sh l : index_in sh l -> length l = length sh.
Proof. intros H. induction H as [|n k sh l _ _ IH]; [reflexivity|]. cbn [length]. rewrite IH. reflexivity. Qed.

Lemma nest_multilinear : forall old new (f : list Z -> R) l, length new = length old -> Forall (fun n => 2 <= n) old -> Forall (fun n => 2 <= n) new -> index_in new l ->
  multilinear old f (spreads old new l) (nest linearly old new f l).
Proof.
  intros old. induction old as [|n old IH]; intros new f l HL Ho Hn Hi.
  - destruct new; [|discriminate]. inversion Hi. subst. exact (multilinear_nil f).
  - destruct new as [|m new]; [discriminate|]. inversion Hi as [|? k ? l' Hk Hl]; subst. inversion Ho; inversion Hn; subst.
    cbn [nest spreads]. unfold linearly at 1. rewrite position_spread by assumption.
    destruct (interp1d_polygon n (fun x => nest linearly old new (fun j => f (x :: j)) l') (spread n m k)) as (i & t & Bi & Bt & -> & ->).
    { assumption. } { apply spread_range; lia. }
    apply multilinear_cons; [assumption|assumption|apply IH|apply IH]; try assumption; cbn in HL; lia.
Qed.

Lemma c147_linear (a : tensor R) (newdims : list Z) : shape a <> [] -> length newdims = length (shape a) ->
  Forall (fun n => 2 <= n) (shape a) -> Forall (fun n => 2 <= n) newdims ->
  exists t, congrid_nd linearly a newdims = Ok t /\ shape t = newdims /\
    forall l, index_in newdims l -> multilinear (shape a) (at_index a) (spreads (shape a) newdims l) (at_index t l).
Proof.
  intros Hne HL Ho Hn. destruct (congrid_nest linearly a newdims Hne ltac:(lia)) as (t & E & Sh & At).
  rewrite firstn_all2 in Sh, At by lia. exists t. split; [exact E|]. split; [exact Sh|]. intros l Hl.
  rewrite At by (rewrite <- HL; apply index_length, Hl). apply nest_multilinear; assumption.
Qed.

(** multilinear interpolation stays within the range of the samples *)
Lemma multilinear_range lo hi : forall sh f p v, multilinear sh f p v -> (forall l, index_in sh l -> (lo <= f l <= hi)%R) -> (lo <= v <= hi)%R.
Proof.
  intros sh f p v H. induction H as [f|n sh f i t p v w Hi Ht Hv IHv Hw IHw]; intros Hf.
  - apply Hf. constructor.
  - assert (V : (lo <= v <= hi)%R) by (apply IHv; intros l Hl; apply Hf; constructor; [lia|exact Hl]).
    assert (W : (lo <= w <= hi)%R) by (apply IHw; intros l Hl; apply Hf; constructor; [lia|exact Hl]).
    assert (A1 : (0 <= (1 - t) * (v - lo))%R) by (apply Rmult_le_pos; lra). assert (A2 : (0 <= t * (w - lo))%R) by (apply Rmult_le_pos; lra).
    assert (A3 : (0 <= (1 - t) * (hi - v))%R) by (apply Rmult_le_pos; lra). assert (A4 : (0 <= t * (hi - w))%R) by (apply Rmult_le_pos; lra). lra.
Qed.
Lemma c147_range (a t : tensor R) (newdims : list Z) lo hi l : shape a <> [] -> length newdims = length (shape a) ->
  Forall (fun n => 2 <= n) (shape a) -> Forall (fun n => 2 <= n) newdims -> (forall j, index_in (shape a) j -> (lo <= at_index a j <= hi)%R) ->
  congrid_nd linearly a newdims = Ok t -> index_in newdims l -> (lo <= at_index t l <= hi)%R.
Proof.
  intros Hne HL Ho Hn Hf E Hl. destruct (c147_linear a newdims Hne HL Ho Hn) as (t' & E' & _ & H). rewrite E in E'. injection E' as <-.
  apply (multilinear_range lo hi _ _ _ _ (H l Hl) Hf).
Qed.

(** at whole positions it is the sample there *)
Lemma multilinear_sample : forall sh f p v, multilinear sh f p v -> forall j, p = map IZR j -> Forall (fun n => 2 <= n) sh -> v = f j.
Proof.
  intros sh f p v H. induction H as [f|n sh f i t p v w Hi Ht Hv IHv Hw IHw]; intros j Ej Hs.
  - destruct j; [reflexivity|discriminate].
  - destruct j as [|x j]; [discriminate|]. cbn [map] in Ej. injection Ej as E1 E2. inversion Hs; subst.
    rewrite (IHv j eq_refl) by assumption. rewrite (IHw j eq_refl) by assumption.
    assert (C : (t = 0 /\ x = i)%R \/ (t = 1 /\ x = (i + 1)%Z)%R).
    { assert (L : (i <= x <= i + 1)%Z) by (split; [apply le_IZR|apply le_IZR; rewrite plus_IZR]; lra).
      destruct (Z.eq_dec x i) as [->|Ne]; [left; split; [lra|reflexivity]|right]. assert (x = i + 1)%Z by lia. split; [|assumption]. subst x. rewrite plus_IZR in E1. lra. }
    destruct C as [[-> ->]|[-> ->]]; ring.
Qed.
Lemma spreads_same : forall sh l, Forall (fun n => 2 <= n) sh -> index_in sh l -> spreads sh sh l = map IZR l.
Proof.
  intros sh l Hs Hi. induction Hi as [|n k sh l Hk Hl IH]; [reflexivity|]. inversion Hs; subst. cbn [spreads map]. rewrite spread_same by assumption. rewrite IH by assumption. reflexivity.
Qed.
Lemma c147_same (a : tensor R) : shape a <> [] -> Forall (fun n => 2 <= n) (shape a) ->
  exists t, congrid_nd linearly a (shape a) = Ok t /\ shape t = shape a /\ forall l, index_in (shape a) l -> at_index t l = at_index a l.
Proof.
  intros Hne Hs. destruct (c147_linear a (shape a) Hne eq_refl Hs Hs) as (t & E & Sh & H). exists t. split; [exact E|]. split; [exact Sh|].
  intros l Hl. apply (multilinear_sample _ _ _ _ (H l Hl)); [apply spreads_same; assumption|exact Hs].
Qed.

(** ** Picking *)
Lemma nest_picks kd : kd <> Next -> forall old new (f : list Z -> b64) l, length new = length old -> Forall (fun n => 2 <= n <= 2 ^ 26) old -> Forall (fun n => 2 <= n <= 2 ^ 26) new ->
  index_in new l -> exists j, stands_for kd old new l j /\ nest (picking kd) old new f l = f j.
Proof.
  intros Hk old. induction old as [|n old IH]; intros new f l HL Ho Hn Hi.
  - destruct new; [|discriminate]. inversion Hi. subst. exists []. split; [constructor|reflexivity].
  - destruct new as [|m new]; [discriminate|]. inversion Hi as [|? k ? l' Hkm Hl]; subst. inversion Ho; inversion Hn; subst.
    destruct (axis kd n m) as (m' & g & [->|[? _]] & G & _ & _); try assumption; [|contradiction].
    destruct (G k Hkm) as (E & B & N). destruct (IH new (fun j => f (g k :: j)) l') as (j & S & Ej); try assumption; [cbn in HL; lia|].
    exists (g k :: j). split; [constructor; assumption|]. cbn [nest]. unfold picking at 1, picked. rewrite E. exact Ej.
Qed.
Lemma c147_picks kd (a : tensor b64) (newdims : list Z) : kd <> Next -> shape a <> [] -> length newdims = length (shape a) ->
  Forall (fun n => 2 <= n <= 2 ^ 26) (shape a) -> Forall (fun n => 2 <= n <= 2 ^ 26) newdims ->
  exists t, congrid_nd (picking kd) a newdims = Ok t /\ shape t = newdims /\
    forall l, index_in newdims l -> exists j, stands_for kd (shape a) newdims l j /\ at_index t l = at_index a j.
Proof.
  intros Hk Hne HL Ho Hn. destruct (congrid_nest (picking kd) a newdims Hne ltac:(lia)) as (t & E & Sh & At).
  rewrite firstn_all2 in Sh, At by lia. exists t. split; [exact E|]. split; [exact Sh|]. intros l Hl.
  rewrite At by (rewrite <- HL; apply index_length, Hl). apply nest_picks; assumption.
Qed.

(** ** Images, refusals, sides of one *)
Lemma c147_images {A} `{Num A} (a : arr A) h w : exists t, congrid_nd linearly (image_tensor a) [h; w] = Ok t /\ shape t = [h; w] /\
  forall y x, at_index t [y; x] = cell (congrid a h w) y x.
Proof. eexists. split; [reflexivity|]. split; [reflexivity|]. intros y x. reflexivity. Qed.

Lemma c147_refused {A} along (a : tensor A) newdims :
  (exists t, congrid_nd along a newdims = Ok t) <-> (shape a <> [] /\ (length (shape a) <= length newdims)%nat).
Proof.
  split.
  - intros (t & E). unfold congrid_nd in E. destruct (Nat.ltb_spec (length newdims) (length (shape a))); [discriminate|].
    destruct (shape a) eqn:Es; [discriminate|]. split; [discriminate|assumption].
  - intros (Hne & HL). destruct (congrid_nest along a newdims Hne HL) as (t & E & _). exists t. exact E.
Qed.
Lemma c147_ignored {A} along (a : tensor A) newdims more t t' : shape a <> [] -> length newdims = length (shape a) ->
  congrid_nd along a newdims = Ok t -> congrid_nd along a (newdims ++ more) = Ok t' ->
  shape t' = shape t /\ forall l, length l = length (shape a) -> at_index t' l = at_index t l.
Proof.
  intros Hne HL E E'. destruct (congrid_nest along a newdims Hne ltac:(lia)) as (u & Eu & Shu & Atu).
  destruct (congrid_nest along a (newdims ++ more) Hne ltac:(rewrite app_length; lia)) as (u' & Eu' & Shu' & Atu').
  rewrite E in Eu. injection Eu as <-. rewrite E' in Eu'. injection Eu' as <-.
  assert (F : firstn (length (shape a)) (newdims ++ more) = firstn (length (shape a)) newdims).
  { rewrite <- HL, firstn_app, Nat.sub_diag, firstn_O, app_nil_r. reflexivity. }
  rewrite F in *. split; [rewrite Shu, Shu'; reflexivity|]. intros l Hl. rewrite Atu, Atu' by exact Hl. reflexivity.
Qed.

Lemma nan_times (x : b64) : x *! S754_nan = S754_nan.
Proof. destruct x; reflexivity. Qed.
Lemma nan_minus (x : b64) : @nsub b64 _ S754_nan x = S754_nan.
Proof. reflexivity. Qed.
Lemma interp_at_nan n (f : Z -> b64) : interp1d n f (S754_nan : b64) = S754_nan.
Proof. unfold interp1d. cbv zeta. rewrite nan_minus, nan_times. reflexivity. Qed.
Lemma interp_of_nan n (f : Z -> b64) (v : b64) : (forall i, f i = S754_nan) -> interp1d n f v = S754_nan.
Proof. intros Hf. unfold interp1d. cbv zeta. rewrite !Hf. reflexivity. Qed.
Lemma position_one n : 2 <= n <= 2 ^ 26 -> position (A := b64) n 1 0 = S754_nan.
Proof.
  intros Hn. unfold position. change (nofZ (1 - 1)) with (S754_zero false : b64). change (nofZ 0) with (S754_zero false : b64).
  destruct (ExactFacts.ofZ_value (n - 1) ltac:(lia)) as (_ & F & V). destruct (nofZ (n - 1) : b64) as [s|s| |s m e] eqn:En; try reflexivity.
Qed.
Lemma nest_nan : forall old new (f : list Z -> b64) l, length new = length old -> Forall (fun n => 2 <= n <= 2 ^ 26) old -> In 1 new -> index_in new l ->
  nest linearly old new f l = S754_nan.
Proof.
  intros old. induction old as [|n old IH]; intros new f l HL Ho H1 Hi.
  - destruct new; [destruct H1|discriminate].
  - destruct new as [|m new]; [discriminate|]. inversion Hi as [|? k ? l' Hkm Hl]; subst. inversion Ho; subst. cbn [nest]. unfold linearly at 1.
    destruct H1 as [->|H1].
    + replace k with 0 by lia. rewrite position_one by assumption. apply interp_at_nan.
    + apply interp_of_nan. intros i. apply IH; try assumption. cbn in HL. lia.
Qed.
Lemma c147_one (a : tensor b64) (newdims : list Z) : shape a <> [] -> length newdims = length (shape a) -> Forall (fun n => 2 <= n <= 2 ^ 26) (shape a) -> In 1 newdims ->
  exists t, congrid_nd linearly a newdims = Ok t /\ forall l, index_in newdims l -> at_index t l = S754_nan.
Proof.
  intros Hne HL Ho H1. destruct (congrid_nest linearly a newdims Hne ltac:(lia)) as (t & E & Sh & At).
  rewrite firstn_all2 in Sh, At by lia. exists t. split; [exact E|]. intros l Hl.
  rewrite At by (rewrite <- HL; apply index_length, Hl). apply nest_nan; assumption.
Qed.
