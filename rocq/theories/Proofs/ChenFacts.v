(** Chen-Wan-Liang calibration. *)
From Coq Require Import Reals Lra.
From Verif Require Import Base.Base Base.BaseFacts Base.Num Model.Demosaic Model.Rebin Model.Ifov
  Spec.MosaicSpec Spec.ChenSpec Proofs.DemosaicFacts Proofs.MosaicFacts.

Section Chen.
  Context {A : Type} `{Num A}.

  Lemma half_mod2 y Y : y / 2 = Y -> y = 2 * Y \/ y = 2 * Y + 1.
  Proof. intros <-. pose proof (Z.div_mod y 2). pose proof (Z.mod_pos_bound y 2). lia. Qed.

  Lemma chen_with_spec (store : A -> A) (C : Z -> Z -> arr A) (dij data : arr A) :
    mosaic data -> rows dij = rows data -> cols dij = cols data ->
    exists r, chen_calibration_with store C dij data = Ok r /\
      rows r = rows data /\ cols r = cols data /\
      let f y x := store (corrected (fun k l Y X => cell (C k l) (2 * Y) (2 * X)) dij data y x) in
      forall y x, 0 <= y < rows data -> 0 <= x < cols data ->
        cell r y x =
          if (y <? 2) || (x <? 2) then n0
          else nquart *! (((f (y - 2) (x - 2) +! f (y - 2) x) +! f y (x - 2)) +! f y x).
  Proof.
    intros Hm Rd Cd. destruct Hm as (Hr & Hc & Er & Ec). unfold chen_calibration_with.
    replace (same_shapeb data dij) with true.
    2: { symmetry. unfold same_shapeb. rewrite Rd, Cd, !Z.eqb_refl. reflexivity. }
    cbn [negb]. cbv zeta.
    set (P := amap2 nsub data dij).
    set (F := fun y x => store (corrected (fun k l Y X => cell (C k l) (2 * Y) (2 * X)) dij data y x)).
    set (p := rows data / 2). assert (Hp : rows data = 2 * p) by (unfold p; lia).
    set (q := cols data / 2). assert (Hq : cols data = 2 * q) by (unfold q; lia).
    match goal with |- context [for_range 0 (rows data) 2 ?body ?st] =>
      destruct (for_range_inv (fun k b => rows b = rows data /\ cols b = cols data /\
         forall y x, 0 <= y < rows data -> 0 <= x < cols data ->
           cell b y x = if y <? 2 * k then F y x else n0)
        0 (rows data) 2 body st) as (b & E & Rb & Cb & Hb) end.
    - lia.
    - cbn [full rows cols cell]. split; [reflexivity|]. split; [reflexivity|]. intros y x Hy Hx.
      replace (y <? 2 * 0) with false by lia. reflexivity.
    - intros k s Hk Hlt (Rs & Cs & Hs).
      match goal with |- context [for_range 0 (cols data) 2 ?body s] =>
        destruct (for_range_inv (fun l b => rows b = rows data /\ cols b = cols data /\
           forall y x, 0 <= y < rows data -> 0 <= x < cols data ->
             cell b y x = if (y / 2 =? k) && (x <? 2 * l) then F y x else cell s y x)
          0 (cols data) 2 body s) as (b & E & Rb & Cb & Hb) end.
      + lia.
      + split; [assumption|]. split; [assumption|]. intros y x Hy Hx.
        replace ((y / 2 =? k) && (x <? 2 * 0)) with false by lia. reflexivity.
      + intros l s1 Hl Hlt1 (R1 & C1 & H1).
        replace ((rows data <? 0 + k * 2 + 2) || (cols data <? 0 + l * 2 + 2)) with false by (unfold range_len in *; lia).
        eexists; split; [reflexivity|]. cbn [rows cols cell].
        split; [assumption|]. split; [assumption|]. intros y x Hy Hx.
        replace ((0 + k * 2 <=? y) && (y <? 0 + k * 2 + 2) && (0 + l * 2 <=? x) && (x <? 0 + l * 2 + 2))
          with ((y / 2 =? k) && (x / 2 =? l)) by (destruct (y / 2 =? k) eqn:?, (x / 2 =? l) eqn:?; lia).
        destruct (y / 2 =? k) eqn:Ey; cbn [andb]; [|rewrite H1 by assumption; rewrite Ey; reflexivity].
        destruct (x / 2 =? l) eqn:Ex.
        * apply Z.eqb_eq in Ey, Ex. replace (x <? 2 * (l + 1)) with true by lia.
          unfold F, corrected, row4, sample, family. rewrite Ey, Ex.
          replace (0 + k * 2) with (2 * k) by lia. replace (0 + l * 2) with (2 * l) by lia.
          replace (2 * (y - 2 * k) + (x - 2 * l)) with (2 * (y mod 2) + x mod 2) by lia.
          reflexivity.
        * rewrite H1 by assumption. rewrite Ey. cbn [andb].
          destruct (x <? 2 * l) eqn:E1, (x <? 2 * (l + 1)) eqn:E2; try reflexivity; lia.
      + exists b. split; [exact E|]. split; [exact Rb|]. split; [exact Cb|]. intros y x Hy Hx.
        rewrite Hb, Hs by assumption.
        assert (El : range_len 0 (cols data) 2 = q) by (unfold range_len; lia). rewrite El.
        destruct ((y / 2 =? k) && (x <? 2 * q)) eqn:E1, (y <? 2 * k) eqn:E2, (y <? 2 * (k + 1)) eqn:E3;
          try reflexivity; lia.
    - rewrite E. cbn [bind].
      assert (El : range_len 0 (rows data) 2 = p) by (unfold range_len; lia). rewrite El in Hb.
      assert (Hbf : forall y x, 0 <= y < rows data -> 0 <= x < cols data -> cell b y x = F y x).
      { intros y x Hy Hx. rewrite Hb by assumption. replace (y <? 2 * p) with true by lia. reflexivity. }
      destruct (ifov_spec b) as (r & E' & Rr & Cr & Hcell).
      { unfold mosaic. rewrite Rb, Cb. repeat split; assumption. }
      rewrite <- Rb, <- Cb. exists r. split; [exact E'|]. split; [exact Rr|]. split; [exact Cr|].
      intros y x Hy Hx. rewrite Hcell by assumption.
      destruct ((y <? 2) || (x <? 2)) eqn:Eb; [reflexivity|].
      rewrite !Hbf by lia. reflexivity.
  Qed.

  Lemma chen_spec (C : Z -> Z -> arr A) (dij data : arr A) :
    mosaic data -> rows dij = rows data -> cols dij = cols data ->
    exists r, chen_calibration C dij data = Ok r /\
      rows r = rows data /\ cols r = cols data /\
      let f := corrected (fun k l Y X => cell (C k l) (2 * Y) (2 * X)) dij data in
      forall y x, 0 <= y < rows data -> 0 <= x < cols data ->
        cell r y x =
          if (y <? 2) || (x <? 2) then n0
          else nquart *! (((f (y - 2) (x - 2) +! f (y - 2) x) +! f y (x - 2)) +! f y x).
  Proof. exact (chen_with_spec (fun v => v) C dij data). Qed.
End Chen.

(** Incomplete superpixels *)
Lemma iter_range_raise {T} e n i step (body : Z -> T -> result T) s k0 :
  (forall k s, (k < n)%nat -> (exists s', body (i + Z.of_nat k * step) s = Ok s') \/ body (i + Z.of_nat k * step) s = Raise e) ->
  (k0 < n)%nat -> (forall s, body (i + Z.of_nat k0 * step) s = Raise e) ->
  iter_range n i step body s = Raise e.
Proof.
  revert i s k0. induction n as [|n IH]; intros i s k0 Hb Hk Hr; [lia|]. cbn [iter_range].
  destruct (Hb 0%nat s ltac:(lia)) as [[s' E]|E]; replace (i + Z.of_nat 0 * step) with i in E by lia; rewrite E; [|reflexivity].
  cbn [bind]. destruct k0 as [|k0]; [specialize (Hr s); replace (i + Z.of_nat 0 * step) with i in Hr by lia; congruence|].
  apply (IH (i + step) s' k0); [|lia|].
  - intros k s1 Hk1. replace (i + step + Z.of_nat k * step) with (i + Z.of_nat (S k) * step) by lia. apply Hb. lia.
  - intros s1. replace (i + step + Z.of_nat k0 * step) with (i + Z.of_nat (S k0) * step) by lia. apply Hr.
Qed.

Lemma iter_range_cases {T} e n i step (body : Z -> T -> result T) s :
  (forall k s, (exists s', body k s = Ok s') \/ body k s = Raise e) ->
  (exists s', iter_range n i step body s = Ok s') \/ iter_range n i step body s = Raise e.
Proof.
  intro Hb. revert i s. induction n as [|n IH]; intros i s; [left; eexists; reflexivity|]. cbn [iter_range].
  destruct (Hb i s) as [[s' E]|E]; rewrite E; [apply IH|right; reflexivity].
Qed.

Lemma chen_rejects {A} `{Num A} (C : Z -> Z -> arr A) (dij data : arr A) :
  0 < rows data -> 0 < cols data -> rows data mod 2 = 1 \/ cols data mod 2 = 1 ->
  chen_calibration C dij data = Raise ValueError.
Proof.
  intros Hr Hc Ho. unfold chen_calibration, chen_calibration_with. destruct (negb _); [reflexivity|]. cbv zeta.
  set (P := amap2 nsub data dij).
  match goal with |- context [for_range 0 (rows data) 2 ?b ?st] => assert (E : for_range 0 (rows data) 2 b st = Raise ValueError) end.
  2: { rewrite E. reflexivity. }
  unfold for_range.
  assert (L : forall n, 0 < n -> range_len 0 n 2 = (n + 1) / 2) by (intros; unfold range_len; lia).
  apply (iter_range_raise _ _ _ _ _ _ (Z.to_nat ((if rows data mod 2 =? 1 then rows data - 1 else 0) / 2))).
  - intros k s Hk. apply iter_range_cases. intros l s1.
    destruct (_ || _); [right; reflexivity|left; eexists; reflexivity].
  - rewrite L by assumption. destruct (rows data mod 2 =? 1); lia.
  - intro s.
    apply (iter_range_raise _ _ _ _ _ _ (Z.to_nat ((if rows data mod 2 =? 1 then 0 else cols data - 1) / 2))).
    + intros l s1 Hl. destruct (_ || _); [right; reflexivity|left; eexists; reflexivity].
    + rewrite L by assumption. destruct (rows data mod 2 =? 1); lia.
    + intro s1. destruct (rows data mod 2 =? 1) eqn:E.
      * replace (rows data <? _) with true by lia. reflexivity.
      * replace (cols data <? _) with true by lia. rewrite orb_true_r. reflexivity.
Qed.

(** Identity matrices and no offsets. *)
Lemma corrected_identity (M : Z -> Z -> Z -> Z -> R) (dij data : arr R) y x :
  (forall k l, 0 <= k < 4 -> 0 <= l < 4 -> M k l (y / 2) (x / 2) = if k =? l then 1%R else 0%R) ->
  (forall l, 0 <= l < 4 -> sample dij l (y / 2) (x / 2) = 0%R) ->
  corrected M dij data y x = cell data y x.
Proof.
  intros HM Hd. unfold corrected. set (k := family y x).
  assert (Ek : k = family y x) by reflexivity. unfold family in Ek.
  assert (Hk : 0 <= k < 4) by lia.
  rewrite !HM, !Hd by lia. cbn [nsub nadd nmul Num_R].
  assert (S : sample data k (y / 2) (x / 2) = cell data y x).
  { unfold sample. f_equal; lia. }
  assert (K : k = 0 \/ k = 1 \/ k = 2 \/ k = 3) by lia. rewrite <- S. clear Ek S.
  destruct K as [-> | [-> | [-> | ->]]]; cbn [Z.eqb Pos.eqb]; lra.
Qed.

Lemma chen_identity (C : Z -> Z -> arr R) (dij data : arr R) :
  mosaic data -> rows dij = rows data -> cols dij = cols data ->
  (forall k l Y X, 0 <= k < 4 -> 0 <= l < 4 -> cell (C k l) (2 * Y) (2 * X) = if k =? l then 1%R else 0%R) ->
  (forall y x, cell dij y x = 0%R) ->
  exists r i, chen_calibration C dij data = Ok r /\ ifov_jitcorrect data (rows data) (cols data) = Ok i /\ r =a= i.
Proof.
  intros Hm Rd Cd HC Hd. destruct (chen_spec C dij data Hm Rd Cd) as (r & E & Rr & Cr & Hcell).
  destruct (ifov_spec data Hm) as (i & Ei & Ri & Ci & Hi).
  exists r, i. split; [exact E|]. split; [exact Ei|]. split; [congruence|]. split; [congruence|].
  intros y x Hy Hx. rewrite Hcell, Hi by lia.
  destruct ((y <? 2) || (x <? 2)); [reflexivity|].
  rewrite !corrected_identity; try reflexivity; intros; try (apply HC; assumption); apply Hd.
Qed.
