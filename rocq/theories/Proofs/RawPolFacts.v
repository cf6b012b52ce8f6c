(** From the bytes of a raw file to the polarization, in binary64. *)
From Coq Require Import Reals Lra Lia ZArith List.
From Coquelicot Require Rcomplements.
From Verif Require Import Base.Base Base.Num Model.Demosaic Model.Stokes Model.Pol Model.Codec Spec.AngleSpec Spec.MosaicSpec Spec.CodecSpec
  Spec.FsSpec Spec.FloatSpec Spec.RawPolSpec Proofs.StokesFacts Proofs.ExactFacts Proofs.CodecFacts Proofs.BinaryFacts Proofs.FsFacts Proofs.AngleErrFacts.
Local Open Scope Z_scope.

Lemma cell_amap {A B} (f : A -> B) d y x : cell (amap f d) y x = f (cell d y x).
Proof. reflexivity. Qed.

Lemma counted top (img : arr Z) : top < 2 ^ 53 ->
  (forall y x, 0 <= y < rows img -> 0 <= x < cols img -> 0 <= cell img y x <= top) -> counts top (amap b64_ofZ img).
Proof.
  intros Ht H y x Hy Hx. exists (cell img y x). split; [apply H; assumption|].
  rewrite cell_amap. apply (ofZ_value (cell img y x)). specialize (H y x Hy Hx). lia.
Qed.

Lemma c137_counts dic a (img : arr Z) top : describes dic a -> mosaic img -> 0 <= top <= 2 ^ 24 ->
  (forall y x, 0 <= y < rows img -> 0 <= x < cols img -> 0 <= cell img y x <= top) ->
  exists s, data_stokes dic (amap b64_ofZ img) = Ok s /\ measures a (cell img) (rows img) (cols img) s.
Proof.
  intros Hd Hm Ht Hc. set (d := amap b64_ofZ img). assert (Hm' : mosaic d) by exact Hm.
  assert (C : counts top d) by (apply counted; [lia|exact Hc]).
  destruct (data_stokes_spec dic a d Hd Hm') as (s & Es & (RI & CI) & (RQ & CQ) & (RU & CU) & _). exists s. split; [exact Es|].
  pose proof (c101_stokes top d ltac:(lia) C Hm' dic ltac:(lia)) as X. rewrite Es in X.
  destruct (c101_pol top d ltac:(lia) C Hm' dic s ltac:(lia) Es) as (t & Et & P). rewrite Et in X. cbn [same_outcome] in X.
  destruct (data_stokes_spec dic a (values d) Hd Hm') as (t' & Et' & (RI' & CI') & (RQ' & CQ') & (RU' & CU') & T).
  rewrite Et in Et'. injection Et' as <-.
  destruct X as ((_ & _ & XI) & (_ & _ & XQ) & (_ & _ & XU)).
  change (rows (values d)) with (rows img) in *. change (cols (values d)) with (cols img) in *.
  change (rows d) with (rows img) in *. change (cols d) with (cols img) in *.
  split; [exact RI|]. split; [exact CI|]. split; [exact RI|]. split; [exact CI|].
  intros Y X HY HX. cbv zeta.
  assert (S : forall k, 0 <= k < 4 -> sample (values d) k Y X = behind (cell img) k Y X).
  { intros k Hk. unfold sample, values, behind. unfold d. rewrite !cell_amap.
    assert (B : 0 <= k / 2 <= 1 /\ 0 <= k mod 2 <= 1) by (Z.to_euclidean_division_equations; lia).
    destruct Hm as (M1 & M2 & M3 & M4).
    assert (0 <= 2 * Y + k / 2 < rows img) by (Z.to_euclidean_division_equations; lia).
    assert (0 <= 2 * X + k mod 2 < cols img) by (Z.to_euclidean_division_equations; lia).
    apply (ofZ_value (cell img (2 * Y + k / 2) (2 * X + k mod 2))).
    specialize (Hc (2 * Y + k / 2) (2 * X + k mod 2) ltac:(assumption) ltac:(assumption)). lia. }
  destruct (T Y X HY HX) as (TI & TQ & TU). destruct (P Y X HY HX) as (PB & PD).
  specialize (XI Y X ltac:(lia) ltac:(lia)). specialize (XQ Y X ltac:(lia) ltac:(lia)). specialize (XU Y X ltac:(lia) ltac:(lia)).
  rewrite !S in TI by lia. destruct Hd as ((A1 & A2 & A3 & A4 & _) & _). rewrite !S in TQ, TU by assumption.
  cbn [nadd nmul nsub nhalf Num_R] in TI, TQ, TU.
  set (total := (behind (cell img) 0 Y X + behind (cell img) 1 Y X + behind (cell img) 2 Y X + behind (cell img) 3 Y X)%R) in *.
  assert (TI' : cell (sI t) Y X = (total / 2)%R) by (rewrite TI; unfold total; lra).
  assert (TB : cell (pB t) Y X = sqrt ((behind (cell img) (p0 a) Y X - behind (cell img) (p90 a) Y X) * (behind (cell img) (p0 a) Y X - behind (cell img) (p90 a) Y X)
      + (behind (cell img) (p45 a) Y X - behind (cell img) (pm45 a) Y X) * (behind (cell img) (p45 a) Y X - behind (cell img) (pm45 a) Y X))).
  { unfold pB. cbn [amap2 cell]. rewrite TQ, TU. reflexivity. }
  split; [rewrite <- TI'; exact XI|]. split; [rewrite <- TQ; exact XQ|]. split; [rewrite <- TU; exact XU|].
  split; [rewrite <- TB; exact PB|]. unfold DoLP in PD at 2. cbn [amap2 cell] in PD. rewrite TB, TI' in PD.
  change (@n0 R _) with 0%R in PD. cbn [neqb Num_R ndiv] in PD. unfold Reqb in PD. split; intros Z0; destruct (Req_EM_T (total / 2) 0) as [E|E]; try lra; cbn [negb] in PD.
  - exact PD.
  - destruct PD as (B & F & D). repeat split; [exact B|exact F|].
    rewrite Rminus_0_r, Rabs_R0, Rmult_0_r in D. destruct (Req_dec (fval (cell (DoLP s) Y X)) 0) as [V|V]; [exact V|].
    apply Rabs_pos_lt in V. lra.
Qed.

Lemma forall_nth (P : Z -> Prop) l k : P 0 -> Forall P l -> P (nth k l 0).
Proof. intros H0 F. destruct (nth_in_or_default k l 0) as [I| ->]; [rewrite Forall_forall in F; auto|exact H0]. Qed.

(** The decoded 12-bit file as binary64 numbers: image.py 118 stores what astropy read back as float. *)
Lemma c137_packed content sch dic a : Forall is_byte content -> complete_schedule 32 sch -> zlen content = file_len ->
  (forall i, (i < 32)%nat -> ~ ends_in_nul (chunk content (length content / 32) i)) -> describes dic a ->
  exists img s, nparr_from_binary content sch = Ok img /\ data_stokes dic (amap b64_ofZ img) = Ok s /\
    measures a (fun y x => nth (Z.to_nat (1952 * y + x)) (decode12 content) 0) 1952 1952 s.
Proof.
  intros Hb Hs Hl Hn Hd.
  set (img := mkarr 1952 1952 (fun y x => nth (Z.to_nat (1952 * y + x)) (decode12 content) 0)).
  destruct (c137_counts dic a img 4095 Hd) as (s & Es & M).
  - repeat split; cbn; lia.
  - lia.
  - intros y x _ _. unfold img. cbn [cell].
    pose proof (forall_nth is_12bit (decode12 content) (Z.to_nat (1952 * y + x)) ltac:(unfold is_12bit; lia) (decode_range content Hb)) as B.
    unfold is_12bit in B. lia.
  - exists img, s. split; [exact (c45_good content sch Hb Hs Hl Hn)|]. split; [exact Es|exact M].
Qed.

Lemma c137_plain content h w dic a : Forall is_byte content -> 0 <= h -> 0 <= w -> h mod 2 = 0 -> w mod 2 = 0 -> 2 * (h * w) <= zlen content ->
  describes dic a ->
  exists img s, u2_array h w content = Ok img /\ data_stokes dic (amap b64_ofZ img) = Ok s /\
    measures a (fun y x => nth (Z.to_nat (2 * (w * y + x))) content 0 + 256 * nth (Z.to_nat (2 * (w * y + x) + 1)) content 0) h w s.
Proof.
  intros Hb Hh Hw Eh Ew Hl Hd.
  set (img := mkarr h w (fun y x => nth (Z.to_nat (2 * (w * y + x))) content 0 + 256 * nth (S (Z.to_nat (2 * (w * y + x)))) content 0)).
  assert (E : u2_array h w content = Ok img).
  { unfold u2_array. replace ((h <? 0) || (w <? 0)) with false by (symmetry; rewrite orb_false_iff, !Z.ltb_ge; lia).
    replace (zlen content <? h * w * 2) with false by (symmetry; apply Z.ltb_ge; lia). reflexivity. }
  destruct (c137_counts dic a img 65535 Hd) as (s & Es & M).
  - repeat split; assumption.
  - lia.
  - intros y x _ _. unfold img. cbn [cell].
    pose proof (forall_nth is_byte content (Z.to_nat (2 * (w * y + x))) ltac:(unfold is_byte; lia) Hb) as B1.
    pose proof (forall_nth is_byte content (S (Z.to_nat (2 * (w * y + x)))) ltac:(unfold is_byte; lia) Hb) as B2.
    unfold is_byte in B1, B2. lia.
  - exists img, s. split; [exact E|]. split; [exact Es|].
    destruct M as (R1 & C1 & R2 & C2 & M). change (rows img) with h in *. change (cols img) with w in *.
    split; [exact R1|]. split; [exact C1|]. split; [exact R2|]. split; [exact C2|].
    intros Y X HY HX. specialize (M Y X HY HX). cbv beta zeta in M |- *.
    assert (S : forall k, 0 <= k < 4 -> behind (cell img) k Y X =
      behind (fun y x => nth (Z.to_nat (2 * (w * y + x))) content 0 + 256 * nth (Z.to_nat (2 * (w * y + x) + 1)) content 0) k Y X).
    { intros k Hk. unfold behind, img. cbn [cell]. repeat f_equal.
      assert (0 <= w * (2 * Y + k / 2)) by (apply Z.mul_nonneg_nonneg; [lia|Z.to_euclidean_division_equations; lia]).
      assert (0 <= k mod 2) by (Z.to_euclidean_division_equations; lia). lia. }
    destruct Hd as ((A1 & A2 & A3 & A4 & _) & _). rewrite !S in M by (assumption || lia). exact M.
Qed.

(** Counts that are the light behind ideal micropolarizers up to [e]. *)
Lemma c137_light a n height width s I Q U e : arrangement_ok a -> measures a n height width s -> (0 <= e)%R ->
  forall Y X, 0 <= Y < height / 2 -> 0 <= X < width / 2 ->
  (Rabs (behind n (p0 a) Y X - ideal 0 I Q U) <= e)%R -> (Rabs (behind n (p45 a) Y X - ideal (PI / 4) I Q U) <= e)%R ->
  (Rabs (behind n (pm45 a) Y X - ideal (- (PI / 4)) I Q U) <= e)%R -> (Rabs (behind n (p90 a) Y X - ideal (PI / 2) I Q U) <= e)%R ->
  (Rabs (fval (cell (sI s) Y X) - I) <= 2 * e)%R /\ (Rabs (fval (cell (sQ s) Y X) - Q) <= 2 * e)%R /\ (Rabs (fval (cell (sU s) Y X) - U) <= 2 * e)%R /\
  exists p, nearest (cell (pB s) Y X) p /\ (Rabs (p - sqrt (Q * Q + U * U)) <= 3 * e)%R.
Proof.
  intros Ha (_ & _ & _ & _ & M) He Y X HY HX H0 H45 Hm H90. specialize (M Y X HY HX). cbv beta zeta in M.
  destruct M as ((_ & _ & MI) & (_ & _ & MQ) & (_ & _ & MU) & PB & _).
  rewrite (arrangement_sum a (fun k => behind n k Y X) Ha) in MI. rewrite MI, MQ, MU.
  rewrite ideal_0 in H0. rewrite ideal_45 in H45. rewrite ideal_m45 in Hm. rewrite ideal_90 in H90.
  apply Rcomplements.Rabs_le_between in H0, H45, Hm, H90.
  assert (BQ : (Rabs (behind n (p0 a) Y X - behind n (p90 a) Y X - Q) <= 2 * e)%R) by (apply Rabs_le; lra).
  assert (BU : (Rabs (behind n (p45 a) Y X - behind n (pm45 a) Y X - U) <= 2 * e)%R) by (apply Rabs_le; lra).
  split; [apply Rabs_le; lra|]. split; [exact BQ|]. split; [exact BU|]. eexists. split; [exact PB|].
  apply norm_close; [lra|]. unfold Rsqr.
  apply Rcomplements.Rabs_le_between in BQ, BU.
  set (q := (_ - Q)%R) in *. set (u := (_ - U)%R) in *. clearbody q u. nra.
Qed.
