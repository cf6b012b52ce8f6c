From Coq Require Import Reals Lra.
From Verif Require Import Base.Base Base.Num Base.Bcast Base.BaseFacts Spec.PixelSpec
  Spec.SumSpec Model.Utils Model.Stokes Model.Demosaic Proofs.AngleFacts.
From Coq Require Import ZifyBool.

Lemma Reqb_true (x y : R) : Reqb x y = true <-> x = y.
Proof. unfold Reqb. destruct (Req_EM_T x y); split; congruence. Qed.
Lemma Reqb_false (x y : R) : Reqb x y = false <-> x <> y.
Proof. unfold Reqb. destruct (Req_EM_T x y); split; congruence. Qed.

Lemma bdim_same n : bdim n n = Some n.
Proof. unfold bdim. rewrite Z.eqb_refl. reflexivity. Qed.

Lemma bcell_in {A} (a : arr A) y x : 0 <= y < rows a -> 0 <= x < cols a -> bcell a y x = cell a y x.
Proof.
  intros Hy Hx. unfold bcell.
  destruct (rows a =? 1) eqn:Er; destruct (cols a =? 1) eqn:Ec; f_equal; lia.
Qed.

Lemma bmap2_same {A B C} (f : A -> B -> C) a b :
  same_shape a b ->
  exists c, bmap2 f a b = Ok c /\ holds c a (fun y x => f (cell a y x) (cell b y x)).
Proof.
  intros [Hr Hc]. unfold bmap2. rewrite <- Hr, <- Hc, !bdim_same.
  eexists; split; [reflexivity|]. repeat split; cbn [rows cols cell].
  intros y x Hy Hx. rewrite !bcell_in by (rewrite <- ?Hr, <- ?Hc; assumption). reflexivity.
Qed.

Lemma bmap2_bad {A B C} (f : A -> B -> C) a b :
  (rows a <> rows b /\ rows a <> 1 /\ rows b <> 1) \/
  (cols a <> cols b /\ cols a <> 1 /\ cols b <> 1) ->
  bmap2 f a b = Raise ValueError.
Proof.
  intros H. unfold bmap2, bdim.
  destruct H as [(H1 & H2 & H3)|(H1 & H2 & H3)].
  - apply Z.eqb_neq in H1, H2, H3. rewrite H1, H2, H3. reflexivity.
  - apply Z.eqb_neq in H1, H2, H3. rewrite H1, H2, H3.
    destruct (rows a =? rows b); [reflexivity|]. destruct (rows a =? 1); [reflexivity|].
    destruct (rows b =? 1); reflexivity.
Qed.

Lemma fix_data_clamps (d : arr R) lo hi :
  (lo <= hi)%R -> lo <> 0%R -> hi <> 0%R ->
  holds (fix_data d (Some lo) (Some hi)) d (fun y x => clamp lo hi (cell d y x)).
Proof.
  intros Hle Hlo Hhi. unfold fix_data, truthy. cbn [neqb Num_R n0 nofZ].
  apply Reqb_false in Hlo, Hhi.
  change (@n0 R Num_R) with 0%R. rewrite Hlo, Hhi. cbn [negb andb].
  repeat split. intros y x _ _. cbn [amap cell nltb Num_R]. unfold clamp.
  apply Reqb_false in Hlo, Hhi.
  unfold Rltb. destruct (Rlt_dec lo (cell d y x)) as [H1|H1].
  - destruct (Rlt_dec (cell d y x) hi) as [H2|H2].
    + rewrite Rmin_left by lra. rewrite Rmax_right by lra. reflexivity.
    + rewrite Rmin_right by lra. rewrite Rmax_right by lra. reflexivity.
  - destruct (Rlt_dec lo hi) as [H2|H2].
    + rewrite Rmin_left by lra. rewrite Rmax_left by lra. reflexivity.
    + assert (lo = hi) by lra. subst.
      unfold Rmin, Rmax. destruct (Rle_dec (cell d y x) hi); destruct (Rle_dec hi _); lra.
Qed.

Lemma fix_data_skips (d : arr R) mn mx :
  mn = None \/ mx = None \/ mn = Some 0%R \/ mx = Some 0%R -> fix_data d mn mx = d.
Proof.
  intros H. unfold fix_data, truthy. change (@n0 R Num_R) with 0%R. cbn [neqb Num_R].
  assert (E : Reqb 0 0 = true) by (apply Reqb_true; reflexivity).
  destruct H as [-> | [-> | [-> | ->]]].
  - reflexivity.
  - destruct mn; [destruct (Reqb r 0)|]; reflexivity.
  - rewrite E. reflexivity.
  - rewrite E. destruct mn; [destruct (Reqb r 0)|]; reflexivity.
Qed.

Lemma fix_data_nan (d : arr b64) lo hi y x :
  truthy (Some lo) = true -> truthy (Some hi) = true -> nltb lo hi = true ->
  cell d y x = SpecFloat.S754_nan ->
  cell (fix_data d (Some lo) (Some hi)) y x = lo.
Proof.
  intros Hlo Hhi Hlt Hn. unfold fix_data. rewrite Hlo, Hhi. cbn [negb andb amap cell].
  rewrite Hn.
  assert (E : @nltb b64 _ lo SpecFloat.S754_nan = false) by (destruct lo; reflexivity).
  rewrite E, Hlt. reflexivity.
Qed.

Lemma fix_data_refuted :
  exists (d : arr R) lo hi,
    (lo <= hi)%R /\ exists y x, (0 <= y < rows d /\ 0 <= x < cols d)%Z /\
      ~ (lo <= cell (fix_data d (Some lo) (Some hi)) y x)%R.
Proof.
  exists (full 1 1 (-1)%R), 0%R, 10%R. split; [lra|]. exists 0%Z, 0%Z.
  split; [cbn; lia|]. rewrite fix_data_skips by auto. cbn. lra.
Qed.

Lemma dark_ok (data dark : arr R) :
  same_shape data dark ->
  exists d, dark_data data dark = Ok d /\
    holds d data (fun y x => Rmax (cell data y x - cell dark y x)%R 0%R).
Proof.
  intros Hs. unfold dark_data, dark_data_with.
  destruct (bmap2_same (@nsub R _) data dark Hs) as (c & Hc & Hr & Hcl & Hv).
  rewrite Hc. cbn [bind]. eexists; split; [reflexivity|].
  repeat split; cbn [amap rows cols cell]; [assumption..|].
  intros y x Hy Hx. rewrite Hv by assumption. cbn [nsub Num_R nleb].
  change (@n0 R Num_R) with 0%R. unfold Rleb.
  destruct (Rle_dec 0 _).
  - rewrite Rmax_left by lra. reflexivity.
  - rewrite Rmax_right by lra. reflexivity.
Qed.

Lemma dark_bad (data dark : arr R) :
  (rows data <> rows dark /\ rows data <> 1 /\ rows dark <> 1) \/
  (cols data <> cols dark /\ cols data <> 1 /\ cols dark <> 1) ->
  dark_data data dark = Raise ValueError.
Proof. intros H. unfold dark_data, dark_data_with. rewrite bmap2_bad by assumption. reflexivity. Qed.

Lemma dark_u16_wraps :
  exists data dark d, same_shape data dark /\ dark_data_u16 data dark = Ok d /\
    (forall y x, 0 <= cell data y x < 65536 /\ 0 <= cell dark y x < 65536) /\
    cell d 0 0 <> Z.max (cell data 0 0 - cell dark 0 0) 0.
Proof.
  exists (full 2 2 3), (full 2 2 5). eexists. split; [split; reflexivity|].
  split; [reflexivity|]. split; [intros; cbn; lia|]. cbn. discriminate.
Qed.

Lemma dark_u16_all data dark d y x :
  same_shape data dark -> (0 <= y < rows data)%Z -> (0 <= x < cols data)%Z ->
  dark_data_u16 data dark = Ok d ->
  cell d y x = (cell data y x - cell dark y x) mod 65536.
Proof.
  intros Hs Hy Hx. unfold dark_data_u16, dark_data_with.
  destruct (bmap2_same u16_sub data dark Hs) as (c & Hc & Hr & Hcl & Hv).
  rewrite Hc. cbn [bind]. intros E. injection E as <-. cbn [amap cell].
  rewrite Hv by assumption. unfold u16_sub.
  pose proof (Z.mod_pos_bound (cell data y x - cell dark y x) 65536 ltac:(lia)).
  destruct (0 <=? _) eqn:E; [reflexivity|lia].
Qed.

Lemma divide_ok junk (a b : arr R) :
  same_shape a b ->
  exists c, divide_where junk a b = Ok c /\
    holds c a (fun y x => if Req_EM_T (cell b y x) 0 then junk y x else (cell a y x / cell b y x)%R).
Proof.
  intros Hs. unfold divide_where.
  destruct (bmap2_same (fun u v : R => (u, v)) a b Hs) as (c & Hc & Hr & Hcl & Hv).
  rewrite Hc. cbn [bind]. eexists; split; [reflexivity|].
  repeat split; cbn [rows cols cell]; [assumption..|].
  intros y x Hy Hx. rewrite Hv by assumption. change (@n0 R Num_R) with 0%R.
  cbn [neqb Num_R]. unfold Reqb. destruct (Req_EM_T (cell b y x) 0); reflexivity.
Qed.

Lemma flat_ok junk (data flat : arr R) :
  same_shape data flat -> amean flat <> 0%R ->
  exists c, flat_data junk data flat = Ok c /\
    holds c data (fun y x => if Req_EM_T (cell flat y x) 0 then junk y x
                             else (cell data y x * amean flat / cell flat y x)%R).
Proof.
  intros Hs Hm. unfold flat_data.
  destruct (divide_ok junk data (amap (fun v => v / amean flat)%R flat)) as (c & Hc & Hr & Hcl & Hv);
    [exact Hs|].
  exists c. split; [exact Hc|]. repeat split; [assumption..|].
  intros y x Hy Hx. rewrite Hv by assumption. cbn [amap cell].
  destruct (Req_EM_T (cell flat y x) 0) as [E|E];
    destruct (Req_EM_T (cell flat y x / amean flat) 0) as [F|F].
  - reflexivity.
  - exfalso. apply F. rewrite E. unfold Rdiv. ring.
  - exfalso. apply E. apply (f_equal (fun v => v * amean flat)%R) in F.
    unfold Rdiv in F. rewrite Rmult_assoc, Rinv_l, Rmult_1_r, Rmult_0_l in F by assumption. exact F.
  - field. split; assumption.
Qed.

Lemma division_refuted :
  exists (a b : arr R) j1 j2 c1 c2,
    same_shape a b /\ divide_where j1 a b = Ok c1 /\ divide_where j2 a b = Ok c2 /\ ~ c1 =a= c2.
Proof.
  exists (full 1 1 1%R), (full 1 1 0%R), (fun _ _ => 0%R), (fun _ _ => 1%R).
  destruct (divide_ok (fun _ _ => 0%R) (full 1 1 1%R) (full 1 1 0%R)) as (c1 & H1 & _ & _ & V1);
    [split; reflexivity|].
  destruct (divide_ok (fun _ _ => 1%R) (full 1 1 1%R) (full 1 1 0%R)) as (c2 & H2 & _ & _ & V2);
    [split; reflexivity|].
  exists c1, c2. split; [split; reflexivity|]. split; [exact H1|]. split; [exact H2|].
  intros (Hr & Hc & He).
  assert (R1 : rows c1 = 1 /\ cols c1 = 1).
  { cbn in H1. injection H1 as <-. split; reflexivity. }
  specialize (He 0 0). rewrite V1, V2 in He by (cbn; lia). cbn in He.
  destruct (Req_EM_T 0 0); [|contradiction]. assert (0 = 1)%R by (apply He; lia). lra.
Qed.

From Verif Require Import Spec.MosaicSpec Spec.StokesSpec Proofs.StokesFacts.

Lemma dark_self dic a (data : arr R) :
  describes dic a -> mosaic data ->
  exists d s, dark_data data data = Ok d /\ holds d data (fun _ _ => 0%R) /\
    data_stokes dic d = Ok s /\
    stokes_is s (rows data / 2) (cols data / 2)
      (fun _ _ => 0%R) (fun _ _ => 0%R) (fun _ _ => 0%R).
Proof.
  intros Hd Hm.
  destruct (dark_ok data data) as (d & E & Hr & Hc & Hv); [split; reflexivity|].
  assert (Hz : forall y x, (0 <= y < rows data)%Z -> (0 <= x < cols data)%Z -> cell d y x = 0%R).
  { intros y x Hy Hx. rewrite Hv by assumption. rewrite Rminus_diag_eq by reflexivity.
    apply Rmax_left. lra. }
  assert (Hmd : mosaic d) by (unfold mosaic in *; rewrite Hr, Hc; exact Hm).
  destruct (data_stokes_spec dic a d Hd Hmd) as (s & Es & S1 & S2 & S3 & Sv).
  exists d, s. split; [exact E|]. split; [repeat split; assumption|]. split; [exact Es|].
  rewrite Hr, Hc in *. unfold stokes_is. split; [exact S1|]. split; [exact S2|]. split; [exact S3|].
  destruct Hd as (Ha & _). destruct Ha as (A1 & A2 & A3 & A4 & _).
  destruct Hm as (M1 & M2 & M3 & M4).
  intros y x Hy Hx. destruct (Sv y x Hy Hx) as (V1 & V2 & V3).
  assert (Hs : forall k, (0 <= k < 4)%Z -> sample d k y x = 0%R).
  { intros k Hk. unfold sample. apply Hz.
    - assert (0 <= k / 2 < 2)%Z by (split; [apply Z.div_pos; lia|apply Z.div_lt_upper_bound; lia]).
      pose proof (Z.div_mod (rows data) 2 ltac:(lia)). lia.
    - pose proof (Z.mod_pos_bound k 2 ltac:(lia)).
      pose proof (Z.div_mod (cols data) 2 ltac:(lia)). lia. }
  rewrite V1, V2, V3, !Hs by lia. cbn. repeat split; lra.
Qed.

Lemma divide_scalar_zero junk (a : arr R) : holds (divide_scalar junk a 0%R) a junk.
Proof.
  unfold divide_scalar. repeat split. intros y x _ _. cbn [cell neqb Num_R].
  change (@n0 R Num_R) with 0%R.
  assert (E : Reqb 0 0 = true) by (apply Reqb_true; reflexivity). rewrite E. reflexivity.
Qed.

Lemma divide_scalar_ok junk (a : arr R) s :
  s <> 0%R -> holds (divide_scalar junk a s) a (fun y x => cell a y x / s)%R.
Proof.
  intros Hs. unfold divide_scalar. repeat split. intros y x _ _. cbn [cell neqb Num_R].
  change (@n0 R Num_R) with 0%R. apply Reqb_false in Hs. rewrite Hs. reflexivity.
Qed.
