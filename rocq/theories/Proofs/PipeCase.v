(** A camera of four ideal micropolarizers, calibrated with the polarizer at 0, 45 and 90
    degrees: the hypotheses of C101 are met. *)
From Coq Require Import String Reals Lra Permutation Sorting.Sorted.
From Verif Require Import Base.Base Base.BaseFacts Base.Num Base.Bcast Model.Rebin Model.Stokes Model.Demodulate
  Model.DemodFit Model.DemodLoad Model.DemodCov Model.Calibrate Spec.Terminates Spec.SumSpec Spec.MosaicSpec Spec.StokesSpec Spec.DemodSpec Spec.FitSpec
  Spec.CalibSpec Spec.LoadSpec Spec.CovSpec Spec.PipeSpec Proofs.RebinFacts Proofs.MosaicProps Proofs.LoadFacts Proofs.CovFacts Proofs.InvertFacts Proofs.CalibFacts
  Proofs.UtilFacts Proofs.PipeFacts.
Local Open Scope R_scope.
Ltac Zify.zify_post_hook ::= idtac.

(** The exact solution for orientations 0, 45 and 90 degrees *)
Definition solve (samples : list R) (box : param3 * param3) : option (param3 * mat33) :=
  match samples with
  | [a; b; c] =>
      let t := a + c in
      let ec := (a - c) / t in
      let es := (2 * b - t) / t in
      let m := (p_phi (fst box) + p_phi (snd box)) / 2 in
      let c' := ec * cos (2 * m) + es * sin (2 * m) in
      let s' := es * cos (2 * m) - ec * sin (2 * m) in
      Some ((t, sqrt (ec * ec + es * es), m + atan (s' / c') / 2), fun _ _ => 0)
  | _ => None
  end.

Definition quarter_turns : list R := [0; PI / 4; PI / 2].

Lemma solve_exact box : 0 < p_t (fst box) -> 0 < p_e (fst box) -> p_phi (snd box) - p_phi (fst box) < PI / 2 ->
  finds_exact (fun _ samples _ _ box => solve samples box) quarter_turns box.
Proof.
  intros Ht He Hw samples guess sigma p ((Bt & Be & Bf) & Es) _. exists (fun _ _ => 0). pose proof PI_RGT_0 as P.
  subst samples. cbn [map quarter_turns]. unfold solve. f_equal. f_equal.
  destruct p as ((t, e), f). unfold p_t, p_e, p_phi in *. cbn [fst snd] in *.
  assert (A : passed (t, e, f) 0 = t / 2 * (1 + e * cos (2 * f))).
  { unfold passed, p_t, p_e, p_phi. cbn [fst snd]. replace (2 * (0 - f)) with (- (2 * f)) by ring. rewrite cos_neg. reflexivity. }
  assert (B : passed (t, e, f) (PI / 4) = t / 2 * (1 + e * sin (2 * f))).
  { unfold passed, p_t, p_e, p_phi. cbn [fst snd]. replace (2 * (PI / 4 - f)) with (PI / 2 - 2 * f) by field. rewrite cos_shift. reflexivity. }
  assert (C : passed (t, e, f) (PI / 2) = t / 2 * (1 - e * cos (2 * f))).
  { unfold passed, p_t, p_e, p_phi. cbn [fst snd]. replace (2 * (PI / 2 - f)) with (PI - 2 * f) by field.
    rewrite cos_minus, cos_PI, sin_PI. ring. }
  rewrite A, B, C. set (m := (snd (fst box) + snd (snd box)) / 2).
  assert (Tt : t / 2 * (1 + e * cos (2 * f)) + t / 2 * (1 - e * cos (2 * f)) = t) by field.
  rewrite Tt.
  assert (Ec : (t / 2 * (1 + e * cos (2 * f)) - t / 2 * (1 - e * cos (2 * f))) / t = e * cos (2 * f)) by (field; lra).
  assert (Esn : (2 * (t / 2 * (1 + e * sin (2 * f))) - t) / t = e * sin (2 * f)) by (field; lra).
  rewrite Ec, Esn.
  assert (Sq : sqrt (e * cos (2 * f) * (e * cos (2 * f)) + e * sin (2 * f) * (e * sin (2 * f))) = e).
  { replace (e * cos (2 * f) * (e * cos (2 * f)) + e * sin (2 * f) * (e * sin (2 * f))) with (Rsqr e * ((Rsqr (sin (2 * f))) + Rsqr (cos (2 * f)))) by (unfold Rsqr; ring).
    rewrite sin2_cos2, Rmult_1_r. apply sqrt_Rsqr. lra. }
  rewrite Sq.
  assert (Ct : e * cos (2 * f) * cos (2 * m) + e * sin (2 * f) * sin (2 * m) = e * cos (2 * (f - m))).
  { replace (2 * (f - m)) with (2 * f - 2 * m) by ring. rewrite cos_minus. ring. }
  assert (St : e * sin (2 * f) * cos (2 * m) - e * cos (2 * f) * sin (2 * m) = e * sin (2 * (f - m))).
  { replace (2 * (f - m)) with (2 * f - 2 * m) by ring. rewrite sin_minus. ring. }
  rewrite Ct, St.
  assert (Rg : - (PI / 2) < 2 * (f - m) < PI / 2) by (unfold m; lra).
  assert (Q : e * sin (2 * (f - m)) / (e * cos (2 * (f - m))) = tan (2 * (f - m))).
  { unfold tan. field. split; [|lra]. apply Rgt_not_eq, cos_gt_0; lra. }
  rewrite Q, atan_tan by exact Rg. replace (m + 2 * (f - m) / 2) with f by field. reflexivity.
Qed.

(** Image of the calibration lamp with the polarizer at [theta] *)
Definition lamp (theta : R) : arr R := mkarr 2 2 (fun y x => passed (f4 ideal_params (2 * y + x)) theta).
Definition lamp_world : world :=
  mkworld (fun name => if String.eqb name "a" then Ok (lamp 0) else if String.eqb name "b" then Ok (lamp (PI / 4)) else Ok (lamp (PI / 2)))
    (fun _ => Ok 1) (fun _ samples _ _ box => solve samples box) (fun _ => ideal_inverse) (fun v => v) (fun v => v) [0%Z].
Definition lamp_args : arguments :=
  mkarguments (mkfour 0 45 (-45) 90) 1 1 None 1 1 None None (NormNumber 1) (Some (1, 1 / 2, 1)) (Some (1, 1 / 2, 1)).

Lemma bin_lamp theta : exists r, binned_to 1 1 1 (lamp theta) r /\
  forall y x, (0 <= y < 2)%Z -> (0 <= x < 2)%Z -> cell r y x = passed (f4 ideal_params (2 * y + x)) theta.
Proof.
  assert (Hm : mosaic (lamp theta)) by (repeat split; cbn; lia || reflexivity).
  destruct (c04_rebin (lamp theta) 1 Hm ltac:(lia)) as (r & (Hr & Hc & Hv) & He).
  replace (2 * (rows (lamp theta) / (2 * 1)))%Z with 2%Z in Hr by reflexivity.
  replace (2 * (cols (lamp theta) / (2 * 1)))%Z with 2%Z in Hc by reflexivity.
  exists r. split.
  - split; [exact Hm|]. split; [exact He|]. split; [rewrite Hr|rewrite Hc]; reflexivity.
  - intros y x Hy Hx. rewrite Hv by (rewrite ?Hr, ?Hc; assumption).
    unfold SumSpec.lsum, SumSpec.family_block. change (zrange 1) with [0%Z].
    assert (Ey : y = 0%Z \/ y = 1%Z) by lia. assert (Ex : x = 0%Z \/ x = 1%Z) by lia.
    destruct Ey as [-> | ->]; destruct Ex as [-> | ->]; cbn; lra.
Qed.

Lemma lamp_positive k theta : (0 <= k < 4)%Z -> 0 <= passed (f4 ideal_params k) theta.
Proof.
  intros Hk. unfold passed. set (u := cos _). assert (-1 <= u <= 1) by (unfold u; apply COS_bound).
  assert (Ek : k = 0%Z \/ k = 1%Z \/ k = 2%Z \/ k = 3%Z) by lia.
  destruct Ek as [-> | [-> | [-> | ->]]]; cbn; lra.
Qed.

Lemma radians_quarters : map (fun p : R * string => radians (fst p)) [(0, "a"%string); (45, "b"%string); (90, "c"%string)] = quarter_turns.
Proof.
  unfold quarter_turns, radians. cbn [map fst]. replace (0 / 180 * PI) with 0 by field.
  replace (45 / 180 * PI) with (PI / 4) by field. replace (90 / 180 * PI) with (PI / 2) by field. reflexivity.
Qed.

Lemma quarters_different : three_different quarter_turns.
Proof.
  pose proof PI_RGT_0 as P.
  assert (D : forall a b, 0 < b - a < PI -> different a b).
  { intros a b Hab n E. assert (-1 < IZR n < 0) by (split; apply (Rmult_lt_reg_r PI); lra).
    assert (-1 < n < 0)%Z by (split; apply lt_IZR; lra). lia. }
  exists 0, (PI / 4), (PI / 2). unfold quarter_turns. cbn [In]. repeat split; try tauto; apply D; lra.
Qed.

Definition recording (I Q U : R) : arr R :=
  mkarr 2 2 (fun y x => let p := f4 ideal_params (2 * y + x) in recorded (p_t p) (p_e p) (p_phi p) I Q U).

Lemma lamp_case : exists o d,
  evaluates (fun fuel => calibrate lamp_world lamp_args fuel [45; 0; 90] ["b"; "a"; "c"]%string) o /\
  load (written_files (results o)) = Ok d /\
  forall I Q U, exists s, demod_raw d (recording I Q U) (mkstokes (full 1 1 0) (full 1 1 0) (full 1 1 0)) = Ok s /\
    cell (sI s) 0 0 = I /\ cell (sQ s) 0 0 = Q /\ cell (sU s) 0 0 = U.
Proof.
  pose proof PI_RGT_0 as P.
  set (ps := [(0, "a"%string); (45, "b"%string); (90, "c"%string)]).
  destruct (bin_lamp 0) as (ra & Ba & Va). destruct (bin_lamp (PI / 4)) as (rb & Bb & Vb). destruct (bin_lamp (PI / 2)) as (rc & Bc & Vc).
  assert (Ang : angles_rad (settings_of lamp_world lamp_args ps) = quarter_turns) by exact radians_quarters.
  assert (Box : forall k, (0 <= k < 4)%Z -> search_box (settings_of lamp_world lamp_args ps) k =
    ((1 / 2, 1 / 2, p_phi (f4 ideal_params k) - 15 * (PI / 180)), (1, 1, p_phi (f4 ideal_params k) + 15 * (PI / 180)))).
  { intros k Hk. assert (Ek : k = 0%Z \/ k = 1%Z \/ k = 2%Z \/ k = 3%Z) by lia.
    destruct Ek as [-> | [-> | [-> | ->]]]; unfold search_box, settings_of, lamp_args, expected, radians, ideal_params, p_t, p_e, p_phi; cbn -[Rmult Rdiv PI];
      (f_equal; f_equal; lra). }
  destruct (end_to_end lamp_world lamp_args [45; 0; 90] ["b"; "a"; "c"]%string ps [ra; rb; rc] None
    [fun _ _ => 1 * IZR (1 * 1); fun _ _ => 1 * IZR (1 * 1); fun _ _ => 1 * IZR (1 * 1)] 1 1 1 1 (fun _ _ => ideal_params)) as (o & Ev & Hall).
  - apply perm_swap.
  - unfold by_orientation, ps. apply Sorted_cons; [apply Sorted_cons; [apply Sorted_cons; [apply Sorted_nil|apply HdRel_nil]|]|]; apply HdRel_cons; left; cbn; lra.
  - discriminate.
  - cbn; lia.
  - lia.
  - lia.
  - repeat constructor; eexists; (split; [reflexivity|assumption]).
  - exact I.
  - reflexivity.
  - reflexivity.
  - split; [reflexivity|]. split; [|intros f [<-|[<-|[<-|[]]]]; reflexivity].
    intros s y x Hin _ _. destruct Hin as [<-|[<-|[<-|[]]]]; change (IZR (1 * 1)) with 1; lra.
  - cbn. lra.
  - intros r y x Hin Hy Hx. cbn [level]. change (2 * 1)%Z with 2%Z in *.
    destruct Hin as [<-|[<-|[<-|[]]]]; [rewrite Va by lia|rewrite Vb by lia|rewrite Vc by lia]; apply lamp_positive; lia.
  - cbn; lia.
  - cbn; lia.
  - reflexivity.
  - reflexivity.
  - cbn. apply Permutation_refl.
  - rewrite Ang. exact quarters_different.
  - split; cbn; lra.
  - intros k Hk. rewrite Ang, (Box k Hk). apply solve_exact; unfold p_t, p_e, p_phi; cbn [fst snd]; lra.
  - intros Y X k HY HX Hk. assert (Y = 0%Z) by lia. assert (X = 0%Z) by lia. subst Y X. split.
    + rewrite (Box k Hk). assert (Ep : p_t (f4 ideal_params k) = 1 /\ p_e (f4 ideal_params k) = 1).
      { assert (Ek : k = 0%Z \/ k = 1%Z \/ k = 2%Z \/ k = 3%Z) by lia. destruct Ek as [-> | [-> | [-> | ->]]]; split; reflexivity. }
      destruct Ep as (E1 & E2). unfold in_box. rewrite E1, E2. unfold p_t, p_e. cbn [fst snd].
      change (p_phi (1 / 2, 1 / 2, p_phi (f4 ideal_params k) - 15 * (PI / 180))) with (p_phi (f4 ideal_params k) - 15 * (PI / 180)).
      change (p_phi (1, 1, p_phi (f4 ideal_params k) + 15 * (PI / 180))) with (p_phi (f4 ideal_params k) + 15 * (PI / 180)). lra.
    + rewrite Ang. unfold relative. cbn [combine map fst snd level quarter_turns].
      pose proof (Z.mod_pos_bound k 2 ltac:(lia)). pose proof (Z.div_mod k 2 ltac:(lia)).
      assert (Ek : (2 * (2 * 0 + k / 2) + (2 * 0 + k mod 2) = k)%Z) by lia.
      rewrite Va, Vb, Vc by lia. rewrite Ek. change (IZR (1 * 1)) with 1. replace (1 * 1) with 1 by ring. assert (D1 : forall v, v / 1 = v) by (intro v; field). rewrite !D1. reflexivity.
  - destruct (Hall (written_files (results o)) (Permutation_refl _)) as (d & t & e & f & El & _ & _ & _ & _ & Hdem).
    exists o, d. split; [exact Ev|]. split; [exact El|]. intros I Q U.
    destruct (Hdem (recording I Q U) (mkstokes (full 1 1 0) (full 1 1 0) (full 1 1 0)) (fun _ _ => I) (fun _ _ => Q) (fun _ _ => U)) as (s & Es & Hs);
      try (split; reflexivity); try reflexivity.
    { repeat split; cbn; lia || reflexivity. }
    exists s. split; [exact Es|]. apply (Hs 0%Z 0%Z); [lia|lia|exact ideal_within|exact ideal_pseudo|exact ideal_rank3|].
    intros k Hk. assert (Ek : k = 0%Z \/ k = 1%Z \/ k = 2%Z \/ k = 3%Z) by lia.
    destruct Ek as [-> | [-> | [-> | ->]]]; reflexivity.
Qed.
