(** Calibration: each superpixel on its own (C30), and the grid of processes (C29). *)
From Coq Require Import Reals Lra Permutation.
From Verif Require Import Base.Base Base.BaseFacts Base.Num Model.Pol Model.DemodFit Spec.FitSpec
  Proofs.FitFacts.
Ltac Zify.zify_post_hook ::= idtac.

Lemma f4_cases k : 0 <= k < 4 -> k = 0 \/ k = 1 \/ k = 2 \/ k = 3.
Proof. lia. Qed.

Lemma big_numbers_spec m : big_numbers m = false <-> within_100 m.
Proof.
  destruct m as [[[a0 a1 a2 a3] [b0 b1 b2 b3]] [c0 c1 c2 c3]].
  unfold big_numbers, any34, any4; cbn [f_0 f_1 f_2 f_3].
  rewrite !orb_false_iff. split.
  - intros H. assert (L : forall u v, Rltb u v = false -> (v <= u)%R).
    { intros u v. unfold Rltb. destruct (Rlt_dec u v); [discriminate|lra]. }
    intros i k Hi Hk.
    decompose [and] H; clear H.
    assert (i = 0 \/ i = 1 \/ i = 2) as Di by lia.
    destruct Di as [-> | [-> | ->]]; destruct (f4_cases k Hk) as [-> | [-> | [-> | ->]]]; cbn [entry34 f4 Z.eqb Pos.eqb f_0 f_1 f_2 f_3];
      split; apply L; assumption.
  - intros H. assert (L : forall u v, (v <= u)%R -> Rltb u v = false).
    { intros u v Hv. unfold Rltb. destruct (Rlt_dec u v); [lra|reflexivity]. }
    pose proof (H 0 0 ltac:(lia) ltac:(lia)) as h1. pose proof (H 0 1 ltac:(lia) ltac:(lia)) as h2.
    pose proof (H 0 2 ltac:(lia) ltac:(lia)) as h3. pose proof (H 0 3 ltac:(lia) ltac:(lia)) as h4.
    pose proof (H 1 0 ltac:(lia) ltac:(lia)) as h5. pose proof (H 1 1 ltac:(lia) ltac:(lia)) as h6.
    pose proof (H 1 2 ltac:(lia) ltac:(lia)) as h7. pose proof (H 1 3 ltac:(lia) ltac:(lia)) as h8.
    pose proof (H 2 0 ltac:(lia) ltac:(lia)) as h9. pose proof (H 2 1 ltac:(lia) ltac:(lia)) as h10.
    pose proof (H 2 2 ltac:(lia) ltac:(lia)) as h11. pose proof (H 2 3 ltac:(lia) ltac:(lia)) as h12.
    cbn in h1, h2, h3, h4, h5, h6, h7, h8, h9, h10, h11, h12. clear H.
    repeat split; apply L; lra.
Qed.

Lemma any22_spec c Y X h w :
  series_shape c h w -> 0 <= Y < h -> 0 <= X < w ->
  any22 (c_occ c) (2 * Y) (2 * X) = true <-> occulted c Y X.
Proof.
  intros (H1 & H2 & H3 & H4 & _) HY HX. unfold any22, occulted, pixel_of. rewrite H3, H4.
  cbn [filter]. replace (2 * Y <? 2 * h) with true by lia. replace (2 * Y + 1 <? 2 * h) with true by lia.
  replace (2 * X <? 2 * w) with true by lia. replace (2 * X + 1 <? 2 * w) with true by lia.
  cbn [existsb]. rewrite !orb_true_iff, !negb_true_iff.
  assert (E : forall v, Reqb v 0 = false <-> v <> 0%R).
  { intros v. unfold Reqb. destruct (Req_EM_T v 0); split; congruence. }
  rewrite !E. split.
  - intros [[D|[D|D]]|[[D|[D|D]]|D]]; try discriminate.
    + exists 0. cbn. rewrite !Z.add_0_r. split; [lia|exact D].
    + exists 1. cbn. rewrite !Z.add_0_r. split; [lia|exact D].
    + exists 2. cbn. rewrite !Z.add_0_r. split; [lia|exact D].
    + exists 3. cbn. split; [lia|exact D].
  - intros (k & Hk & D). destruct (f4_cases k Hk) as [-> | [-> | [-> | ->]]]; cbn in D;
      rewrite ?Z.add_0_r in D; tauto.
Qed.

Lemma series_eq c Y X k : samples_at c (2 * Y) (2 * X) k = series c Y X k.
Proof. reflexivity. Qed.

Lemma errors_eq c Y X k : sigma_at c (2 * Y) (2 * X) k = errors c Y X k.
Proof.
  unfold sigma_at, errors. apply map_ext. intros d. unfold Reqb.
  destruct (Req_EM_T (d (2 * Y + k / 2) (2 * X + k mod 2)) 0); reflexivity.
Qed.

Lemma dark_spec l : forallb (fun v => Reqb v 0) l = true <-> dark l.
Proof.
  unfold dark. rewrite forallb_forall, Forall_forall. unfold Reqb. split.
  - intros H v Hv. specialize (H v Hv). destruct (Req_EM_T v 0); [assumption|discriminate].
  - intros H v Hv. specialize (H v Hv). destruct (Req_EM_T v 0); [reflexivity|contradiction].
Qed.

Section Calibrated.
  Variable S : settings.

  Lemma sp_f4_samples c Y X k : 0 <= k < 4 -> f4 (i_samples (sp_at c Y X)) k = series c Y X k.
  Proof. intros Hk. destruct (f4_cases k Hk) as [-> | [-> | [-> | ->]]]; reflexivity. Qed.

  Lemma sp_f4_sigma c Y X k : 0 <= k < 4 -> f4 (i_sigma (sp_at c Y X)) k = errors c Y X k.
  Proof.
    intros Hk. rewrite <- errors_eq. destruct (f4_cases k Hk) as [-> | [-> | [-> | ->]]]; reflexivity.
  Qed.

  Lemma fit1_spec c Y X k p v : 0 <= k < 4 ->
    fit1 S (sp_at c Y X) k = Some (p, v) <-> fit_gives S c Y X k p v.
  Proof.
    intros Hk. unfold fit1, fit_gives. rewrite sp_f4_samples, sp_f4_sigma by assumption.
    rewrite <- dark_spec. change (first_guess S k) with (prediction S k).
    change (search_box S k) with (bounds S k).
    destruct (forallb _ (series c Y X k)).
    - split; [discriminate|]. intros [H _]. exfalso. apply H. reflexivity.
    - split; [intros E; split; [discriminate|exact E]|intros [_ E]; exact E].
  Qed.

  Lemma fit1_none c Y X k : 0 <= k < 4 ->
    fit1 S (sp_at c Y X) k = None -> forall p v, ~ fit_gives S c Y X k p v.
  Proof. intros Hk E p v H. apply fit1_spec in H; [congruence|assumption]. Qed.

  Lemma malus_diff x p v :
    (Malus x (p_t p) (p_e p) (p_phi p) - v =
     1/2 * p_t p * (p_e p * cos (2 * x - 2 * p_phi p) + 1) - v)%R.
  Proof. unfold Malus. rewrite cos_minus. ring. Qed.

  Lemma chisquare_spec p samples sigma : chisquare S p samples sigma = reduced_chisq S p samples sigma.
  Proof.
    unfold chisquare, reduced_chisq. f_equal.
    - generalize (angles_rad S). intros xs. revert samples sigma.
      induction xs as [|x xs IH]; intros [|v vs] [|s ss]; try reflexivity.
      cbn [combine map fold_right]. rewrite IH, malus_diff. reflexivity.
    - f_equal. unfold dof, free. rewrite !minus_IZR.
      destruct (tk_boundary S), (eff_boundary S); reflexivity.
  Qed.

  Lemma theoretical_spec : theo_demodulation S = theoretical S.
  Proof. reflexivity. Qed.

  Lemma has_calibrated c o Y X h w :
    series_shape c h w -> 0 <= Y < h -> 0 <= X < w ->
    has o Y X (sp_result S (sp_at c Y X)) -> calibrated S c o Y X.
  Proof.
    intros Hs HY HX. unfold sp_result.
    pose proof (any22_spec c Y X h w Hs HY HX) as Hocc. cbn [sp_at i_occ].
    change (mksp (any22 (c_occ c) (2 * Y) (2 * X)) _ _) with (sp_at c Y X).
    assert (Hun : no_fit S c Y X -> has o Y X (unfitted S) -> calibrated S c o Y X).
    { intros Hn (E1 & E2 & E3). left. split; [exact Hn|].
      cbn [unfitted x_m x_found x_tk x_eff x_phase x_cov x_chisq] in *.
      split; [exact E1|]. split; [exact E2|]. intros k Hk.
      destruct (E3 k Hk) as (a1 & a2 & a3 & a4 & a5). rewrite f4_all in a1, a2, a5.
      pose proof (eq_trans a4 (f4_all (A := mat33) (fun _ _ => 0%R) k)) as a4'.
      unfold at4 in *. unfold pixel_of. auto. }
    destruct (any22 (c_occ c) (2 * Y) (2 * X)).
    { apply Hun. left. apply Hocc. reflexivity. }
    assert (Hno : ~ occulted c Y X) by (intros H; apply Hocc in H; discriminate).
    destruct (fit1 S (sp_at c Y X) 0) as [[p0 c0]|] eqn:E0;
      [|apply Hun; right; exists 0; split; [lia|apply fit1_none; [lia|assumption]]].
    destruct (fit1 S (sp_at c Y X) 1) as [[p1 c1]|] eqn:E1;
      [|apply Hun; right; exists 1; split; [lia|apply fit1_none; [lia|assumption]]].
    destruct (fit1 S (sp_at c Y X) 2) as [[p2 c2]|] eqn:E2;
      [|apply Hun; right; exists 2; split; [lia|apply fit1_none; [lia|assumption]]].
    destruct (fit1 S (sp_at c Y X) 3) as [[p3 c3]|] eqn:E3;
      [|apply Hun; right; exists 3; split; [lia|apply fit1_none; [lia|assumption]]].
    clear Hun. intros (H1 & H2 & H3). right. split; [exact Hno|].
    exists p0, p1, p2, p3, (mkfour c0 c1 c2 c3). cbn zeta.
    cbn [fitted x_m x_found x_tk x_eff x_phase x_cov x_chisq] in H1, H2, H3.
    split; [|split].
    - intros k Hk. apply fit1_spec; [assumption|].
      destruct (f4_cases k Hk) as [-> | [-> | [-> | ->]]]; assumption.
    - change (matrix_of S p0 p1 p2 p3) with (pinv S (modulation (mkfour p0 p1 p2 p3))).
      destruct (big_numbers (pinv S (modulation (mkfour p0 p1 p2 p3)))) eqn:Eb.
      + right. split; [|split; assumption]. intros Hw. apply big_numbers_spec in Hw. congruence.
      + left. split; [|split; assumption]. apply big_numbers_spec. exact Eb.
    - intros k Hk. destruct (H3 k Hk) as (a1 & a2 & a3 & a4 & a5).
      rewrite !f4_map in a1, a2, a3. unfold pixel_of. unfold at4 in *.
      repeat (split; [assumption|]). rewrite a5, <- chisquare_spec.
      rewrite <- sp_f4_samples, <- sp_f4_sigma by assumption.
      destruct (f4_cases k Hk) as [-> | [-> | [-> | ->]]]; reflexivity.
  Qed.

  Lemma c30_calibrated c h w :
    series_shape c h w ->
    exists o, compute_chunk S c = Ok o /\ maps_shape o h w /\
      forall Y X, 0 <= Y < h -> 0 <= X < w -> calibrated S c o Y X.
  Proof.
    intros Hs. pose proof Hs as (H1 & H2 & H3 & H4 & H5 & H6).
    destruct (compute_chunk_spec S c h w H1 H2 H5 H6) as (o & E & Ho & Hv).
    exists o. split; [exact E|]. split; [exact Ho|]. intros Y X HY HX.
    apply (has_calibrated c o Y X h w); auto.
  Qed.

  Lemma has_same o Y X o' Y' X' r : has o Y X r -> has o' Y' X' r -> same_superpixel o Y X o' Y' X'.
  Proof.
    intros (a1 & a2 & a3) (b1 & b2 & b3). split; [congruence|]. split; [congruence|]. intros k Hk.
    destruct (a3 k Hk) as (h1 & h2 & h3 & h4 & h5). destruct (b3 k Hk) as (k1 & k2 & k3 & k4 & k5).
    unfold at4 in *. unfold pixel_of. repeat split; congruence.
  Qed.

  Lemma same_input_sp c h w Y X c' h' w' Y' X' :
    series_shape c h w -> 0 <= Y < h -> 0 <= X < w ->
    series_shape c' h' w' -> 0 <= Y' < h' -> 0 <= X' < w' ->
    same_input c Y X c' Y' X' -> sp_at c Y X = sp_at c' Y' X'.
  Proof.
    intros Hs HY HX Hs' HY' HX' H. unfold sp_at. rewrite !series_eq, !errors_eq.
    destruct (H 0 ltac:(lia)) as (a0 & b0 & _). destruct (H 1 ltac:(lia)) as (a1 & b1 & _).
    destruct (H 2 ltac:(lia)) as (a2 & b2 & _). destruct (H 3 ltac:(lia)) as (a3 & b3 & _).
    rewrite a0, a1, a2, a3, b0, b1, b2, b3. f_equal. apply eq_true_iff_eq.
    rewrite (any22_spec c Y X h w) by assumption. rewrite (any22_spec c' Y' X' h' w') by assumption.
    unfold occulted. split; intros (k & Hk & D); exists k; (split; [exact Hk|]);
      destruct (H k Hk) as (_ & _ & e); congruence.
  Qed.

  Lemma c30_local c h w o c' h' w' o' Y X Y' X' :
    series_shape c h w -> series_shape c' h' w' ->
    compute_chunk S c = Ok o -> compute_chunk S c' = Ok o' ->
    0 <= Y < h -> 0 <= X < w -> 0 <= Y' < h' -> 0 <= X' < w' ->
    same_input c Y X c' Y' X' -> same_superpixel o Y X o' Y' X'.
  Proof.
    intros Hs Hs' E E' HY HX HY' HX' Hi.
    pose proof Hs as (H1 & H2 & H3 & H4 & H5 & H6). pose proof Hs' as (K1 & K2 & K3 & K4 & K5 & K6).
    destruct (compute_chunk_spec S c h w H1 H2 H5 H6) as (o1 & E1 & _ & Hv).
    destruct (compute_chunk_spec S c' h' w' K1 K2 K5 K6) as (o2 & E2 & _ & Hv').
    assert (o1 = o) by congruence. assert (o2 = o') by congruence. subst o1 o2.
    apply (has_same _ _ _ _ _ _ (sp_result S (sp_at c Y X))); [apply Hv; assumption|].
    rewrite (same_input_sp c h w Y X c' h' w' Y' X') by assumption. apply Hv'; assumption.
  Qed.

  (** ** The grid *)
  Lemma run_pool_in task order n :
    In n order -> run_pool task order n = Some (task n).
  Proof.
    unfold run_pool.
    assert (G : forall l done, (In n l \/ done n = Some (task n)) ->
      fold_left (fun done n => updf done n (Some (task n))) l done n = Some (task n)).
    { induction l as [|m l IH]; intros done Hd; cbn [fold_left].
      - destruct Hd as [[]|Hd]; exact Hd.
      - apply IH. destruct Hd as [[->|Hin]|Hd]; [right|left; exact Hin|right].
        + unfold updf. rewrite Z.eqb_refl. reflexivity.
        + unfold updf. destruct (n =? m) eqn:Enm; [apply Z.eqb_eq in Enm; subst; reflexivity|exact Hd]. }
    intros Hin. apply G. left. exact Hin.
  Qed.

  Lemma block_same i i0 c y : 0 <= y < c -> i0 * c <= i * c + y < i0 * c + c -> i = i0.
  Proof. intros Hy H. assert (i < i0 + 1) by nia. assert (i0 < i + 1) by nia. lia. Qed.

  Lemma merge_field_spec {A} done (field : maps -> arr A) ny nx cy cx (r : Z -> Z -> maps) a :
    0 <= ny -> 0 <= nx -> 0 <= cy -> 0 <= cx ->
    (forall i j, 0 <= i < ny -> 0 <= j < nx -> done (i + ny * j) = Some (Ok (r i j))) ->
    exists b, merge_field done field ny nx cy cx a = Ok b /\ rows b = rows a /\ cols b = cols a /\
      (forall i j y x, 0 <= i < ny -> 0 <= j < nx -> 0 <= y < cy -> 0 <= x < cx ->
         cell b (i * cy + y) (j * cx + x) = cell (field (r i j)) y x) /\
      (forall y x, ~ (0 <= y < ny * cy /\ 0 <= x < nx * cx) -> cell b y x = cell a y x).
  Proof.
    intros Hny Hnx Hcy Hcx Hd. unfold merge_field.
    set (Inv := fun (i0 j0 : Z) (b : arr A) =>
      rows b = rows a /\ cols b = cols a /\
      (forall i j y x, 0 <= i < ny -> 0 <= j < nx -> 0 <= y < cy -> 0 <= x < cx ->
         i < i0 \/ (i = i0 /\ j < j0) ->
         cell b (i * cy + y) (j * cx + x) = cell (field (r i j)) y x) /\
      (forall y x, ~ (0 <= y < ny * cy /\ 0 <= x < nx * cx) -> cell b y x = cell a y x)).
    destruct (for_range_inv (fun k b => Inv k 0 b) 0 ny 1
      (fun i => for_range 0 nx 1 (fun j a =>
        let* r := collect done (i + ny * j) in
        Ok (paste a (i * cy) (j * cx) cy cx (field r)))) a) as (b & E & HI).
    - lia.
    - split; [reflexivity|]. split; [reflexivity|]. split; [intros; lia|reflexivity].
    - intros i0 b Hi0 Hlt HI. replace (0 + i0 * 1) with i0 in * by lia.
      destruct (for_range_inv (fun k b => Inv i0 k b) 0 nx 1
        (fun j a =>
          let* r := collect done (i0 + ny * j) in
          Ok (paste a (i0 * cy) (j * cx) cy cx (field r))) b) as (b' & E & HI'); [lia|exact HI| |].
      + intros j0 b1 Hj0 Hltj (I1 & I2 & I3 & I4). replace (0 + j0 * 1) with j0 in * by lia.
        unfold collect. rewrite Hd by lia. cbn [bind]. eexists. split; [reflexivity|].
        split; [exact I1|]. split; [exact I2|]. unfold paste; cbn [cell rows cols]. split.
        * intros i j y x Hi Hj Hy Hx Hij.
          destruct ((i0 * cy <=? i * cy + y) && (i * cy + y <? i0 * cy + cy) &&
                    (j0 * cx <=? j * cx + x) && (j * cx + x <? j0 * cx + cx)) eqn:Eb.
          -- assert (i = i0) by (apply (block_same i i0 cy y); lia).
             assert (j = j0) by (apply (block_same j j0 cx x); lia). subst i j.
             f_equal; lia.
          -- apply I3; try assumption.
             destruct Hij as [Hlt'|[-> Hj']]; [left; exact Hlt'|right].
             split; [reflexivity|]. destruct (Z.eq_dec j j0) as [->|]; [|lia].
             exfalso. revert Eb. replace (_ && _) with true by lia. discriminate.
        * intros y x Hn. rewrite <- (I4 y x Hn).
          destruct ((i0 * cy <=? y) && (y <? i0 * cy + cy) && (j0 * cx <=? x) && (x <? j0 * cx + cx)) eqn:Eb;
            [|reflexivity].
          exfalso. apply Hn. assert (i0 * cy + cy <= ny * cy) by nia. assert (j0 * cx + cx <= nx * cx) by nia.
          assert (0 <= i0 * cy) by nia. assert (0 <= j0 * cx) by nia. lia.
      + exists b'. split; [exact E|].
        assert (En : range_len 0 nx 1 = nx) by (rewrite range_len_1; lia). rewrite En in HI'.
        destruct HI' as (I1 & I2 & I3 & I4). split; [exact I1|]. split; [exact I2|]. split; [|exact I4].
        intros i j y x Hi Hj Hy Hx Hij. apply I3; try assumption. lia.
    - assert (En : range_len 0 ny 1 = ny) by (rewrite range_len_1; lia). rewrite En in HI.
      destruct HI as (I1 & I2 & I3 & I4). exists b. split; [exact E|]. split; [exact I1|].
      split; [exact I2|]. split; [|exact I4]. intros i j y x Hi Hj Hy Hx. apply I3; try assumption. lia.
  Qed.

  Lemma chunk_at_sp whole h w hy hx i j Y X :
    series_shape whole h w -> 0 <= Y < hy -> 0 <= X < hx -> 0 <= i -> 0 <= j ->
    i * hy + Y < h -> j * hx + X < w ->
    sp_at (chunk_at whole (2 * hy) (2 * hx) i j) Y X = sp_at whole (i * hy + Y) (j * hx + X).
  Proof.
    intros Hs HY HX Hi Hj Hb1 Hb2.
    assert (0 <= i * hy) by nia. assert (0 <= j * hx) by nia.
    apply (same_input_sp _ hy hx _ _ _ h w); try assumption; try lia.
    - repeat split; try reflexivity; lia.
    - intros k Hk. unfold series, errors, pixel_of, chunk_at. cbn [c_data c_err c_occ cell].
      rewrite !map_map. unfold window.
      replace (i * (2 * hy) + (2 * Y + k / 2)) with (2 * (i * hy + Y) + k / 2) by lia.
      replace (j * (2 * hx) + (2 * X + k mod 2)) with (2 * (j * hx + X) + k mod 2) by lia.
      split; [reflexivity|]. split; reflexivity.
  Qed.

  (** Every accepted grid: superpixels of the chunks, and the others. *)
  Lemma compute_grid_spec whole h w ny nx order hy hx :
    series_shape whole h w -> 0 < ny -> 0 < nx ->
    Z.quot (2 * h) ny = 2 * hy -> Z.quot (2 * w) nx = 2 * hx ->
    Permutation order (zrange (ny * nx)) ->
    exists o, compute_grid S whole ny nx order = Ok o /\ maps_shape o h w /\
      forall Y X, 0 <= Y < h -> 0 <= X < w ->
        (Y < ny * hy /\ X < nx * hx -> has o Y X (sp_result S (sp_at whole Y X))) /\
        (~ (Y < ny * hy /\ X < nx * hx) ->
           has o Y X (mkspo zero34 0 (all4 0%R) (all4 0%R) (all4 0%R) (all4 (fun _ _ => 0%R)) (all4 0%R))).
  Proof.
    intros Hs Hny Hnx Ecy Ecx Hp. pose proof Hs as (H1 & H2 & H3 & H4 & H5 & H6).
    assert (B1 : 0 <= 2 * hy /\ ny * (2 * hy) <= 2 * h).
    { rewrite <- Ecy, Z.quot_div_nonneg by lia. split; [apply Z.div_pos; lia|apply Z.mul_div_le; lia]. }
    assert (B2 : 0 <= 2 * hx /\ nx * (2 * hx) <= 2 * w).
    { rewrite <- Ecx, Z.quot_div_nonneg by lia. split; [apply Z.div_pos; lia|apply Z.mul_div_le; lia]. }
    unfold compute_grid. rewrite H1, H2.
    replace ((ny =? 0) || (nx =? 0)) with false by lia. rewrite Ecy, Ecx.
    assert (M : forall n, (2 * n) mod 2 = 0) by (intros n; rewrite Z.mul_comm; apply Z.mod_mul; lia).
    rewrite !M. cbn [Z.eqb negb orb]. rewrite !quot2.
    set (task := fun n => compute_chunk S (chunk_at whole (2 * hy) (2 * hx) (n mod ny) (n / ny))).
    assert (Hc : forall i j, exists r, 0 <= i < ny -> 0 <= j < nx ->
      run_pool task order (i + ny * j) = Some (Ok r) /\ shaped r hy hx /\
      forall Y X, 0 <= Y < hy -> 0 <= X < hx -> has r Y X (sp_result S (sp_at whole (i * hy + Y) (j * hx + X)))).
    { intros i j.
      destruct (compute_chunk_spec S (chunk_at whole (2 * hy) (2 * hx) i j) hy hx) as (r & Er & Hr & Hv);
        try reflexivity; try lia.
      exists r. intros Hi Hj. split.
      - rewrite run_pool_in.
        + unfold task. f_equal. rewrite <- Er. f_equal. f_equal.
          * rewrite (Z.mul_comm ny j), Z.mod_add by lia. apply Z.mod_small. lia.
          * rewrite (Z.mul_comm ny j), Z.div_add by lia. rewrite Z.div_small by lia. reflexivity.
        + apply (Permutation_in _ (Permutation_sym Hp)), in_zrange. nia.
      - split; [exact Hr|]. intros Y X HY HX.
        rewrite <- (chunk_at_sp whole h w hy hx i j Y X); try assumption; try lia; [apply Hv; assumption| |].
        + assert (i * hy + hy <= ny * hy) by nia. lia.
        + assert (j * hx + hx <= nx * hx) by nia. lia. }
    set (r := fun i j => match run_pool task order (i + ny * j) with Some (Ok r) => r | _ =>
                mkmaps (full 0 0 zero34) (full 0 0 0%R) (full 0 0 0%R) (full 0 0 0%R) (full 0 0 0%R)
                  (full 0 0 (fun _ _ => 0%R)) (full 0 0 0%R) end).
    assert (Hd : forall i j, 0 <= i < ny -> 0 <= j < nx -> run_pool task order (i + ny * j) = Some (Ok (r i j))).
    { intros i j Hi Hj. destruct (Hc i j) as (r0 & Hr0). destruct (Hr0 Hi Hj) as (E & _).
      unfold r. rewrite E. reflexivity. }
    assert (Hhas : forall i j Y X, 0 <= i < ny -> 0 <= j < nx -> 0 <= Y < hy -> 0 <= X < hx ->
      has (r i j) Y X (sp_result S (sp_at whole (i * hy + Y) (j * hx + X)))).
    { intros i j Y X Hi Hj HY HX. destruct (Hc i j) as (r0 & Hr0). destruct (Hr0 Hi Hj) as (E & _ & Hv).
      unfold r. rewrite E. apply Hv; assumption. }
    clearbody r. clear Hc. set (done := run_pool task order) in *. clearbody done.
    assert (Q1 : 0 <= ny) by lia. assert (Q2 : 0 <= nx) by lia.
    assert (Q3 : 0 <= 2 * hy) by lia. assert (Q4 : 0 <= 2 * hx) by lia.
    assert (Q5 : 0 <= hy) by lia. assert (Q6 : 0 <= hx) by lia.
    destruct (merge_field_spec done o_tk ny nx (2 * hy) (2 * hx) r (full (2 * h) (2 * w) 0%R) Q1 Q2 Q3 Q4 Hd)
      as (tk & Etk & tk1 & tk2 & tk3 & tk4).
    destruct (merge_field_spec done o_eff ny nx (2 * hy) (2 * hx) r (full (2 * h) (2 * w) 0%R) Q1 Q2 Q3 Q4 Hd)
      as (ef & Eef & ef1 & ef2 & ef3 & ef4).
    destruct (merge_field_spec done o_phase ny nx (2 * hy) (2 * hx) r (full (2 * h) (2 * w) 0%R) Q1 Q2 Q3 Q4 Hd)
      as (ph & Eph & ph1 & ph2 & ph3 & ph4).
    destruct (merge_field_spec done o_chisq ny nx (2 * hy) (2 * hx) r (full (2 * h) (2 * w) 0%R) Q1 Q2 Q3 Q4 Hd)
      as (cq & Ecq & cq1 & cq2 & cq3 & cq4).
    destruct (merge_field_spec done o_cov ny nx (2 * hy) (2 * hx) r (full (2 * h) (2 * w) (fun _ _ => 0%R)) Q1 Q2 Q3 Q4 Hd)
      as (cv & Ecv & cv1 & cv2 & cv3 & cv4).
    destruct (merge_field_spec done o_found ny nx hy hx r (full h w 0%R) Q1 Q2 Q5 Q6 Hd)
      as (fd & Efd & fd1 & fd2 & fd3 & fd4).
    destruct (merge_field_spec done o_m ny nx hy hx r (full h w zero34) Q1 Q2 Q5 Q6 Hd)
      as (m & Em & m1 & m2 & m3 & m4).
    rewrite Etk; cbn [bind]. rewrite Eef; cbn [bind]. rewrite Eph; cbn [bind]. rewrite Ecq; cbn [bind].
    rewrite Efd; cbn [bind]. rewrite Em; cbn [bind]. rewrite Ecv; cbn [bind].
    eexists. split; [reflexivity|]. split.
    { unfold maps_shape. cbn [o_m o_tk o_eff o_phase o_found o_cov o_chisq].
      unfold full in *; cbn [rows cols] in *. repeat split; assumption. }
    intros Y X HY HX. split.
    - intros (LY & LX).
      assert (Hhy : 0 < hy) by nia. assert (Hhx : 0 < hx) by nia.
      set (i := Y / hy). set (Y' := Y mod hy). set (j := X / hx). set (X' := X mod hx).
      assert (DY : Y = i * hy + Y') by (unfold i, Y'; rewrite (Z.div_mod Y hy) at 1 by lia; lia).
      assert (DX : X = j * hx + X') by (unfold j, X'; rewrite (Z.div_mod X hx) at 1 by lia; lia).
      assert (BY' : 0 <= Y' < hy) by (apply Z.mod_pos_bound; lia).
      assert (BX' : 0 <= X' < hx) by (apply Z.mod_pos_bound; lia).
      assert (Bi : 0 <= i < ny).
      { split; [apply Z.div_pos; lia|apply Z.div_lt_upper_bound; lia]. }
      assert (Bj : 0 <= j < nx).
      { split; [apply Z.div_pos; lia|apply Z.div_lt_upper_bound; lia]. }
      clearbody i j Y' X'. subst Y X.
      destruct (Hhas i j Y' X' Bi Bj BY' BX') as (V1 & V2 & V3).
      unfold has. cbn [o_m o_tk o_eff o_phase o_found o_cov o_chisq].
      rewrite m3, fd3 by assumption. split; [exact V1|]. split; [exact V2|]. intros k Hk.
      destruct (V3 k Hk) as (V4 & V5 & V6 & V7 & V8). pose proof (k_cases k Hk) as Hkc.
      unfold at4 in *.
      replace (2 * (i * hy + Y') + k / 2) with (i * (2 * hy) + (2 * Y' + k / 2)) by lia.
      replace (2 * (j * hx + X') + k mod 2) with (j * (2 * hx) + (2 * X' + k mod 2)) by lia.
      rewrite tk3, ef3, ph3, cv3, cq3 by lia. auto.
    - intros Hn. unfold has.
      cbn [o_m o_tk o_eff o_phase o_found o_cov o_chisq x_m x_tk x_eff x_phase x_found x_cov x_chisq].
      rewrite m4, fd4 by lia. split; [reflexivity|]. split; [reflexivity|]. intros k Hk.
      pose proof (k_cases k Hk) as Hkc.
      unfold at4. rewrite (f4_all (A := mat33)), !f4_all. rewrite tk4, ef4, ph4, cv4, cq4 by lia. auto.
  Qed.

  Lemma quot_1 n : Z.quot n 1 = n.
  Proof. apply Z.quot_1_r. Qed.

  Lemma c29_grid whole h w ny nx order hy hx :
    series_shape whole h w -> 0 < ny -> 0 < nx -> ny * hy = h -> nx * hx = w ->
    Permutation order (zrange (ny * nx)) ->
    exists o o1, compute_grid S whole ny nx order = Ok o /\ compute_grid S whole 1 1 [0] = Ok o1 /\
      maps_shape o h w /\ maps_shape o1 h w /\
      forall Y X, 0 <= Y < h -> 0 <= X < w -> same_superpixel o Y X o1 Y X /\ calibrated S whole o Y X.
  Proof.
    intros Hs Hny Hnx Eh Ew Hp.
    destruct (compute_grid_spec whole h w ny nx order hy hx Hs Hny Hnx) as (o & E & Hsh & Hv).
    { replace (2 * h) with ((2 * hy) * ny) by lia. apply Z.quot_mul. lia. }
    { replace (2 * w) with ((2 * hx) * nx) by lia. apply Z.quot_mul. lia. }
    { exact Hp. }
    destruct (compute_grid_spec whole h w 1 1 [0] h w Hs ltac:(lia) ltac:(lia)) as (o1 & E1 & Hsh1 & Hv1).
    { apply quot_1. } { apply quot_1. } { apply Permutation_refl. }
    exists o, o1. split; [exact E|]. split; [exact E1|]. split; [exact Hsh|]. split; [exact Hsh1|].
    intros Y X HY HX.
    destruct (Hv Y X HY HX) as [Hin _]. destruct (Hv1 Y X HY HX) as [Hin1 _].
    assert (G : has o Y X (sp_result S (sp_at whole Y X))) by (apply Hin; rewrite Eh, Ew; lia).
    assert (G1 : has o1 Y X (sp_result S (sp_at whole Y X))) by (apply Hin1; lia).
    split; [exact (has_same _ _ _ _ _ _ _ G G1)|].
    apply (has_calibrated whole o Y X h w); assumption.
  Qed.

  (** Grids that do not divide the image exactly. *)
  Lemma c29_leftover whole h w ny nx order hy hx :
    series_shape whole h w -> 0 < ny -> 0 < nx ->
    Z.quot (2 * h) ny = 2 * hy -> Z.quot (2 * w) nx = 2 * hx ->
    Permutation order (zrange (ny * nx)) ->
    exists o, compute_grid S whole ny nx order = Ok o /\ maps_shape o h w /\
      (forall Y X, 0 <= Y < ny * hy -> 0 <= X < nx * hx -> calibrated S whole o Y X) /\
      (forall Y X, 0 <= Y < h -> 0 <= X < w -> ny * hy <= Y \/ nx * hx <= X ->
         cell (o_m o) Y X = zero34 /\ cell (o_found o) Y X = 0%R /\
         forall k, 0 <= k < 4 -> pixel_of (o_tk o) Y X k = 0%R /\ pixel_of (o_eff o) Y X k = 0%R /\
           pixel_of (o_phase o) Y X k = 0%R).
  Proof.
    intros Hs Hny Hnx Ey Ex Hp. pose proof Hs as (_ & _ & _ & _ & P1 & P2).
    assert (B1 : ny * (2 * hy) <= 2 * h).
    { rewrite <- Ey, Z.quot_div_nonneg by lia. apply Z.mul_div_le; lia. }
    assert (B2 : nx * (2 * hx) <= 2 * w).
    { rewrite <- Ex, Z.quot_div_nonneg by lia. apply Z.mul_div_le; lia. }
    destruct (compute_grid_spec whole h w ny nx order hy hx Hs Hny Hnx Ey Ex Hp) as (o & E & Hsh & Hv).
    exists o. split; [exact E|]. split; [exact Hsh|]. split.
    - intros Y X HY HX. apply (has_calibrated whole o Y X h w); try assumption; try lia.
      apply Hv; lia.
    - intros Y X HY HX Hout. destruct (Hv Y X HY HX) as [_ Hz].
      destruct Hz as (z1 & z2 & z3); [lia|].
      split; [exact z1|]. split; [exact z2|]. intros k Hk. destruct (z3 k Hk) as (a1 & a2 & a3 & _).
      cbn [x_tk x_eff x_phase] in a1, a2, a3. rewrite f4_all in a1, a2, a3. auto.
  Qed.

  (** A refused grid *)
  Lemma c29_refused whole ny nx order :
    0 < ny -> 0 < nx ->
    Z.quot (c_h whole) ny mod 2 <> 0 \/ Z.quot (c_w whole) nx mod 2 <> 0 ->
    compute_grid S whole ny nx order = Raise ValueError.
  Proof.
    intros Hny Hnx H. unfold compute_grid.
    replace ((ny =? 0) || (nx =? 0)) with false by lia.
    replace (negb _ || negb _) with true by lia. reflexivity.
  Qed.
End Calibrated.

Definition same_matrix : mat34 := (all4 1, all4 1, all4 1)%R.
Definition blind_settings : settings :=
  mksettings (fun _ _ _ _ _ => None) (fun _ => same_matrix) [] (all4 0%R) None None.
Definition dark_image (h w : Z) : chunk := mkchunk (2 * h) (2 * w) [] [] (full (2 * h) (2 * w) 0%R).

Lemma c29_witness :
  exists S whole ny nx order o o1,
    series_shape whole 5 1 /\ Permutation order (zrange (ny * nx)) /\
    compute_grid S whole ny nx order = Ok o /\ compute_grid S whole 1 1 [0] = Ok o1 /\
    entry34 (cell (o_m o) 4 0) 0 0 = 0%R /\ entry34 (cell (o_m o1) 4 0) 0 0 = 1%R.
Proof.
  assert (Hs : series_shape (dark_image 5 1) 5 1) by (repeat split; cbn; lia || reflexivity).
  destruct (c29_leftover blind_settings (dark_image 5 1) 5 1 4 1 (zrange 4) 1 1 Hs) as (o & E & _ & _ & Hz);
    [lia|lia|reflexivity|reflexivity|apply Permutation_refl|].
  destruct (c29_grid blind_settings (dark_image 5 1) 5 1 1 1 [0] 5 1 Hs) as (o1 & o2 & E1 & _ & _ & _ & Hc);
    [lia|lia|lia|lia|apply Permutation_refl|].
  exists blind_settings, (dark_image 5 1), 4, 1, (zrange 4), o, o1.
  split; [exact Hs|]. split; [apply Permutation_refl|]. split; [exact E|]. split; [exact E1|].
  destruct (Hz 4 0 ltac:(lia) ltac:(lia) ltac:(lia)) as (Hm & _). split; [rewrite Hm; reflexivity|].
  destruct (Hc 4 0 ltac:(lia) ltac:(lia)) as (_ & [(_ & Hm1 & _)|(_ & p0 & p1 & p2 & p3 & v & _ & D & _)]).
  - rewrite Hm1. reflexivity.
  - destruct D as [(_ & Hm1 & _)|(_ & Hm1 & _)]; rewrite Hm1; reflexivity.
Qed.
