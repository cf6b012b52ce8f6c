(** Debugging runs of the calibration (C149). *)
From Coq Require Import Reals Lra Lia.
From Verif Require Import Base.Base Base.Num Base.BaseFacts Model.DemodFit Model.DemodLoad Model.CalibDebug Spec.FitSpec Spec.DebugSpec Proofs.FitFacts Proofs.GridFacts.

Section Lists.
  Context {T St : Type}.
  Fixpoint foldm (f : T -> St -> result St) (l : list T) (s : St) : result St :=
    match l with [] => Ok s | a :: rest => let* s' := f a s in foldm f rest s' end.

  Lemma foldm_app f l m s : foldm f (l ++ m) s = (let* s' := foldm f l s in foldm f m s').
  Proof. revert s; induction l as [|a l IH]; intros s; cbn [app foldm bind]; [reflexivity|]. destruct (f a s); cbn [bind]; auto. Qed.
End Lists.

Lemma foldm_map {T U St} (g : T -> U) (f : U -> St -> result St) l s : foldm f (map g l) s = foldm (fun a => f (g a)) l s.
Proof. revert s; induction l as [|a l IH]; intros s; cbn [map foldm]; [reflexivity|]. destruct (f (g a) s); cbn [bind]; auto. Qed.

Lemma foldm_ext {T St} (f g : T -> St -> result St) l s : (forall a s, In a l -> f a s = g a s) -> foldm f l s = foldm g l s.
Proof.
  revert s; induction l as [|a l IH]; intros s H; cbn [foldm]; [reflexivity|]. rewrite (H a s (or_introl eq_refl)).
  destruct (g a s); cbn [bind]; auto. apply IH. intros b s' Hb. apply H. right. exact Hb.
Qed.

Lemma foldm_prod {T U St} (f : T -> U -> St -> result St) l m s :
  foldm (fun a => foldm (f a) m) l s = foldm (fun p => f (fst p) (snd p)) (list_prod l m) s.
Proof.
  revert s; induction l as [|a l IH]; intros s; cbn [list_prod foldm]; [reflexivity|]. rewrite foldm_app, foldm_map.
  cbn [fst snd]. destruct (foldm (f a) m s); cbn [bind]; auto.
Qed.

Definition run {St} (body : Z -> Z -> St -> result St) (s : St) : result St :=
  for_range 100 150 2 (fun y => for_range 100 150 2 (fun x => body y x)) s.

Lemma for_range_list {St} (body : Z -> St -> result St) s : for_range 100 150 2 body s = foldm (fun Y => body (2 * Y)) (map (Z.add 50) (zrange 25)) s.
Proof. reflexivity. Qed.

Lemma run_list {St} (body : Z -> Z -> St -> result St) s : run body s = foldm (fun p => body (2 * fst p) (2 * snd p)) inspected s.
Proof.
  unfold run. rewrite for_range_list. rewrite (foldm_ext _ (fun Y => foldm (fun X => body (2 * Y) (2 * X)) (map (Z.add 50) (zrange 25)))).
  - exact (foldm_prod (fun Y X => body (2 * Y) (2 * X)) _ _ s).
  - intros Y s' _. apply for_range_list.
Qed.

Lemma inspected_in Y X : In (Y, X) inspected <-> 50 <= Y < 75 /\ 50 <= X < 75.
Proof.
  unfold inspected. rewrite in_prod_iff. assert (E : forall v, In v (map (Z.add 50) (zrange 25)) <-> 50 <= v < 75); [|rewrite !E; reflexivity].
  intros v. rewrite in_map_iff. split.
  - intros (k & <- & Hk). apply in_zrange in Hk. lia.
  - intros Hv. exists (v - 50). split; [lia|]. apply in_zrange. lia.
Qed.

Section Debug.
  Context (S : settings).

  Lemma step_ok c h w Y X o sc :
    c_h c = 2 * h -> c_w c = 2 * w -> 0 <= Y < h -> 0 <= X < w -> shaped o h w ->
    exists o', step S c (2 * Y) (2 * X) (o, sc) =
      Ok (o', if any22 (c_occ c) (2 * Y) (2 * X) then sc
              else fst (fit_pixels S (zrange 4) (samples_at c (2 * Y) (2 * X)) (sigma_at c (2 * Y) (2 * X)) sc)) /\ shaped o' h w.
  Proof.
    intros Hh Hw HY HX ((s1 & s2) & (s3 & s4) & (s5 & s6) & (s7 & s8) & (s9 & s10) & (s11 & s12) & (s13 & s14)).
    unfold step. rewrite !quot2.
    destruct (any22 (c_occ c) (2 * Y) (2 * X)); cbn [negb].
    - destruct (set_at_ok (o_m o) Y X h w (theo_demodulation S)) as (m & -> & m1 & m2 & _); auto.
      destruct (put22_ok (o_phase o) Y X h w (phases S)) as (ph & Eph & p1 & p2 & _); auto.
      destruct (put22_ok (o_tk o) Y X h w (all4 (p_t (tk_b S)))) as (tk & Etk & t1 & t2 & _); auto.
      destruct (put22_ok (o_eff o) Y X h w (all4 (p_t (eff_b S)))) as (ef & Eef & e1 & e2 & _); auto.
      cbn [bind]. rewrite Eph; cbn [bind]. rewrite Etk; cbn [bind]. rewrite Eef; cbn [bind].
      eexists. split; [reflexivity|]. unfold shaped; cbn [o_m o_tk o_eff o_phase o_found o_cov o_chisq].
      rewrite m1, m2, p1, p2, t1, t2, e1, e2. repeat split; assumption.
    - replace ((2 * Y + 2 <=? c_h c) && (2 * X + 2 <=? c_w c)) with true by lia. cbn [negb].
      destruct (fit_pixels S _ _ _ sc) as [sc' ok]. cbn [fst]. destruct ok; cbn [negb].
      + set (D := pinv S (modulation (s_params sc'))).
        destruct (set_at_ok (o_m o) Y X h w (if big_numbers D then theo_demodulation S else D)) as (m & Em & m1 & m2 & _); auto.
        destruct (set_at_ok (o_found o) Y X h w (if big_numbers D then 0 else 1)%R) as (f & Ef & f1 & f2 & _); auto.
        destruct (put22_ok (o_cov o) Y X h w (s_cov sc')) as (cv & Ecv & v1 & v2 & _); auto.
        destruct (put22_ok (o_chisq o) Y X h w (s_chisq sc')) as (cq & Ecq & q1 & q2 & _); auto.
        destruct (put22_ok (o_tk o) Y X h w (map4 p_t (s_params sc'))) as (tk & Etk & t1 & t2 & _); auto.
        destruct (put22_ok (o_eff o) Y X h w (map4 p_e (s_params sc'))) as (ef & Eef & e1 & e2 & _); auto.
        destruct (put22_ok (o_phase o) Y X h w (map4 p_phi (s_params sc'))) as (ph & Eph & h1 & h2 & _); auto.
        exists (mkmaps m tk ef ph f cv cq). split.
        * destruct (big_numbers D); rewrite Em; cbn [bind]; rewrite Ef; cbn [bind]; rewrite Ecv; cbn [bind];
            rewrite Ecq; cbn [bind]; rewrite Etk; cbn [bind]; rewrite Eef; cbn [bind]; rewrite Eph; reflexivity.
        * unfold shaped; cbn [o_m o_tk o_eff o_phase o_found o_cov o_chisq].
          rewrite m1, m2, f1, f2, v1, v2, q1, q2, t1, t2, e1, e2, h1, h2. repeat split; assumption.
      + destruct (set_at_ok (o_m o) Y X h w (theo_demodulation S)) as (m & -> & m1 & m2 & _); auto.
        cbn [bind]. eexists. split; [reflexivity|]. unfold shaped; cbn [o_m o_tk o_eff o_phase o_found o_cov o_chisq].
        rewrite m1, m2. repeat split; assumption.
  Qed.

  (** The parameters after the four fits *)
  Lemma params_after c Y X sc k : 0 <= k < 4 ->
    let P := s_params (fst (fit_pixels S (zrange 4) (samples_at c (2 * Y) (2 * X)) (sigma_at c (2 * Y) (2 * X)) sc)) in
    ((forall j, 0 <= j <= k -> exists p v, fit_gives S c Y X j p v) /\ exists v, fit_gives S c Y X k (f4 P k) v) \/
    ((exists j, 0 <= j <= k /\ forall p v, ~ fit_gives S c Y X j p v) /\ f4 P k = f4 (s_params sc) k).
  Proof.
    intros Hk.
    assert (G : forall j, 0 <= j < 4 ->
      (if forallb (fun v => Reqb v 0) (samples_at c (2 * Y) (2 * X) j) then None
       else curve_fit S (angles_rad S) (samples_at c (2 * Y) (2 * X) j) (prediction S j) (sigma_at c (2 * Y) (2 * X) j) (bounds S j)) = fit1 S (sp_at c Y X) j).
    { intros j Hj. unfold fit1. rewrite sp_f4_samples, sp_f4_sigma by exact Hj. rewrite series_eq, errors_eq. reflexivity. }
    pose proof (fun j Hj p v => proj1 (fit1_spec S c Y X j p v Hj)) as Yes. pose proof (fun j Hj => fit1_none S c Y X j Hj) as No.
    pose proof (G 0 ltac:(lia)) as G0. pose proof (G 1 ltac:(lia)) as G1. pose proof (G 2 ltac:(lia)) as G2. pose proof (G 3 ltac:(lia)) as G3. clear G.
    assert (F : let P := s_params (fst (fit_pixels S (zrange 4) (samples_at c (2 * Y) (2 * X)) (sigma_at c (2 * Y) (2 * X)) sc)) in
      P = match fit1 S (sp_at c Y X) 0 with
          | None => s_params sc
          | Some (p0, _) => let s0 := upd4 (s_params sc) 0 p0 in
            match fit1 S (sp_at c Y X) 1 with
            | None => s0
            | Some (p1, _) => let s1 := upd4 s0 1 p1 in
              match fit1 S (sp_at c Y X) 2 with
              | None => s1
              | Some (p2, _) => let s2 := upd4 s1 2 p2 in
                match fit1 S (sp_at c Y X) 3 with None => s2 | Some (p3, _) => upd4 s2 3 p3 end
              end
            end
          end).
    { cbv zeta. change (zrange 4) with [0; 1; 2; 3]. cbn [fit_pixels].
      rewrite <- G0. destruct (forallb _ (samples_at c (2 * Y) (2 * X) 0)); [reflexivity|].
      destruct (curve_fit _ _ (samples_at c (2 * Y) (2 * X) 0) _ _ _) as [[a0 b0]|]; [|reflexivity].
      rewrite <- G1. destruct (forallb _ (samples_at c (2 * Y) (2 * X) 1)); [reflexivity|].
      destruct (curve_fit _ _ (samples_at c (2 * Y) (2 * X) 1) _ _ _) as [[a1 b1]|]; [|reflexivity].
      rewrite <- G2. destruct (forallb _ (samples_at c (2 * Y) (2 * X) 2)); [reflexivity|].
      destruct (curve_fit _ _ (samples_at c (2 * Y) (2 * X) 2) _ _ _) as [[a2 b2]|]; [|reflexivity].
      rewrite <- G3. destruct (forallb _ (samples_at c (2 * Y) (2 * X) 3)); [reflexivity|].
      destruct (curve_fit _ _ (samples_at c (2 * Y) (2 * X) 3) _ _ _) as [[a3 b3]|]; reflexivity. }
    cbv zeta in F |- *. rewrite F. clear F G0 G1 G2 G3.
    assert (Hl : forall j, fit1 S (sp_at c Y X) j = None -> 0 <= j <= k -> exists j, 0 <= j <= k /\ forall p v, ~ fit_gives S c Y X j p v).
    { intros j E Hj. exists j. split; [exact Hj|]. apply No; [lia|exact E]. }
    destruct (fit1 S (sp_at c Y X) 0) as [[p0 v0]|] eqn:E0; [|right; split; [apply (Hl 0 E0); lia|reflexivity]].
    assert (Y0 := Yes 0 ltac:(lia) _ _ E0).
    destruct (fit1 S (sp_at c Y X) 1) as [[p1 v1]|] eqn:E1.
    2: { destruct (Z.eq_dec k 0) as [->|N].
         - left. split; [|exists v0; exact Y0]. intros j Hj. assert (j = 0) as -> by lia. eauto.
         - right. split; [apply (Hl 1 E1); lia|]. assert (k = 1 \/ k = 2 \/ k = 3) as [-> |[-> | ->]] by lia; reflexivity. }
    assert (Y1 := Yes 1 ltac:(lia) _ _ E1).
    destruct (fit1 S (sp_at c Y X) 2) as [[p2 v2]|] eqn:E2.
    2: { destruct (Z_le_gt_dec k 1) as [L|N].
         - left. split.
           + intros j Hj. assert (j = 0 \/ j = 1) as [-> | ->] by lia; eauto.
           + assert (k = 0 \/ k = 1) as [-> | ->] by lia; [exists v0; exact Y0|exists v1; exact Y1].
         - right. split; [apply (Hl 2 E2); lia|]. assert (k = 2 \/ k = 3) as [-> | ->] by lia; reflexivity. }
    assert (Y2 := Yes 2 ltac:(lia) _ _ E2).
    destruct (fit1 S (sp_at c Y X) 3) as [[p3 v3]|] eqn:E3.
    2: { destruct (Z_le_gt_dec k 2) as [L|N].
         - left. split.
           + intros j Hj. assert (j = 0 \/ j = 1 \/ j = 2) as [-> |[-> | ->]] by lia; eauto.
           + assert (k = 0 \/ k = 1 \/ k = 2) as [-> |[-> | ->]] by lia; [exists v0; exact Y0|exists v1; exact Y1|exists v2; exact Y2].
         - right. split; [apply (Hl 3 E3); lia|]. assert (k = 3) as -> by lia; reflexivity. }
    assert (Y3 := Yes 3 ltac:(lia) _ _ E3). left. split.
    - intros j Hj. assert (j = 0 \/ j = 1 \/ j = 2 \/ j = 3) as [-> |[-> |[-> | ->]]] by lia; eauto.
    - assert (k = 0 \/ k = 1 \/ k = 2 \/ k = 3) as [-> |[-> |[-> | ->]]] by lia; [exists v0; exact Y0|exists v1; exact Y1|exists v2; exact Y2|exists v3; exact Y3].
  Qed.

  Lemma debug_step_ok c h w Y X o sc figs : series_shape c h w -> 0 <= Y < h -> 0 <= X < w -> shaped o h w ->
    exists o' sc' more, debug_step S c (2 * Y) (2 * X) (o, sc, figs) = Ok (o', sc', figs ++ more) /\ shaped o' h w /\
      (occulted c Y X /\ more = [] /\ sc' = sc \/
       ~ occulted c Y X /\ exists f, more = [f] /\ figure_of c Y X f /\ curves S c Y X (s_params sc) f /\ g_params f = s_params sc').
  Proof.
    intros Hs HY HX Ho. pose proof Hs as (Hh & Hw & _). pose proof (any22_spec c Y X h w Hs HY HX) as A.
    destruct (step_ok c h w Y X o sc Hh Hw HY HX Ho) as (o' & E & Ho'). unfold debug_step. rewrite E. cbn [bind].
    destruct (any22 (c_occ c) (2 * Y) (2 * X)).
    - exists o', sc, []. rewrite app_nil_r. split; [reflexivity|]. split; [exact Ho'|]. left. split; [apply A; reflexivity|auto].
    - eexists o', _, _. split; [reflexivity|]. split; [exact Ho'|]. right. split; [intros C; apply A in C; discriminate|].
      eexists. split; [reflexivity|]. split; [|split; [|reflexivity]].
      + split; [reflexivity|]. split; [reflexivity|]. intros k Hk. cbn [g_points g_errors]. rewrite <- series_eq, <- errors_eq.
        destruct (f4_cases k Hk) as [-> |[-> |[-> | ->]]]; split; reflexivity.
      + intros k Hk. cbn [g_params]. apply params_after, Hk.
  Qed.

  Lemma debug_list c h w l : series_shape c h w -> (forall Y X, In (Y, X) l -> 0 <= Y < h /\ 0 <= X < w) ->
    forall o sc figs, shaped o h w ->
    exists o' sc' more, foldm (fun p => debug_step S c (2 * fst p) (2 * snd p)) l (o, sc, figs) = Ok (o', sc', figs ++ more) /\ shaped o' h w /\
      shows S c (s_params sc) l more.
  Proof.
    intros Hs. induction l as [|(Y, X) l IH]; intros Hl o sc figs Ho.
    - exists o, sc, []. cbn [foldm]. rewrite app_nil_r. split; [reflexivity|]. split; [exact Ho|]. constructor.
    - destruct (Hl Y X (or_introl eq_refl)) as (HY & HX).
      destruct (debug_step_ok c h w Y X o sc figs Hs HY HX Ho) as (o1 & sc1 & m1 & E1 & Ho1 & D).
      destruct (IH (fun Y X H => Hl Y X (or_intror H)) o1 sc1 (figs ++ m1) Ho1) as (o2 & sc2 & m2 & E2 & Ho2 & Sh).
      exists o2, sc2, (m1 ++ m2). cbn [foldm fst snd]. rewrite E1. cbn [bind]. rewrite E2, <- app_assoc. split; [reflexivity|]. split; [exact Ho2|].
      destruct D as [(O & -> & ->)|(O & f & -> & Hf & Hc & Hp)].
      + cbn [app]. apply shows_occulted; assumption.
      + cbn [app]. rewrite <- Hp in Sh. apply shows_figure; assumption.
  Qed.

  Lemma initial_shaped h w : 0 <= h -> 0 <= w -> shaped (initial_maps S (2 * h) (2 * w)) h w.
  Proof.
    intros Hh Hw. unfold shaped, initial_maps, full. cbn [o_m o_tk o_eff o_phase o_found o_cov o_chisq rows cols].
    rewrite !quot2. repeat split.
  Qed.

  Lemma whole_chunk c h w : series_shape c h w -> series_shape (chunk_at c (c_h c) (c_w c) 0 0) h w.
  Proof. intros (A & B & C & D & E & F). unfold chunk_at, series_shape. cbn [c_h c_w c_occ rows cols]. tauto. Qed.

  (** The chunk is the whole series. *)
  Lemma whole_series c Y X k : series (chunk_at c (c_h c) (c_w c) 0 0) Y X k = series c Y X k.
  Proof. unfold series, chunk_at, window. cbn [c_data]. rewrite map_map. reflexivity. Qed.
  Lemma whole_errors c Y X k : errors (chunk_at c (c_h c) (c_w c) 0 0) Y X k = errors c Y X k.
  Proof. unfold errors, chunk_at, window. cbn [c_err]. rewrite map_map. reflexivity. Qed.
  Lemma whole_occulted c Y X : occulted (chunk_at c (c_h c) (c_w c) 0 0) Y X <-> occulted c Y X.
  Proof. reflexivity. Qed.
  Lemma whole_gives c Y X k p v : fit_gives S (chunk_at c (c_h c) (c_w c) 0 0) Y X k p v <-> fit_gives S c Y X k p v.
  Proof. unfold fit_gives. rewrite whole_series, whole_errors. reflexivity. Qed.

  Lemma whole_shows c before l figs : shows S (chunk_at c (c_h c) (c_w c) 0 0) before l figs -> shows S c before l figs.
  Proof.
    induction 1 as [before|before Y X rest figs O Sh IH|before Y X rest f figs O F C Sh IH].
    - constructor.
    - apply shows_occulted; assumption.
    - apply shows_figure; [exact O| | |exact IH].
      + destruct F as (a & b & F). split; [exact a|]. split; [exact b|]. intros k Hk. rewrite <- whole_series, <- whole_errors. apply F, Hk.
      + intros k Hk. destruct (C k Hk) as [(A & v & B)|((j & Hj & A) & B)].
        * left. split; [|exists v; apply whole_gives, B]. intros j Hj. destruct (A j Hj) as (p & v' & G). exists p, v'. apply whole_gives, G.
        * right. split; [|exact B]. exists j. split; [exact Hj|]. intros p v G. apply (A p v), whole_gives, G.
  Qed.

  Lemma even_sides c h w : series_shape c h w -> negb (c_w c mod 2 =? 0) || negb (c_h c mod 2 =? 0) = false.
  Proof. intros (-> & -> & _). rewrite !(Z.mul_comm 2), !Z.mod_mul by lia. reflexivity. Qed.

  Lemma c149_shows c h w : series_shape c h w -> 75 <= h -> 75 <= w ->
    exists o figs, debug_grid S c = Ok (o, figs) /\ shows S c (all4 (0, 0, 0)%R) inspected figs.
  Proof.
    intros Hs Hh Hw. unfold debug_grid. rewrite (even_sides c h w Hs). unfold debug_chunk.
    set (c' := chunk_at c (c_h c) (c_w c) 0 0). pose proof (whole_chunk c h w Hs) as Hs'. fold c' in Hs'.
    change (for_range 100 150 2 _ _) with (run (debug_step S c') (initial_maps S (c_h c') (c_w c'), initial_scratch, [])). rewrite run_list.
    pose proof Hs' as (E1 & E2 & _). rewrite E1, E2.
    destruct (debug_list c' h w inspected Hs') with (o := initial_maps S (2 * h) (2 * w)) (sc := initial_scratch) (figs := @nil figure) as (o & sc & figs & E & _ & Sh).
    - intros Y X HI. apply inspected_in in HI. lia.
    - apply initial_shaped; lia.
    - rewrite E. cbn [bind app]. exists o, figs. split; [reflexivity|]. apply whole_shows, Sh.
  Qed.

  (** An image too small for the window *)
  Lemma foldm_stop {T St} (P : St -> Prop) (f : T -> St -> result St) (good : T -> Prop) e l :
    (forall a, good a \/ ~ good a) ->
    (forall a s, In a l -> good a -> P s -> exists s', f a s = Ok s' /\ P s') -> (forall a s, In a l -> ~ good a -> P s -> f a s = Raise e) ->
    (exists a, In a l /\ ~ good a) -> forall s, P s -> foldm f l s = Raise e.
  Proof.
    intros D G B. induction l as [|a l IH]; intros (b & Hb & N) s Ps; [destruct Hb|]. cbn [foldm].
    destruct (D a) as [A|A].
    - destruct (G a s (or_introl eq_refl) A Ps) as (s' & E & Ps'). rewrite E. cbn [bind]. apply IH; [| |exists b; split; [|exact N]|exact Ps'].
      + intros x t Hx. apply G. right. exact Hx.
      + intros x t Hx. apply B. right. exact Hx.
      + destruct Hb as [->|Hb]; [contradiction|exact Hb].
    - rewrite (B a s (or_introl eq_refl) A Ps). reflexivity.
  Qed.

  Lemma any22_outside (a : arr R) h w Y X : rows a = 2 * h -> cols a = 2 * w -> ~ (Y < h /\ X < w) -> any22 a (2 * Y) (2 * X) = false.
  Proof.
    intros Hr Hc N. unfold any22. rewrite Hr, Hc. cbn [filter].
    destruct (Z_lt_ge_dec Y h) as [L|L].
    - replace (2 * X <? 2 * w) with false by lia. replace (2 * X + 1 <? 2 * w) with false by lia.
      destruct (2 * Y <? 2 * h), (2 * Y + 1 <? 2 * h); reflexivity.
    - replace (2 * Y <? 2 * h) with false by lia. replace (2 * Y + 1 <? 2 * h) with false by lia. reflexivity.
  Qed.

  Lemma c149_small c h w : series_shape c h w -> h < 75 \/ w < 75 -> debug_grid S c = Raise ValueError.
  Proof.
    intros Hs Sm. unfold debug_grid. rewrite (even_sides c h w Hs). unfold debug_chunk.
    set (c' := chunk_at c (c_h c) (c_w c) 0 0). pose proof (whole_chunk c h w Hs) as Hs'. fold c' in Hs'.
    change (for_range 100 150 2 _ _) with (run (debug_step S c') (initial_maps S (c_h c') (c_w c'), initial_scratch, [])). rewrite run_list.
    pose proof Hs' as (E1 & E2 & E3 & E4 & P1 & P2). rewrite E1, E2.
    rewrite (foldm_stop (fun st => shaped (fst (fst st)) h w) _ (fun p => fst p < h /\ snd p < w) ValueError inspected).
    - reflexivity.
    - intros (Y, X). cbn [fst snd]. lia.
    - intros (Y, X) ((o, sc), figs) HI (G1 & G2) Ho. cbn [fst snd] in *. apply inspected_in in HI.
      destruct (debug_step_ok c' h w Y X o sc figs Hs' ltac:(lia) ltac:(lia) Ho) as (o' & sc' & more & E & Ho' & _). eexists. split; [exact E|exact Ho'].
    - intros (Y, X) ((o, sc), figs) HI N Ho. cbn [fst snd] in *. unfold debug_step, step.
      rewrite (any22_outside (c_occ c') h w Y X E3 E4 N). cbn [negb]. replace ((2 * Y + 2 <=? c_h c') && (2 * X + 2 <=? c_w c')) with false by lia. reflexivity.
    - exists (74, 74). split; [apply inspected_in; lia|cbn [fst snd]; lia].
    - cbn [fst]. apply initial_shaped; assumption.
  Qed.

  Lemma c149_odd c : c_h c mod 2 = 1 \/ c_w c mod 2 = 1 -> debug_grid S c = Raise ValueError.
  Proof.
    intros D. unfold debug_grid. replace (negb (c_w c mod 2 =? 0) || negb (c_h c mod 2 =? 0)) with true by lia. reflexivity.
  Qed.

  (** What follows for single figures *)
  Lemma shows_all c before l figs : shows S c before l figs ->
    (forall Y X, In (Y, X) l -> ~ occulted c Y X -> exists f, In f figs /\ figure_of c Y X f) /\
    forall f, In f figs -> exists Y X before', In (Y, X) l /\ ~ occulted c Y X /\ figure_of c Y X f /\ curves S c Y X before' f.
  Proof.
    induction 1 as [before|before Y X rest figs O Sh [IH1 IH2]|before Y X rest f figs O F C Sh [IH1 IH2]].
    - split; [intros Y X []|intros f []].
    - split.
      + intros Y' X' [E|H] N; [injection E as -> ->; contradiction|apply IH1; assumption].
      + intros f Hf. destruct (IH2 f Hf) as (Y' & X' & b & H & R). exists Y', X', b. split; [right; exact H|exact R].
    - split.
      + intros Y' X' [E|H] N; [injection E as -> ->; exists f; split; [left; reflexivity|exact F]|].
        destruct (IH1 Y' X' H N) as (g & Hg & R). exists g. split; [right; exact Hg|exact R].
      + intros g [<-|Hg]; [exists Y, X, before; split; [left; reflexivity|auto]|].
        destruct (IH2 g Hg) as (Y' & X' & b & H & R). exists Y', X', b. split; [right; exact H|exact R].
  Qed.

  Lemma c149_own c h w : series_shape c h w -> 75 <= h -> 75 <= w ->
    exists o figs, debug_grid S c = Ok (o, figs) /\
      (forall Y X, 50 <= Y < 75 -> 50 <= X < 75 -> ~ occulted c Y X -> exists f, In f figs /\ figure_of c Y X f) /\
      forall f, In f figs -> exists Y X, 50 <= Y < 75 /\ 50 <= X < 75 /\ ~ occulted c Y X /\ figure_of c Y X f /\
        ((forall k, 0 <= k < 4 -> exists p v, fit_gives S c Y X k p v) -> forall k, 0 <= k < 4 -> exists v, fit_gives S c Y X k (f4 (g_params f) k) v).
  Proof.
    intros Hs Hh Hw. destruct (c149_shows c h w Hs Hh Hw) as (o & figs & E & Sh). exists o, figs. split; [exact E|].
    destruct (shows_all c _ _ _ Sh) as (A & B). split.
    - intros Y X HY HX. apply A, inspected_in. auto.
    - intros f Hf. destruct (B f Hf) as (Y & X & before & HI & O & F & C). apply inspected_in in HI. exists Y, X.
      split; [apply HI|]. split; [apply HI|]. split; [exact O|]. split; [exact F|]. intros All k Hk.
      destruct (C k Hk) as [(_ & G)|((j & Hj & N) & _)]; [exact G|]. destruct (All j ltac:(lia)) as (p & v & G). destruct (N p v G).
  Qed.
End Debug.

(** Light on a single superpixel: the next one shows its curves. *)
Definition one_lit : chunk :=
  mkchunk 150 150 [fun y x => if (y <? 102) && (x <? 102) then 1 else 0]%R [fun _ _ => 1]%R (full 150 150 0%R).
Definition one_fit : settings :=
  mksettings (fun _ _ _ _ _ => Some ((1, 1, 0), fun _ _ => 0)%R) (fun _ => zero34) [0]%R (all4 0%R) None None.

Lemma c149_stale :
  series_shape one_lit 75 75 /\
  exists o f g figs, debug_grid one_fit one_lit = Ok (o, f :: g :: figs) /\
    figure_of one_lit 50 50 f /\ figure_of one_lit 50 51 g /\
    forall k, 0 <= k < 4 -> f4 (g_params g) k = f4 (g_params f) k /\ f4 (g_params g) k = (1, 1, 0)%R /\ dark (series one_lit 50 51 k).
Proof.
  assert (Hs : series_shape one_lit 75 75) by (repeat split; try reflexivity; lia). split; [exact Hs|].
  destruct (c149_shows one_fit one_lit 75 75 Hs ltac:(lia) ltac:(lia)) as (o & figs & E & Sh).
  assert (O : forall Y X, ~ occulted one_lit Y X) by (intros Y X (k & _ & N); apply N; reflexivity).
  assert (L : exists rest, inspected = (50, 50) :: (50, 51) :: rest) by (eexists; vm_compute; reflexivity). destruct L as (rest & L). rewrite L in Sh.
  inversion Sh as [|b Y X r fs Oc _|b Y X r f fs _ F C Sh']; subst; [destruct (O 50 50 Oc)|].
  inversion Sh' as [|b Y X r gs Oc _|b Y X r g gs _ G D _]; subst; [destruct (O 50 51 Oc)|].
  exists o, f, g, gs. split; [exact E|]. split; [exact F|]. split; [exact G|].
  assert (Dk : forall k, 0 <= k < 4 -> dark (series one_lit 50 51 k)).
  { intros k Hk. destruct (f4_cases k Hk) as [-> |[-> |[-> | ->]]]; repeat constructor. }
  intros k Hk. assert (Eg : f4 (g_params g) k = f4 (g_params f) k).
  { destruct (D k Hk) as [(A & _)|(_ & Eg)]; [|exact Eg]. destruct (A 0 ltac:(lia)) as (p & v & N & _). destruct N. apply Dk. lia. }
  split; [exact Eg|]. rewrite Eg. split; [|apply Dk, Hk].
  destruct (C k Hk) as [(_ & v & _ & A)|((j & Hj & A) & _)].
  - cbn [curve_fit one_fit] in A. congruence.
  - destruct (A (1, 1, 0)%R (fun _ _ => 0%R)). split; [|reflexivity]. intros N.
    assert (N1 : (1 = 0)%R); [|lra]. destruct (f4_cases j ltac:(lia)) as [-> |[-> |[-> | ->]]]; inversion N; assumption.
Qed.
