(** The calibration of a chunk, superpixel by superpixel. *)
From Coq Require Import Reals Lra.
From Verif Require Import Base.Base Base.BaseFacts Base.Num Model.Pol Model.DemodFit.
Ltac Zify.zify_post_hook ::= idtac.

(** Position of pixel k of superpixel (Y, X) *)
Definition at4 {A} (a : arr A) (Y X k : Z) : A := cell a (2 * Y + k / 2) (2 * X + k mod 2).

Lemma k_cases k : 0 <= k < 4 ->
  (k = 0 /\ k / 2 = 0 /\ k mod 2 = 0) \/ (k = 1 /\ k / 2 = 0 /\ k mod 2 = 1) \/
  (k = 2 /\ k / 2 = 1 /\ k mod 2 = 0) \/ (k = 3 /\ k / 2 = 1 /\ k mod 2 = 1).
Proof.
  intros Hk. assert (k = 0 \/ k = 1 \/ k = 2 \/ k = 3) as D by lia.
  destruct D as [-> | [-> | [-> | ->]]]; cbn; lia.
Qed.

Lemma put22_ok {A} (a : arr A) Y X h w (v : four A) :
  rows a = 2 * h -> cols a = 2 * w -> 0 <= Y < h -> 0 <= X < w ->
  exists b, put22 a (2 * Y) (2 * X) v = Ok b /\ rows b = rows a /\ cols b = cols a /\
    (forall k, 0 <= k < 4 -> at4 b Y X k = f4 v k) /\
    (forall Y' X' k, (Y', X') <> (Y, X) -> 0 <= k < 4 -> at4 b Y' X' k = at4 a Y' X' k).
Proof.
  intros Hr Hc HY HX. unfold put22. rewrite Hr, Hc.
  replace ((2 * Y + 2 <=? 2 * h) && (2 * X + 2 <=? 2 * w)) with true by lia.
  eexists; split; [reflexivity|]. cbn [rows cols]. split; [reflexivity|]. split; [reflexivity|].
  split; unfold at4; cbn [cell].
  - intros k Hk. pose proof (k_cases k Hk) as D.
    replace (_ && _) with true by lia. f_equal. lia.
  - intros Y' X' k Hn Hk. pose proof (k_cases k Hk) as D.
    assert (Y' <> Y \/ X' <> X).
    { destruct (Z.eq_dec Y' Y) as [->|]; [right; congruence|left; assumption]. }
    replace (_ && _) with false by lia. reflexivity.
Qed.

Lemma set_at_ok {A} (a : arr A) Y X h w (v : A) :
  rows a = h -> cols a = w -> 0 <= Y < h -> 0 <= X < w ->
  exists b, set a Y X v = Ok b /\ rows b = rows a /\ cols b = cols a /\
    cell b Y X = v /\ (forall Y' X', (Y', X') <> (Y, X) -> cell b Y' X' = cell a Y' X').
Proof.
  intros Hr Hc HY HX. rewrite set_in by lia. eexists; split; [reflexivity|]. cbn [rows cols cell].
  split; [reflexivity|]. split; [reflexivity|]. split; [apply upd_eq|].
  intros Y' X' Hn. apply upd_neq.
  destruct (Z.eq_dec Y' Y) as [->|]; [right; congruence|left; assumption].
Qed.

Section Fit.
  Variable S : settings.

  (** Everything that is known about a superpixel. *)
  Record sp_in : Type := mksp { i_occ : bool; i_samples : four (list R); i_sigma : four (list R) }.

  Definition sp_at (c : chunk) (Y X : Z) : sp_in :=
    let g f := mkfour (f 0) (f 1) (f 2) (f 3) in
    mksp (any22 (c_occ c) (2 * Y) (2 * X)) (g (samples_at c (2 * Y) (2 * X)))
      (g (sigma_at c (2 * Y) (2 * X))).

  Record sp_out : Type := mkspo {
    x_m : mat34; x_found : R; x_tk : four R; x_eff : four R; x_phase : four R;
    x_cov : four mat33; x_chisq : four R
  }.

  Definition fit1 (i : sp_in) (k : Z) : option (param3 * mat33) :=
    if forallb (fun v => Reqb v 0) (f4 (i_samples i) k) then None
    else curve_fit S (angles_rad S) (f4 (i_samples i) k) (prediction S k)
           (f4 (i_sigma i) k) (bounds S k).

  Definition unfitted : sp_out :=
    mkspo (theo_demodulation S) 0 (all4 (p_t (tk_b S))) (all4 (p_t (eff_b S))) (phases S)
      (all4 (fun _ _ => 0%R)) (all4 0%R).

  Definition fitted (i : sp_in) (p : four param3) (c : four mat33) : sp_out :=
    let D := pinv S (modulation p) in
    mkspo (if big_numbers D then theo_demodulation S else D) (if big_numbers D then 0 else 1)%R
      (map4 p_t p) (map4 p_e p) (map4 p_phi p) c
      (mkfour (chisquare S (f_0 p) (f_0 (i_samples i)) (f_0 (i_sigma i)))
              (chisquare S (f_1 p) (f_1 (i_samples i)) (f_1 (i_sigma i)))
              (chisquare S (f_2 p) (f_2 (i_samples i)) (f_2 (i_sigma i)))
              (chisquare S (f_3 p) (f_3 (i_samples i)) (f_3 (i_sigma i)))).

  Definition sp_result (i : sp_in) : sp_out :=
    if i_occ i then unfitted else
    match fit1 i 0, fit1 i 1, fit1 i 2, fit1 i 3 with
    | Some (p0, c0), Some (p1, c1), Some (p2, c2), Some (p3, c3) =>
        fitted i (mkfour p0 p1 p2 p3) (mkfour c0 c1 c2 c3)
    | _, _, _, _ => unfitted
    end.

  Lemma fit_pixels_spec c Y X sc :
    let i := sp_at c Y X in
    match fit1 i 0, fit1 i 1, fit1 i 2, fit1 i 3 with
    | Some (p0, c0), Some (p1, c1), Some (p2, c2), Some (p3, c3) =>
        fit_pixels S (zrange 4) (samples_at c (2 * Y) (2 * X)) (sigma_at c (2 * Y) (2 * X)) sc =
        (mkscratch (mkfour p0 p1 p2 p3) (mkfour c0 c1 c2 c3)
           (x_chisq (fitted i (mkfour p0 p1 p2 p3) (mkfour c0 c1 c2 c3))), true)
    | _, _, _, _ =>
        exists sc',
        fit_pixels S (zrange 4) (samples_at c (2 * Y) (2 * X)) (sigma_at c (2 * Y) (2 * X)) sc =
        (sc', false)
    end.
  Proof.
    cbn zeta. unfold fit1, sp_at. cbn [i_samples i_sigma].
    change (zrange 4) with [0; 1; 2; 3]. cbn [fit_pixels f4 Z.eqb Pos.eqb f_0 f_1 f_2 f_3].
    destruct (forallb _ (samples_at c (2 * Y) (2 * X) 0)); [eauto|].
    destruct (curve_fit _ _ (samples_at c (2 * Y) (2 * X) 0) _ _ _) as [[a0 b0]|]; [|eauto].
    destruct (forallb _ (samples_at c (2 * Y) (2 * X) 1)); [eauto|].
    destruct (curve_fit _ _ (samples_at c (2 * Y) (2 * X) 1) _ _ _) as [[a1 b1]|]; [|eauto].
    destruct (forallb _ (samples_at c (2 * Y) (2 * X) 2)); [eauto|].
    destruct (curve_fit _ _ (samples_at c (2 * Y) (2 * X) 2) _ _ _) as [[a2 b2]|]; [|eauto].
    destruct (forallb _ (samples_at c (2 * Y) (2 * X) 3)); [eauto|].
    destruct (curve_fit _ _ (samples_at c (2 * Y) (2 * X) 3) _ _ _) as [[a3 b3]|]; [|eauto].
    reflexivity.
  Qed.

  (** Output of the maps at a superpixel *)
  Definition has (o : maps) (Y X : Z) (r : sp_out) : Prop :=
    cell (o_m o) Y X = x_m r /\ cell (o_found o) Y X = x_found r /\
    forall k, 0 <= k < 4 ->
      at4 (o_tk o) Y X k = f4 (x_tk r) k /\ at4 (o_eff o) Y X k = f4 (x_eff r) k /\
      at4 (o_phase o) Y X k = f4 (x_phase r) k /\ at4 (o_cov o) Y X k = f4 (x_cov r) k /\
      at4 (o_chisq o) Y X k = f4 (x_chisq r) k.

  Definition same_at (o o' : maps) (Y X : Z) : Prop :=
    cell (o_m o) Y X = cell (o_m o') Y X /\ cell (o_found o) Y X = cell (o_found o') Y X /\
    forall k, 0 <= k < 4 ->
      at4 (o_tk o) Y X k = at4 (o_tk o') Y X k /\ at4 (o_eff o) Y X k = at4 (o_eff o') Y X k /\
      at4 (o_phase o) Y X k = at4 (o_phase o') Y X k /\ at4 (o_cov o) Y X k = at4 (o_cov o') Y X k /\
      at4 (o_chisq o) Y X k = at4 (o_chisq o') Y X k.

  Definition shaped (o : maps) (h w : Z) : Prop :=
    (rows (o_m o) = h /\ cols (o_m o) = w) /\ (rows (o_found o) = h /\ cols (o_found o) = w) /\
    (rows (o_tk o) = 2 * h /\ cols (o_tk o) = 2 * w) /\
    (rows (o_eff o) = 2 * h /\ cols (o_eff o) = 2 * w) /\
    (rows (o_phase o) = 2 * h /\ cols (o_phase o) = 2 * w) /\
    (rows (o_cov o) = 2 * h /\ cols (o_cov o) = 2 * w) /\
    (rows (o_chisq o) = 2 * h /\ cols (o_chisq o) = 2 * w).

  Definition blank : sp_out := mkspo zero34 0 (all4 (p_t (tk_b S))) (all4 (p_t (eff_b S))) (phases S)
      (all4 (fun _ _ => 0%R)) (all4 0%R).

  Lemma f4_all {A} (a : A) k : f4 (all4 a) k = a.
  Proof. unfold f4, all4. cbn. destruct (k =? 0), (k =? 1), (k =? 2); reflexivity. Qed.

  Lemma f4_map {A B} (g : A -> B) f k : f4 (map4 g f) k = g (f4 f k).
  Proof. unfold f4, map4. cbn. destruct (k =? 0), (k =? 1), (k =? 2); reflexivity. Qed.

  Lemma quot2 n : Z.quot (2 * n) 2 = n.
  Proof. rewrite Z.mul_comm. apply Z.quot_mul. lia. Qed.

  Lemma step_spec c h w Y X o sc :
    c_h c = 2 * h -> c_w c = 2 * w -> 0 <= Y < h -> 0 <= X < w ->
    shaped o h w -> has o Y X blank ->
    exists o' sc', step S c (2 * Y) (2 * X) (o, sc) = Ok (o', sc') /\ shaped o' h w /\
      has o' Y X (sp_result (sp_at c Y X)) /\
      forall Y' X', (Y', X') <> (Y, X) -> same_at o' o Y' X'.
  Proof.
    intros Hh Hw HY HX ((s1 & s2) & (s3 & s4) & (s5 & s6) & (s7 & s8) & (s9 & s10) & (s11 & s12) & (s13 & s14))
      (b1 & b2 & b3).
    unfold step. rewrite !quot2. unfold sp_result. cbn [sp_at i_occ].
    destruct (any22 (c_occ c) (2 * Y) (2 * X)) eqn:Eocc; cbn [negb].
    - destruct (set_at_ok (o_m o) Y X h w (theo_demodulation S)) as (m & -> & m1 & m2 & m3 & m4); auto.
      destruct (put22_ok (o_phase o) Y X h w (phases S)) as (ph & Eph & p1 & p2 & p3 & p4); auto.
      destruct (put22_ok (o_tk o) Y X h w (all4 (p_t (tk_b S)))) as (tk & Etk & t1 & t2 & t3 & t4); auto.
      destruct (put22_ok (o_eff o) Y X h w (all4 (p_t (eff_b S)))) as (ef & Eef & e1 & e2 & e3 & e4); auto.
      cbn [bind]. rewrite Eph; cbn [bind]. rewrite Etk; cbn [bind]. rewrite Eef; cbn [bind].
      do 2 eexists. split; [reflexivity|]. split; [|split].
      + unfold shaped; cbn [o_m o_tk o_eff o_phase o_found o_cov o_chisq].
        rewrite m1, m2, p1, p2, t1, t2, e1, e2. repeat split; assumption.
      + unfold has; cbn [o_m o_tk o_eff o_phase o_found o_cov o_chisq unfitted x_m x_tk x_eff x_phase x_found x_cov x_chisq].
        split; [exact m3|]. split; [exact b2|]. intros k Hk.
        destruct (b3 k Hk) as (_ & _ & _ & c4 & c5).
        rewrite t3, e3, p3 by assumption. auto.
      + intros Y' X' Hn. unfold same_at; cbn [o_m o_tk o_eff o_phase o_found o_cov o_chisq].
        rewrite m4 by assumption. split; [reflexivity|]. split; [reflexivity|].
        intros k Hk. rewrite t4, e4, p4 by assumption. auto.
    - replace ((2 * Y + 2 <=? c_h c) && (2 * X + 2 <=? c_w c)) with true by lia. cbn [negb].
      pose proof (fit_pixels_spec c Y X sc) as Hf. cbn zeta in Hf.
      assert (Hfail : forall sc',
        fit_pixels S (zrange 4) (samples_at c (2 * Y) (2 * X)) (sigma_at c (2 * Y) (2 * X)) sc = (sc', false) ->
        exists o' sc'',
          (let '(sc, fit_success) :=
            fit_pixels S (zrange 4) (samples_at c (2 * Y) (2 * X)) (sigma_at c (2 * Y) (2 * X)) sc in
          if negb fit_success then
            let* m := set (o_m o) Y X (theo_demodulation S) in
            Ok (mkmaps m (o_tk o) (o_eff o) (o_phase o) (o_found o) (o_cov o) (o_chisq o), sc)
          else
          let demodulation_matrix := pinv S (modulation (s_params sc)) in
          let '(demodulation_matrix, fit_success) :=
            if big_numbers demodulation_matrix then (theo_demodulation S, false)
            else (demodulation_matrix, true) in
          let* m := set (o_m o) Y X demodulation_matrix in
          let* found := set (o_found o) Y X (if fit_success then 1 else 0)%R in
          let* cov := put22 (o_cov o) (2 * Y) (2 * X) (s_cov sc) in
          let* chisq := put22 (o_chisq o) (2 * Y) (2 * X) (s_chisq sc) in
          let* tk := put22 (o_tk o) (2 * Y) (2 * X) (map4 p_t (s_params sc)) in
          let* eff := put22 (o_eff o) (2 * Y) (2 * X) (map4 p_e (s_params sc)) in
          let* phase := put22 (o_phase o) (2 * Y) (2 * X) (map4 p_phi (s_params sc)) in
          Ok (mkmaps m tk eff phase found cov chisq, sc)) = Ok (o', sc'') /\
          shaped o' h w /\ has o' Y X unfitted /\
          forall Y' X', (Y', X') <> (Y, X) -> same_at o' o Y' X').
      { intros sc' ->. cbn [negb].
        destruct (set_at_ok (o_m o) Y X h w (theo_demodulation S)) as (m & -> & m1 & m2 & m3 & m4); auto.
        cbn [bind]. do 2 eexists. split; [reflexivity|]. split; [|split].
        - unfold shaped; cbn [o_m o_tk o_eff o_phase o_found o_cov o_chisq].
          rewrite m1, m2. repeat split; assumption.
        - unfold has; cbn [o_m o_tk o_eff o_phase o_found o_cov o_chisq unfitted x_m x_tk x_eff x_phase x_found x_cov x_chisq].
          split; [exact m3|]. split; [exact b2|]. exact b3.
        - intros Y' X' Hn. unfold same_at; cbn [o_m o_tk o_eff o_phase o_found o_cov o_chisq].
          rewrite m4 by assumption. auto 10. }
      destruct (fit1 (sp_at c Y X) 0) as [[p0 c0]|]; [|destruct Hf as (sc' & Hf); apply (Hfail sc' Hf)].
      destruct (fit1 (sp_at c Y X) 1) as [[p1 c1]|]; [|destruct Hf as (sc' & Hf); apply (Hfail sc' Hf)].
      destruct (fit1 (sp_at c Y X) 2) as [[p2 c2]|]; [|destruct Hf as (sc' & Hf); apply (Hfail sc' Hf)].
      destruct (fit1 (sp_at c Y X) 3) as [[p3 c3]|]; [|destruct Hf as (sc' & Hf); apply (Hfail sc' Hf)].
      clear Hfail. rewrite Hf. cbn [negb s_params s_cov s_chisq].
      set (P := mkfour p0 p1 p2 p3). set (C := mkfour c0 c1 c2 c3).
      set (D := pinv S (modulation P)).
      set (Q := x_chisq (fitted (sp_at c Y X) P C)).
      destruct (set_at_ok (o_m o) Y X h w (if big_numbers D then theo_demodulation S else D))
        as (m & Em & m1 & m2 & m3 & m4); auto.
      destruct (set_at_ok (o_found o) Y X h w (if big_numbers D then 0 else 1)%R)
        as (f & Ef & f1 & f2 & f3 & f4'); auto.
      destruct (put22_ok (o_cov o) Y X h w C) as (cv & Ecv & v1 & v2 & v3 & v4); auto.
      destruct (put22_ok (o_chisq o) Y X h w Q) as (cq & Ecq & q1 & q2 & q3 & q4); auto.
      destruct (put22_ok (o_tk o) Y X h w (map4 p_t P)) as (tk & Etk & t1 & t2 & t3 & t4); auto.
      destruct (put22_ok (o_eff o) Y X h w (map4 p_e P)) as (ef & Eef & e1 & e2 & e3 & e4); auto.
      destruct (put22_ok (o_phase o) Y X h w (map4 p_phi P)) as (ph & Eph & h1 & h2 & h3 & h4); auto.
      exists (mkmaps m tk ef ph f cv cq), (mkscratch P C Q). split; [|split; [|split]].
      + destruct (big_numbers D); rewrite Em; cbn [bind]; rewrite Ef; cbn [bind]; rewrite Ecv; cbn [bind];
          rewrite Ecq; cbn [bind]; rewrite Etk; cbn [bind]; rewrite Eef; cbn [bind]; rewrite Eph; reflexivity.
      + unfold shaped; cbn [o_m o_tk o_eff o_phase o_found o_cov o_chisq].
        rewrite m1, m2, f1, f2, v1, v2, q1, q2, t1, t2, e1, e2, h1, h2. repeat split; assumption.
      + unfold has; cbn [o_m o_tk o_eff o_phase o_found o_cov o_chisq].
        split; [exact m3|]. split; [exact f3|]. intros k Hk.
        rewrite t3, e3, h3, v3, q3 by assumption. auto.
      + intros Y' X' Hn. unfold same_at; cbn [o_m o_tk o_eff o_phase o_found o_cov o_chisq].
        rewrite m4, f4' by assumption. split; [reflexivity|]. split; [reflexivity|].
        intros k Hk. rewrite t4, e4, h4, v4, q4 by assumption. auto.
  Qed.

  Lemma same_has o o' Y X r : same_at o' o Y X -> has o Y X r -> has o' Y X r.
  Proof.
    intros (e1 & e2 & e3) (h1 & h2 & h3). split; [congruence|]. split; [congruence|].
    intros k Hk. destruct (e3 k Hk) as (a1 & a2 & a3 & a4 & a5).
    destruct (h3 k Hk) as (d1 & d2 & d3 & d4 & d5).
    rewrite a1, a2, a3, a4, a5. auto.
  Qed.

  Lemma range_len_2 n : 0 <= n -> range_len 0 (2 * n) 2 = n.
  Proof.
    intros Hn. unfold range_len. replace ((2 * n - 0 + 2 - 1) / 2) with n; [lia|].
    apply Z.div_unique with (r := 1); lia.
  Qed.

  Lemma compute_chunk_spec c h w :
    c_h c = 2 * h -> c_w c = 2 * w -> 0 <= h -> 0 <= w ->
    exists o, compute_chunk S c = Ok o /\ shaped o h w /\
      forall Y X, 0 <= Y < h -> 0 <= X < w -> has o Y X (sp_result (sp_at c Y X)).
  Proof.
    intros Hh Hw Ph Pw. unfold compute_chunk.
    set (Inv := fun (Y0 X0 : Z) (st : maps * scratch) =>
      shaped (fst st) h w /\
      forall Y X, 0 <= Y < h -> 0 <= X < w ->
        has (fst st) Y X (if (Y <? Y0) || ((Y =? Y0) && (X <? X0)) then sp_result (sp_at c Y X) else blank)).
    destruct (for_range_inv (fun k st => Inv k 0 st) 0 (c_h c) 2
      (fun super_y => for_range 0 (c_w c) 2 (fun super_x => step S c super_y super_x))
      (initial_maps S (c_h c) (c_w c), initial_scratch)) as ([o sc] & E & (Hs & Hv)).
    - lia.
    - split; cbn [fst].
      + unfold shaped, initial_maps, full. cbn [o_m o_tk o_eff o_phase o_found o_cov o_chisq rows cols].
        rewrite Hh, Hw, !quot2. repeat split.
      + intros Y X HY HX. replace (_ || _) with false by lia.
        unfold has, initial_maps, full, at4, blank.
        cbn [o_m o_tk o_eff o_phase o_found o_cov o_chisq cell x_m x_tk x_eff x_phase x_found x_cov x_chisq].
        split; [reflexivity|]. split; [reflexivity|]. intros k Hk. rewrite !f4_all.
        repeat (split; [reflexivity|]). split; [|auto].
        f_equal. pose proof (k_cases k Hk) as Hkc.
        assert (Z.modulo (2 * Y + k / 2) 2 = k / 2).
        { replace (2 * Y + k / 2) with (k / 2 + Y * 2) by lia. rewrite Z.mod_add by lia.
          apply Z.mod_small. lia. }
        assert (Z.modulo (2 * X + k mod 2) 2 = k mod 2).
        { replace (2 * X + k mod 2) with (k mod 2 + X * 2) by lia. rewrite Z.mod_add by lia.
          apply Z.mod_small. lia. }
        lia.
    - intros Y0 st HY0 Hlt HI. rewrite Hh in Hlt.
      destruct (for_range_inv (fun k st => Inv Y0 k st) 0 (c_w c) 2
        (fun super_x => step S c (0 + Y0 * 2) super_x) st) as (st' & E & HI'); [lia|exact HI| |].
      + intros X0 [o sc] HX0 Hltx (Hs & Hv). rewrite Hw in Hltx. cbn [fst] in Hs, Hv.
        replace (0 + Y0 * 2) with (2 * Y0) by lia. replace (0 + X0 * 2) with (2 * X0) by lia.
        destruct (step_spec c h w Y0 X0 o sc) as (o' & sc' & Es & Hs' & Hnew & Hold); try assumption; try lia.
        { specialize (Hv Y0 X0 ltac:(lia) ltac:(lia)).
          replace ((Y0 <? Y0) || ((Y0 =? Y0) && (X0 <? X0))) with false in Hv by lia. exact Hv. }
        exists (o', sc'). split; [exact Es|]. split; [exact Hs'|]. cbn [fst]. intros Y X HY HX.
        destruct (Z.eq_dec Y Y0) as [EY|NY]; [destruct (Z.eq_dec X X0) as [EX|NX]|].
        * subst Y X. replace (_ || _) with true by lia. exact Hnew.
        * assert (Hn : (Y, X) <> (Y0, X0)) by congruence.
          apply (same_has o); [apply Hold; exact Hn|].
          replace ((Y <? Y0) || ((Y =? Y0) && (X <? X0 + 1)))
            with ((Y <? Y0) || ((Y =? Y0) && (X <? X0))) by lia.
          apply Hv; assumption.
        * assert (Hn : (Y, X) <> (Y0, X0)) by congruence.
          apply (same_has o); [apply Hold; exact Hn|].
          replace ((Y <? Y0) || ((Y =? Y0) && (X <? X0 + 1)))
            with ((Y <? Y0) || ((Y =? Y0) && (X <? X0))) by lia.
          apply Hv; assumption.
      + exists st'. split; [exact E|]. rewrite Hw, range_len_2 in HI' by lia.
        destruct HI' as (Hs & Hv). split; [exact Hs|]. intros Y X HY HX.
        replace ((Y <? Y0 + 1) || ((Y =? Y0 + 1) && (X <? 0)))
          with ((Y <? Y0) || ((Y =? Y0) && (X <? w))) by lia.
        apply Hv; assumption.
    - rewrite E. cbn [bind]. exists o. split; [reflexivity|]. split; [exact Hs|].
      intros Y X HY HX. specialize (Hv Y X HY HX). cbn [fst] in Hv.
      rewrite Hh, range_len_2 in Hv by lia.
      replace ((Y <? h) || ((Y =? h) && (X <? 0))) with true in Hv by lia. exact Hv.
  Qed.
End Fit.
