(** The radial filter with sectors in binary64 (C145). *)
From Coq Require Import ZArith Reals Lra Lia Permutation Floats.SpecFloat.
From Flocq Require Import Core Relative BinarySingleNaN.
From Verif Require Import Base.Base Base.BaseFacts Base.Num Model.MeanFloat Model.LinRoi Model.Codec Model.NrgfFloat Model.PolarFloat Model.NrgfSector
  Spec.AngleSpec Spec.FloatSpec Spec.SumSpec Spec.CleanSpec Spec.MeanSpec Spec.RoiSpec Spec.RingSpec Spec.CodecSpec Spec.SectorSpec Spec.SectorFilterSpec
  Proofs.RoiFacts Proofs.NrgfFacts Proofs.RawFacts Proofs.FloatFacts Proofs.ExactFacts Proofs.RoundFacts Proofs.RoundPol Proofs.AnglesFloatFacts Proofs.LineFloatFacts
  Proofs.RingFacts Proofs.SectorFacts.
Local Open Scope R_scope.

#[local] Existing Instance Hprec.
#[local] Existing Instance Hmax.
#[local] Existing Instance fexp64_valid.
#[local] Existing Instance fexp64_mono.

(** ** The farthest pixel *)
Lemma rnd_root_ge (q r : Z) : (0 <= r < 2 ^ 25)%Z -> (0 <= q)%Z -> (IZR r <= rnd (sqrt (IZR q)) <-> IZR r <= sqrt (IZR q)).
Proof.
  intros Hr Hq. split; intros H.
  - destruct (Rle_or_lt (IZR r) (sqrt (IZR q))) as [K|K]; [exact K|exfalso].
    assert (R0 : 0 <= IZR r) by (apply IZR_le; lia).
    assert (Q : (q + 1 <= r * r)%Z).
    { apply Zlt_le_succ, lt_IZR. rewrite mult_IZR. rewrite <- (sqrt_sqrt (IZR q)) by (apply IZR_le; lia). pose proof (sqrt_pos (IZR q)). apply Rmult_le_0_lt_compat; assumption. }
    assert (Rp : (1 <= r)%Z) by (clear - Q Hq Hr; nia).
    set (t := fixed (r * 2 ^ 27 - 1) 27).
    assert (T : t = IZR r - bpow radix2 (-27)).
    { unfold t, fixed. rewrite minus_IZR, mult_IZR. change (bpow radix2 (Z.opp 27)) with (/ 134217728). change (bpow radix2 (-27)) with (/ 134217728). change (IZR (2 ^ 27)) with 134217728. field. }
    assert (B : 0 < bpow radix2 (-27)) by apply bpow_gt_0.
    assert (B1 : bpow radix2 (-27) <= 1) by (change 1 with (bpow radix2 0); apply bpow_le; lia).
    assert (R1 : 1 <= IZR r) by (apply IZR_le; exact Rp).
    assert (S : sqrt (IZR q) <= t).
    { rewrite <- (sqrt_square t) by (rewrite T; lra). apply sqrt_le_1_alt. apply Rle_trans with (IZR (r * r - 1)); [apply IZR_le; lia|].
      rewrite minus_IZR, mult_IZR, T. assert (R2 : IZR r <= bpow radix2 25) by (rewrite <- (IZR_Zpower radix2 25) by lia; apply IZR_le; change (radix2 ^ 25)%Z with (2 ^ 25)%Z; lia).
      assert (P : IZR r * bpow radix2 (-27) <= bpow radix2 (-2)).
      { apply Rle_trans with (bpow radix2 25 * bpow radix2 (-27)); [apply Rmult_le_compat_r; lra|]. rewrite <- bpow_plus. apply Rle_refl. }
      pose proof (Rle_0_sqr (bpow radix2 (-27))) as P2. unfold Rsqr in P2. change (bpow radix2 (-2)) with (/ 4) in *. lra. }
    apply rnd_mono in S. rewrite (rnd_same t) in S by (apply fixed_fmt; lia). lra.
  - rewrite <- (rnd_same (IZR r)) by (apply int_fmt; lia). apply rnd_mono, H.
Qed.

Lemma greatest_spec (l : list b64) : l <> [] -> (forall v, In v l -> is_value v (fval v)) ->
  exists m, greatest l = Ok m /\ In m l /\ forall v, In v l -> fval v <= fval m.
Proof.
  destruct l as [|v l]; [congruence|]. intros _. cbn [greatest]. revert v. induction l as [|w l IH]; intros v H; cbn [fold_left].
  - exists v. split; [reflexivity|]. split; [left; reflexivity|]. intros v' [<-|[]]. lra.
  - pose proof (H v (or_introl eq_refl)) as Vv. pose proof (H w (or_intror (or_introl eq_refl))) as Vw.
    rewrite (ltb_value _ _ _ _ Vv Vw). case Rlt_bool_spec; intros L.
    + destruct (IH w) as (m & E & I & G); [intros v' I'; apply H; right; exact I'|]. exists m. split; [exact E|]. split; [right; exact I|].
      intros v' [<-|I']; [|apply G, I']. pose proof (G w (or_introl eq_refl)). lra.
    + destruct (IH v) as (m & E & I & G); [intros v' [<-|I']; [exact Vv|apply H; right; right; exact I']|]. exists m. split; [exact E|].
      split; [destruct I as [I|I]; [left; exact I|right; right; exact I]|].
      intros v' [<-|[<-|I']]; [apply G; left; reflexivity| |apply G; right; exact I']. pose proof (G v (or_introl eq_refl)). lra.
Qed.

Lemma root_bound q : (q <= 2 ^ 45)%Z -> sqrt (IZR q) < IZR (2 ^ 23).
Proof.
  intros H. apply Rle_lt_trans with (sqrt (IZR (2 ^ 45))); [apply sqrt_le_1_alt, IZR_le, H|].
  rewrite <- (sqrt_square (IZR (2 ^ 23))) by (apply IZR_le; lia). apply sqrt_lt_1_alt. rewrite <- mult_IZR. split; [apply IZR_le; lia|apply IZR_lt; lia].
Qed.

Lemma farthest (h w cy cx : Z) : (0 < h <= 2 ^ 21)%Z -> (0 < w <= 2 ^ 21)%Z -> (Z.abs cy <= 2 ^ 21)%Z -> (Z.abs cx <= 2 ^ 21)%Z ->
  exists top rmax, greatest (concat (to_list (mkarr h w (distance (A := b64) cy cx)))) = Ok top /\ toint top = Ok rmax /\ (0 <= rmax <= 2 ^ 23)%Z /\
    forall r, (0 <= r)%Z -> ((r < rmax)%Z <-> exists y x, (0 <= y < h)%Z /\ (0 <= x < w)%Z /\ IZR (r + 1) <= dist y x cy cx).
Proof.
  intros Hh Hw Hcy Hcx. set (a := mkarr h w (distance (A := b64) cy cx)).
  assert (Hq : forall y x, (0 <= y < h)%Z -> (0 <= x < w)%Z -> ((y - cy) * (y - cy) + (x - cx) * (x - cx) <= 2 ^ 45)%Z).
  { intros y x Hy Hx. apply square_sum; lia. }
  assert (Q0 : forall y x, (0 <= (y - cy) * (y - cy) + (x - cx) * (x - cx))%Z) by (intros y x; pose proof (Z.square_nonneg (y - cy)); pose proof (Z.square_nonneg (x - cx)); lia).
  assert (V : forall y x, (0 <= y < h)%Z -> (0 <= x < w)%Z -> is_value (distance (A := b64) cy cx y x) (rnd (sqrt (IZR ((y - cy) * (y - cy) + (x - cx) * (x - cx)))))).
  { intros y x Hy Hx. apply distance_value. pose proof (Hq y x Hy Hx). lia. }
  destruct (greatest_spec (concat (to_list a))) as (m & Em & Im & Gm).
  { intros E. assert (I : In (cell a 0 0) (concat (to_list a))) by (apply in_concat_to_list; exists 0%Z, 0%Z; cbn; repeat split; lia). rewrite E in I. destruct I. }
  { intros v Iv. apply in_concat_to_list in Iv as (y & x & Hy & Hx & ->). cbn [a rows cols cell] in *. rewrite (value_val _ _ (V y x Hy Hx)). apply V; assumption. }
  apply in_concat_to_list in Im as (ym & xm & Hym & Hxm & Ev). cbn [a rows cols cell] in *.
  pose proof (V ym xm Hym Hxm) as Vm. rewrite <- Ev in Vm. set (qm := ((ym - cy) * (ym - cy) + (xm - cx) * (xm - cx))%Z) in *.
  exists m, (rtrunc (rnd (sqrt (IZR qm)))). split; [exact Em|]. split; [apply toint_value, Vm|].
  assert (P0 : 0 <= rnd (sqrt (IZR qm))).
  { rewrite <- (round_0 radix2 fexp64 (Znearest (fun t => negb (Z.even t)))). apply rnd_mono, sqrt_pos. }
  assert (P1 : rnd (sqrt (IZR qm)) <= IZR (2 ^ 23)).
  { rewrite <- (rnd_same (IZR (2 ^ 23))) by (apply int_fmt; lia). apply rnd_mono. left. apply root_bound, Hq; assumption. }
  destruct (rtrunc_spec (rnd (sqrt (IZR qm)))) as [T _]. specialize (T P0). set (rmax := rtrunc (rnd (sqrt (IZR qm)))) in *.
  assert (R0 : (0 <= rmax)%Z) by (assert (-1 < rmax)%Z by (apply lt_IZR; lra); lia).
  assert (R1 : (rmax <= 2 ^ 23)%Z) by (apply le_IZR; lra).
  split; [lia|]. intros r Hr. split.
  - intros L. exists ym, xm. split; [exact Hym|]. split; [exact Hxm|]. unfold dist. fold qm. apply rnd_root_ge; [lia|apply Q0|].
    assert (IZR (r + 1) <= IZR rmax) by (apply IZR_le; lia). lra.
  - intros (y & x & Hy & Hx & D). unfold dist in D.
    assert (Rb : (r + 1 < 2 ^ 25)%Z).
    { assert ((r + 1) < 2 ^ 23)%Z; [|lia]. apply lt_IZR. apply Rle_lt_trans with (1 := D). apply root_bound, Hq; assumption. }
    apply rnd_root_ge in D; [|lia|apply Q0].
    assert (I : In (distance (A := b64) cy cx y x) (concat (to_list a))) by (apply in_concat_to_list; exists y, x; repeat split; cbn; lia).
    apply Gm in I. rewrite (value_val _ _ (V y x Hy Hx)), (value_val _ _ Vm) in I.
    assert (r + 1 < rmax + 1)%Z; [|lia]. apply lt_IZR. rewrite (plus_IZR rmax). lra.
Qed.

(** ** Orders *)
Lemma depth_pixels {A} (o : order A) : (depth o < length (order_pixels o))%nat.
Proof. induction o as [v|l IHl r IHr]; cbn [depth order_pixels length]; [lia|]. rewrite app_length. lia. Qed.
Lemma plan_depth ps d pl : plan_for ps d pl -> plan_for ps (length ps) pl.
Proof.
  intros (N & (P1 & _) & (P2 & _)). split; [exact N|].
  split; (split; [assumption|]); [rewrite <- (Permutation_length P1)|rewrite <- (Permutation_length P2)]; apply Nat.lt_le_incl, depth_pixels.
Qed.

Lemma chosen_in h w c y x : In (y, x) (chosen h w c) <-> (0 <= y < h)%Z /\ (0 <= x < w)%Z /\ c y x = true.
Proof. unfold chosen. rewrite filter_In. cbn [fst snd]. rewrite in_prod_iff, !in_zrange. tauto. Qed.
Lemma nodup_app {A} (l m : list A) : NoDup l -> NoDup m -> (forall a, In a l -> ~ In a m) -> NoDup (l ++ m).
Proof.
  intros Hl Hm H. induction l as [|a l IH]; [exact Hm|]. apply NoDup_cons_iff in Hl as [N Hl]. cbn. constructor.
  - intros I. apply in_app_or in I as [I|I]; [contradiction|]. exact (H a (or_introl eq_refl) I).
  - apply IH; [exact Hl|]. intros b Ib. apply H. right. exact Ib.
Qed.
Lemma chosen_nodup h w c : NoDup (chosen h w c).
Proof.
  unfold chosen. apply NoDup_filter. pose proof (NoDup_zrange h) as Hh. pose proof (NoDup_zrange w) as Hw.
  induction (zrange h) as [|y l IH]; cbn; [constructor|]. apply NoDup_cons_iff in Hh as [N Hl].
  apply nodup_app; [apply FinFun.Injective_map_NoDup; [intros a b E; congruence|exact Hw]|apply IH, Hl|].
  intros [a b] I1 I2. apply in_map_iff in I1 as (b' & E & _). apply in_prod_iff in I2 as [I2 _]. injection E as -> _. contradiction.
Qed.
Lemma chosen_length h w c : (0 <= h)%Z -> (0 <= w)%Z -> (Z.of_nat (length (chosen h w c)) <= h * w)%Z.
Proof.
  intros Hh Hw. unfold chosen. assert (forall l : list (Z * Z), (length (filter (fun p => c (fst p) (snd p)) l) <= length l)%nat) as F.
  { induction l as [|p l IH]; cbn; [lia|]. destruct (c (fst p) (snd p)); cbn; lia. }
  specialize (F (list_prod (zrange h) (zrange w))). rewrite prod_length, !length_zrange in F. nia.
Qed.

(** ** The loop *)
Lemma rings_loop (ring : Z -> Z -> Z -> bool) (val : Z -> Z -> Z -> b64) h w rho_min rho_max step : (0 < step)%Z ->
  exists out, for_range rho_min rho_max step (fun r newdata =>
      Ok (mkarr h w (fun y x => if ring r y x then val r y x else cell newdata y x))) (full h w n0) = Ok out /\
    rows out = h /\ cols out = w /\ forall y x,
    ((forall k, (0 <= k)%Z -> (rho_min + k * step < rho_max)%Z -> ring (rho_min + k * step)%Z y x = false) -> cell out y x = n0) /\
    (forall k, (0 <= k)%Z -> (rho_min + k * step < rho_max)%Z -> ring (rho_min + k * step)%Z y x = true ->
      (forall j, (0 <= j)%Z -> (rho_min + j * step < rho_max)%Z -> ring (rho_min + j * step)%Z y x = true -> j = k) ->
      cell out y x = val (rho_min + k * step)%Z y x).
Proof.
  intros Hs.
  pose (Inv := fun (i : Z) (s : arr b64) => rows s = h /\ cols s = w /\ forall y x,
    ((forall k, (0 <= k < i)%Z -> ring (rho_min + k * step)%Z y x = false) -> cell s y x = n0) /\
    (forall k, (0 <= k < i)%Z -> ring (rho_min + k * step)%Z y x = true ->
      (forall j, (0 <= j < i)%Z -> ring (rho_min + j * step)%Z y x = true -> j = k) ->
      cell s y x = val (rho_min + k * step)%Z y x)).
  match goal with |- exists out, for_range _ _ _ ?b ?s = _ /\ _ => set (body := b); set (s0 := s) end.
  destruct (for_range_inv Inv rho_min rho_max step body s0 Hs) as (out & Eo & (Ro & Co & Vo)).
  - split; [reflexivity|]. split; [reflexivity|]. intros y x. split; [reflexivity|]. intros k Hk. lia.
  - intros i s Hi Hil (Rs & Cs & Vs). unfold body. eexists. split; [reflexivity|]. split; [reflexivity|]. split; [reflexivity|]. cbn [cell]. intros y x. split.
    + intros H. rewrite (H i ltac:(lia)). apply Vs. intros k Hk. apply H. lia.
    + intros k Hk Rk U. destruct (ring (rho_min + i * step)%Z y x) eqn:Ei.
      * rewrite (U i ltac:(lia) Ei). reflexivity.
      * apply Vs; [|exact Rk|intros j Hj; apply U; lia]. destruct (Z.eq_dec k i) as [->|Ne]; [congruence|lia].
  - exists out. split; [exact Eo|]. split; [exact Ro|]. split; [exact Co|]. intros y x. destruct (Vo y x) as [V1 V2]. split.
    + intros H. apply V1. intros k Hk. apply H; [lia|]. apply range_len_lt; lia.
    + intros k Hk Hl Rk U. apply V2; [split; [exact Hk|apply range_len_lt; assumption]|exact Rk|].
      intros j Hj. apply U; [lia|]. apply range_len_lt; lia.
Qed.

(** ** A pixel of the output *)
Lemma sector_value (data : arr b64) ps d pl top y x : plan_for ps d pl -> ps <> [] ->
  counts_at top ps data -> (0 <= top)%Z -> (exists m, (0 <= m <= top)%Z /\ is_value (cell data y x) (IZR m)) ->
  (Z.of_nat (length ps) <= 2 ^ 40)%Z -> (Z.of_nat (length ps) * top < 2 ^ 50)%Z ->
  let f y x := fval (cell data y x) in let out := ring_output data (Some pl) (cell data y x) in
  ((forall y1 x1 y2 x2, In (y1, x1) ps -> In (y2, x2) ps -> f y1 x1 = f y2 x2) -> out = n0) /\
  ((exists y1 x1 y2 x2, In (y1, x1) ps /\ In (y2, x2) ps /\ f y1 x1 <> f y2 x2) ->
   let z := (f y x - RingSpec.average ps f) / deviation ps f in
   0 < deviation ps f /\ finite64 out /\ Rabs (fval out - z) <= ((4 * IZR top + 8) * INR (length ps) + 24) * powerRZ 2 (-53) * (1 + Rabs z)).
Proof.
  intros Hpl Hne Hc Ht Hy HD Hn f out. apply plan_depth in Hpl.
  assert (HN : (Z.of_nat (length ps) < 2 ^ 50)%Z) by lia. assert (HT : (Z.of_nat (length ps) * top < 2 ^ 53)%Z) by lia.
  split.
  - intros Hu. assert (E : exists y0 x0, In (y0, x0) ps) by (destruct ps as [|[y0 x0] l]; [congruence|exists y0, x0; left; reflexivity]).
    destruct E as (y0 & x0 & I0). exact (c132_uniform data ps _ pl top Hpl HD HN Hc Ht HT y x y0 x0 Hy I0 (fun y' x' I' => Hu y' x' y0 x0 I' I0)).
  - intros (y1 & x1 & y2 & x2 & I1 & I2 & Ne) z.
    assert (S0 : 0 < deviation ps f).
    { rewrite deviation_rms. destruct (sqrt_pos (total (map (fun p => (f (fst p) (snd p) - RingSpec.average ps f) * (f (fst p) (snd p) - RingSpec.average ps f)) ps) / INR (length ps))) as [P|Z]; [exact P|exfalso].
      symmetry in Z. pose proof (rms_zero ps (fun p => f (fst p) (snd p) - RingSpec.average ps f) Hne Z) as A.
      pose proof (A _ I1) as A1. pose proof (A _ I2) as A2. cbn [fst snd] in A1, A2. lra. }
    assert (N : 1 <= INR (length ps)) by (apply (le_INR 1); destruct ps; [congruence|cbn; lia]).
    pose proof (counts_spread data ps _ pl top Hpl HD HN Hc Ht HT S0) as Sp. fold f in Sp.
    assert (HT' : IZR top * INR (length ps) <= 1125899906842624) by (rewrite INR_IZR_INZ, <- mult_IZR; apply IZR_le; lia).
    pose proof (c132_counts data ps _ pl top Hpl HD HN Hc Ht HT y x Hy Hne) as K. cbv zeta in K. fold f in K. fold z in K.
    set (s := deviation ps f) in *. set (n := INR (length ps)) in *.
    assert (Uv : u = / 9007199254740992) by reflexivity.
    assert (T0 : 0 <= IZR top) by (apply IZR_le, Ht).
    assert (Si : / s <= n) by (rewrite <- (Rinv_inv n); apply Rinv_le_contravar; [apply Rinv_0_lt_compat; lra|exact Sp]).
    assert (K1 : 4 * IZR top * u <= s).
    { apply Rle_trans with (/ n); [|exact Sp]. apply Rmult_le_reg_r with n; [lra|]. rewrite Rinv_l, Uv by lra. lra. }
    destruct (K S0 K1) as [V B]. split; [exact S0|]. split; [exact (proj1 (proj2 V))|].
    fold out in B. apply Rle_trans with (1 := B). apply Rmult_le_compat_r; [pose proof (Rabs_pos z); lra|].
    replace (powerRZ 2 (-53)) with u by (rewrite <- (bpow_powerRZ radix2); reflexivity). apply Rmult_le_compat_r; [rewrite Uv; lra|].
    assert (4 * IZR top / s <= 4 * IZR top * n) by (unfold Rdiv; apply Rmult_le_compat_l; lra). lra.
Qed.

Lemma c145_filter at2 orders (data : arr b64) cy cx rho_min step m1 m2 o1 o2 top : usual_arctan2 at2 -> adds_all orders ->
  (0 < rows data <= 2 ^ 21)%Z -> (0 < cols data <= 2 ^ 21)%Z -> (Z.abs cy <= 2 ^ 21)%Z -> (Z.abs cx <= 2 ^ 21)%Z ->
  (0 <= rho_min)%Z -> (0 < step <= 2 ^ 24)%Z -> round_angle m1 -> round_angle m2 -> round_angle o1 -> round_angle o2 ->
  (Z.abs m1 < 2 ^ 53)%Z -> (Z.abs m2 < 2 ^ 53)%Z -> (Z.abs o1 < 2 ^ 53)%Z -> (Z.abs o2 < 2 ^ 53)%Z ->
  (0 <= top)%Z -> (rows data * cols data <= 2 ^ 40)%Z -> (rows data * cols data * top < 2 ^ 50)%Z ->
  (forall y x, (0 <= y < rows data)%Z -> (0 <= x < cols data)%Z -> exists m, (0 <= m <= top)%Z /\ is_value (cell data y x) (IZR m)) ->
  let h := rows data in let w := cols data in let f y x := fval (cell data y x) in
  exists out, nrgf64 at2 orders data cy cx rho_min step (nofZ m1) (nofZ m2) (nofZ o1) (nofZ o2) = Ok out /\ rows out = h /\ cols out = w /\
  forall y x, (0 <= y < h)%Z -> (0 <= x < w)%Z ->
    let sector r := in_sector (IZR y - IZR cy) (IZR x - IZR cx) (IZR r) (IZR (r + step)) (IZR o1) (IZR o2) in
    ((forall r, treated h w cy cx rho_min step r -> ~ sector r) -> cell out y x = n0) /\
    (forall r, treated h w cy cx rho_min step r -> sector r -> exists ps, lists_ring ps h w cy cx r step (IZR m1) (IZR m2) /\
      ((forall y1 x1 y2 x2, In (y1, x1) ps -> In (y2, x2) ps -> f y1 x1 = f y2 x2) -> cell out y x = n0) /\
      ((exists y1 x1 y2 x2, In (y1, x1) ps /\ In (y2, x2) ps /\ f y1 x1 <> f y2 x2) ->
       let z := (f y x - RingSpec.average ps f) / deviation ps f in
       0 < deviation ps f /\ finite64 (cell out y x) /\
       Rabs (fval (cell out y x) - z) <= ((4 * IZR top + 8) * INR (length ps) + 24) * powerRZ 2 (-53) * (1 + Rabs z))).
Proof.
  intros Ha (Ho0 & Ho) Hh Hw Hcy Hcx Hm Hs Rm1 Rm2 Ro1 Ro2 Zm1 Zm2 Zo1 Zo2 Ht Hn Hnt Hd h w f.
  destruct (farthest h w cy cx Hh Hw Hcy Hcx) as (tp & rmax & Eg & Et & Bm & Far).
  unfold nrgf64. fold h w. rewrite Eg. cbn [bind]. rewrite Et. cbn [bind].
  destruct (Z.eqb_spec step 0) as [E|_]; [lia|]. destruct (Z.ltb_spec step 0) as [E|_]; [lia|].
  destruct (rings_loop (fun r y x => in_ring (A := b64) cy cx r step y x && between64 at2 (nofZ o1) (nofZ o2) cy cx y x)
    (fun r y x => ring_output data (orders (chosen h w (fun y x => in_ring (A := b64) cy cx r step y x && between64 at2 (nofZ m1) (nofZ m2) cy cx y x))) (cell data y x))
    h w rho_min rmax step (proj1 Hs)) as (out & Eo & Ro & Co & Vo).
  exists out. split; [exact Eo|]. split; [exact Ro|]. split; [exact Co|].
  assert (Sel : forall r a b z1 z2, (0 <= r < rmax)%Z -> (0 <= a < h)%Z -> (0 <= b < w)%Z -> round_angle z1 -> round_angle z2 -> (Z.abs z1 < 2 ^ 53)%Z -> (Z.abs z2 < 2 ^ 53)%Z ->
    (in_ring (A := b64) cy cx r step a b && between64 at2 (nofZ z1) (nofZ z2) cy cx a b = true <->
     in_sector (IZR a - IZR cy) (IZR b - IZR cx) (IZR r) (IZR (r + step)) (IZR z1) (IZR z2))).
  { intros r a b z1 z2 Hr Hy Hx R1 R2 Z1 Z2.
    rewrite <- (selected_round at2 cy cx r (r + step) z1 z2 a b Ha ltac:(lia) ltac:(lia) ltac:(apply square_sum; lia) R1 R2 Z1 Z2). reflexivity. }
  assert (Tr : forall r, treated h w cy cx rho_min step r <-> exists k, (0 <= k)%Z /\ r = (rho_min + k * step)%Z /\ (r < rmax)%Z).
  { intros r. unfold treated. split.
    - intros ((k & Hk & Er) & E). exists k. split; [exact Hk|]. split; [exact Er|]. apply Far; [clear - Hk Er Hm Hs; nia|exact E].
    - intros (k & Hk & Er & L). split; [exists k; split; assumption|]. apply Far in L; [exact L|clear - Hk Er Hm Hs; nia]. }
  intros y x Hy Hx. destruct (Vo y x) as [V1 V2]. cbv beta in V1, V2. split.
  - intros Hno. apply V1. intros k Hk Hl. apply not_true_iff_false. intros K.
    assert (K0 : (0 <= rho_min + k * step)%Z) by (clear - Hk Hm Hs; nia).
    apply Sel in K; try assumption; [|lia]. apply (Hno (rho_min + k * step)%Z); [|exact K]. apply Tr. exists k. repeat split; assumption.
  - intros r Hr Hsec. apply Tr in Hr as (k & Hk & Er & L). assert (R0 : (0 <= r)%Z) by (clear - Hk Er Hm Hs; nia).
    set (ps := chosen h w (fun y x => in_ring (A := b64) cy cx r step y x && between64 at2 (nofZ m1) (nofZ m2) cy cx y x)).
    exists ps. split.
    { split; [apply chosen_nodup|]. intros a b. unfold ps. rewrite chosen_in. split.
      - intros (Ia & Ib & K). split; [exact Ia|]. split; [exact Ib|]. apply Sel in K; try assumption. lia.
      - intros (Ia & Ib & K). split; [exact Ia|]. split; [exact Ib|]. apply Sel; try assumption. lia. }
    assert (Ec : cell out y x = ring_output data (orders ps) (cell data y x)).
    { unfold ps. rewrite Er. apply V2; [exact Hk|lia| |].
      - rewrite <- Er. apply Sel; try assumption. lia.
      - intros j Hj Hjl K. assert (J0 : (0 <= rho_min + j * step)%Z) by (clear - Hj Hm Hs; nia). apply Sel in K; try assumption; [|lia].
        destruct K as (rho & phi & P1 & D1 & _). destruct Hsec as (rho' & phi' & P2 & D2 & _).
        assert (rho = rho') as <- by exact (proj1 (polar_unique _ _ _ _ _ _ P1 P2)).
        rewrite Er in D2. assert (A1 : (rho_min + j * step < rho_min + k * step + step)%Z) by (apply lt_IZR; lra). assert (A2 : (rho_min + k * step < rho_min + j * step + step)%Z) by (apply lt_IZR; lra).
        clear - A1 A2 Hs. nia. }
    rewrite Ec. assert (Dec : ps = [] \/ ps <> []) by (destruct ps; [left; reflexivity|right; congruence]). destruct Dec as [E|Ne].
    + rewrite E, Ho0. split; [reflexivity|]. intros (y1 & x1 & y2 & x2 & I1 & _). destruct I1.
    + destruct (Ho ps Ne) as (d & pl & Epl & Hpl). rewrite Epl. pose proof (chosen_length h w (fun y x => in_ring (A := b64) cy cx r step y x && between64 at2 (nofZ m1) (nofZ m2) cy cx y x) ltac:(lia) ltac:(lia)) as Ln. fold ps in Ln.
      apply (sector_value data ps d pl top y x Hpl Ne); [|exact Ht|apply Hd; assumption|fold h w in Hn; lia|fold h w in Hnt; clear - Ln Hnt Ht; nia].
      intros a b Iab. apply chosen_in in Iab as (Ia & Ib & _). apply Hd; assumption.
Qed.

Lemma c145_empty at2 orders (data : arr b64) cy cx rho_min step m1 m2 o1 o2 : (rows data <= 0 \/ cols data <= 0)%Z ->
  nrgf64 at2 orders data cy cx rho_min step m1 m2 o1 o2 = Raise ValueError.
Proof.
  intros H. unfold nrgf64. destruct (concat _) as [|v l] eqn:E; [reflexivity|exfalso].
  assert (I : In v (v :: l)) by (left; reflexivity). rewrite <- E in I. apply in_concat_to_list in I as (y & x & Hy & Hx & _). cbn [rows cols] in *. lia.
Qed.
Lemma c145_step at2 orders (data : arr b64) cy cx rho_min step m1 m2 o1 o2 :
  (0 < rows data <= 2 ^ 21)%Z -> (0 < cols data <= 2 ^ 21)%Z -> (Z.abs cy <= 2 ^ 21)%Z -> (Z.abs cx <= 2 ^ 21)%Z -> (step <= 0)%Z ->
  nrgf64 at2 orders data cy cx rho_min step m1 m2 o1 o2 = if (step =? 0)%Z then Raise ValueError else Ok (full (rows data) (cols data) (S754_zero false)).
Proof.
  intros Hh Hw Hcy Hcx Hs. destruct (farthest _ _ _ _ Hh Hw Hcy Hcx) as (tp & rmax & Eg & Et & _). unfold nrgf64. rewrite Eg. cbn [bind]. rewrite Et. cbn [bind].
  destruct (Z.eqb_spec step 0) as [E|N]; [reflexivity|]. destruct (Z.ltb_spec step 0) as [L|L]; [reflexivity|lia].
Qed.

(** One pixel after the other *)
Definition one_by_one (ps : list (Z * Z)) : option ring_plan :=
  match ps with
  | [] => None
  | p :: l => let o := fold_left (fun o p => Plus o (Pixel p)) l (Pixel p) in Some (mkplan o o (Z.of_nat (length ps)))
  end.
Lemma one_by_one_adds : adds_all one_by_one.
Proof.
  split; [reflexivity|]. intros [|p l] Hne; [congruence|]. cbn [one_by_one]. set (o := fold_left _ l (Pixel p)).
  assert (E : forall l o, order_pixels (fold_left (fun o (p : Z * Z) => Plus o (Pixel p)) l o) = order_pixels o ++ l).
  { clear. induction l as [|p l IH]; intros o; cbn [fold_left]; [symmetry; apply app_nil_r|]. rewrite IH. cbn [order_pixels]. rewrite <- app_assoc. reflexivity. }
  assert (P : Permutation (order_pixels o) (p :: l)) by (unfold o; rewrite E; apply Permutation_refl).
  exists (depth o), (mkplan o o (Z.of_nat (length (p :: l)))). split; [reflexivity|]. split; [reflexivity|]. cbn [sum_mean sum_squares]. repeat split; (exact P || lia).
Qed.

Lemma c145_case_sectors : in_sector (IZR 3 - IZR 2) (IZR 2 - IZR 2) (IZR 0) (IZR (0 + 2)) (IZR 90) (IZR 180) /\
  in_sector (IZR 2 - IZR 2) (IZR 3 - IZR 2) (IZR 0) (IZR (0 + 2)) (IZR 0) (IZR 90) /\ in_sector (IZR 2 - IZR 2) (IZR 4 - IZR 2) (IZR 0) (IZR (0 + 2)) (IZR 0) (IZR 90).
Proof.
  change (0 + 2)%Z with 2%Z. split; [|split].
  - exists 1, 90. split; [|lra]. unfold polar_of. replace (90 / 180 * PI) with (PI / 2) by field. rewrite cos_PI2, sin_PI2. repeat split; lra.
  - exists 1, 0. split; [|lra]. unfold polar_of. replace (0 / 180 * PI) with 0 by field. rewrite cos_0, sin_0. repeat split; lra.
  - exists 2, 0. split; [|lra]. unfold polar_of. replace (0 / 180 * PI) with 0 by field. rewrite cos_0, sin_0. repeat split; lra.
Qed.
Lemma c145_case_counts : let data := mkarr 5 5 (fun y x => nofZ (y + x)) in
  (forall y x, (0 <= y < rows data)%Z -> (0 <= x < cols data)%Z -> exists m, (0 <= m <= 8)%Z /\ is_value (cell data y x) (IZR m)) /\
  fval (cell data 2 3) <> fval (cell data 2 4).
Proof.
  cbn [rows cols cell]. split; [intros y x Hy Hx; exists (y + x)%Z; split; [lia|apply ofZ_value; lia]|].
  rewrite (value_val _ _ (ofZ_value (2 + 3) ltac:(lia))), (value_val _ _ (ofZ_value (2 + 4) ltac:(lia))). apply Rlt_not_eq, IZR_lt. lia.
Qed.
