From Coq Require Import Reals Lra.
From Verif Require Import Base.Base Base.Num Base.BaseFacts Model.Roi Model.Nrgf Model.Pol
  Model.Codec Spec.RoiSpec Spec.SumSpec Spec.CodecSpec Proofs.PolFacts Proofs.RawFacts
  Proofs.RoiFacts Proofs.SumFacts.
From Coq Require Import ZifyBool.
Local Open Scope R_scope.

(** ** Masked sums *)

Definition msum (h w : Z) (P : Z -> Z -> bool) (f : Z -> Z -> R) : R :=
  rsum2 h w (fun y x => if P y x then f y x else 0).

Lemma msum_ext h w P Q f g :
  (forall y x, (0 <= y < h)%Z -> (0 <= x < w)%Z -> P y x = Q y x) ->
  (forall y x, (0 <= y < h)%Z -> (0 <= x < w)%Z -> Q y x = true -> f y x = g y x) ->
  msum h w P f = msum h w Q g.
Proof.
  intros H1 H2. apply rsum2_ext. intros y x Hy Hx. rewrite H1 by assumption.
  destruct (Q y x) eqn:E; [apply H2; assumption|reflexivity].
Qed.

Lemma msum_plus h w P f g : msum h w P (fun y x => f y x + g y x) = msum h w P f + msum h w P g.
Proof.
  unfold msum. rewrite <- rsum2_plus. apply rsum2_ext. intros y x _ _.
  destruct (P y x); lra.
Qed.

Lemma msum_scal h w P c f : msum h w P (fun y x => c * f y x) = c * msum h w P f.
Proof.
  unfold msum. rewrite <- rsum2_scal. apply rsum2_ext. intros y x _ _. destruct (P y x); lra.
Qed.

Lemma rsum_nonneg n f : (forall i, (0 <= i < n)%Z -> 0 <= f i) -> 0 <= rsum n f.
Proof. intros H. rewrite <- (rsum_zero n). apply rsum_le. exact H. Qed.

Lemma rsum_pos n f i :
  (forall j, (0 <= j < n)%Z -> 0 <= f j) -> (0 <= i < n)%Z -> 0 < f i -> 0 < rsum n f.
Proof.
  intros H Hi Hf. assert (Hn : (0 <= n)%Z) by lia. revert i Hi Hf H. pattern n.
  apply zpos_ind; [lia| |exact Hn].
  intros m Hm IH i Hi Hf H. rewrite rsum_succ by lia.
  destruct (Z.eq_dec i m) as [->|Hne].
  - assert (0 <= rsum m f) by (apply rsum_nonneg; intros; apply H; lia). lra.
  - assert (0 < rsum m f) by (apply (IH i); [lia|assumption|intros; apply H; lia]).
    assert (0 <= f m) by (apply H; lia). lra.
Qed.

Lemma msum_nonneg h w P f :
  (forall y x, (0 <= y < h)%Z -> (0 <= x < w)%Z -> P y x = true -> 0 <= f y x) -> 0 <= msum h w P f.
Proof.
  intros H. apply rsum_nonneg. intros y Hy. apply rsum_nonneg. intros x Hx.
  destruct (P y x) eqn:E; [apply H; assumption|lra].
Qed.

Lemma msum_pos h w P f y x :
  (forall y x, (0 <= y < h)%Z -> (0 <= x < w)%Z -> P y x = true -> 0 <= f y x) ->
  (0 <= y < h)%Z -> (0 <= x < w)%Z -> P y x = true -> 0 < f y x -> 0 < msum h w P f.
Proof.
  intros H Hy Hx HP Hf. apply (rsum_pos _ _ y); [|exact Hy|].
  - intros j Hj. apply rsum_nonneg. intros i Hi.
    destruct (P j i) eqn:E; [apply H; assumption|lra].
  - apply (rsum_pos _ _ x); [|exact Hx|rewrite HP; exact Hf].
    intros i Hi. destruct (P y i) eqn:E; [apply H; assumption|lra].
Qed.

Lemma msum_zero h w P f :
  (forall y x, (0 <= y < h)%Z -> (0 <= x < w)%Z -> P y x = true -> f y x = 0) -> msum h w P f = 0.
Proof.
  intros H. rewrite (msum_ext h w P P f (fun y x => 0 * 1)).
  - rewrite msum_scal. ring.
  - reflexivity.
  - intros y x Hy Hx HP. rewrite H by assumption. ring.
Qed.

(** Mean and standard deviation of [f] over [P]. *)
Section MeanStd.
  Variables (h w : Z) (P : Z -> Z -> bool) (f : Z -> Z -> R).
  Let n := msum h w P (fun _ _ => 1).
  Let m := msum h w P f / n.
  Let v := msum h w P (fun y x => (f y x - m) * (f y x - m)).

  Lemma dev_sum : n <> 0 -> msum h w P (fun y x => f y x - m) = 0.
  Proof.
    intros Hn.
    rewrite (msum_ext h w P P _ (fun y x => f y x + (- m) * 1)) by (intros; ring || reflexivity).
    rewrite msum_plus, msum_scal. fold n. unfold m. field. exact Hn.
  Qed.

  Lemma var_nonneg : 0 <= v.
  Proof. apply msum_nonneg. intros. apply Rle_0_sqr. Qed.

  Lemma count_pos y x : (0 <= y < h)%Z -> (0 <= x < w)%Z -> P y x = true -> 0 < n.
  Proof. intros Hy Hx HP. apply (msum_pos _ _ _ _ y x); try assumption; intros; lra. Qed.

  Lemma var_pos y x y' x' :
    (0 <= y < h)%Z -> (0 <= x < w)%Z -> P y x = true ->
    (0 <= y' < h)%Z -> (0 <= x' < w)%Z -> P y' x' = true ->
    f y x <> f y' x' -> 0 < v.
  Proof.
    intros Hy Hx HP Hy' Hx' HP' Hne.
    assert (Hd : f y x <> m \/ f y' x' <> m).
    { destruct (Req_dec (f y x) m) as [E|E]; [right|left; exact E]. congruence. }
    destruct Hd as [Hd|Hd]; [apply (msum_pos _ _ _ _ y x)|apply (msum_pos _ _ _ _ y' x')];
      try assumption; try (intros; apply Rle_0_sqr); nra.
  Qed.

  Lemma const_mean c :
    n <> 0 -> (forall y x, (0 <= y < h)%Z -> (0 <= x < w)%Z -> P y x = true -> f y x = c) ->
    m = c /\ v = 0.
  Proof.
    intros Hn H.
    assert (Em : m = c).
    { unfold m. rewrite (msum_ext h w P P f (fun y x => c * 1)).
      - rewrite msum_scal. fold n. field. exact Hn.
      - reflexivity.
      - intros y x Hy Hx HP. rewrite H by assumption. ring. }
    split; [exact Em|]. apply msum_zero. intros y x Hy Hx HP. rewrite Em, H by assumption. ring.
  Qed.
End MeanStd.

(** ** The filter *)

Lemma range_len_lt lo hi step k :
  (0 < step)%Z -> (0 <= k)%Z -> ((k < range_len lo hi step)%Z <-> (lo + k * step < hi)%Z).
Proof.
  intros Hs Hk. unfold range_len. split; intros H.
  - assert (H' : (k + 1 <= (hi - lo + step - 1) / step)%Z) by lia.
    pose proof (Z.mul_div_le (hi - lo + step - 1) step Hs). nia.
  - assert (H' : (k + 1 <= (hi - lo + step - 1) / step)%Z).
    { apply Z.div_le_lower_bound; [exact Hs|]. nia. }
    lia.
Qed.

Definition ringb (yc xc : R) (r step : Z) (t : R * R) (y x : Z) : bool :=
  (Rltb (IZR r) (rho_at yc xc y x) && Rleb (rho_at yc xc y x) (IZR (r + step))) &&
  (Rleb (fst t) (phi_at yc xc y x) && Rltb (phi_at yc xc y x) (snd t)).

Definition ring_value (data : arr R) (yc xc : R) (r step : Z) (tm : R * R) (y x : Z) : R :=
  let P := ringb yc xc r step tm in
  let n := msum (rows data) (cols data) P (fun _ _ => 1) in
  let m := msum (rows data) (cols data) P (cell data) / n in
  let s := sqrt (msum (rows data) (cols data) P (fun y x => (cell data y x - m) * (cell data y x - m)) / n) in
  if Reqb n 0 then 0 else if Rltb 0 s then (cell data y x - m) / s else 0.

Lemma fold_left_Rmax l : forall v,
  v <= fold_left Rmax l v /\ (forall u, In u l -> u <= fold_left Rmax l v) /\
  (fold_left Rmax l v = v \/ In (fold_left Rmax l v) l).
Proof.
  induction l as [|a l IH]; intros v; cbn [fold_left].
  - split; [lra|]. split; [intros u []|auto].
  - destruct (IH (Rmax v a)) as (H1 & H2 & H3).
    pose proof (Rmax_l v a). pose proof (Rmax_r v a).
    split; [lra|]. split.
    + intros u [<-|Hu]; [lra|auto].
    + destruct H3 as [H3|H3]; [|right; right; exact H3].
      rewrite H3. unfold Rmax. destruct (Rle_dec v a); [right; left; reflexivity|left; reflexivity].
Qed.

Lemma in_concat_to_list {A} (a : arr A) v :
  In v (concat (to_list a)) <->
  exists y x, (0 <= y < rows a)%Z /\ (0 <= x < cols a)%Z /\ v = cell a y x.
Proof.
  rewrite in_concat. unfold to_list. split.
  - intros (l & Hl & Hv). apply in_map_iff in Hl. destruct Hl as (y & <- & Hy).
    apply in_map_iff in Hv. destruct Hv as (x & <- & Hx).
    apply in_zrange in Hy, Hx. eauto.
  - intros (y & x & Hy & Hx & ->). eexists. split.
    + apply in_map_iff. exists y. split; [reflexivity|]. apply in_zrange. exact Hy.
    + apply in_map_iff. exists x. split; [reflexivity|]. apply in_zrange. exact Hx.
Qed.

Lemma amax_spec (a : arr R) :
  ((rows a <= 0 \/ cols a <= 0)%Z -> amax a = Raise ValueError) /\
  ((0 < rows a)%Z -> (0 < cols a)%Z ->
   exists m, amax a = Ok m /\
     (forall y x, (0 <= y < rows a)%Z -> (0 <= x < cols a)%Z -> cell a y x <= m) /\
     exists y x, (0 <= y < rows a)%Z /\ (0 <= x < cols a)%Z /\ m = cell a y x).
Proof.
  unfold amax. split.
  - intros H. destruct (concat (to_list a)) as [|v l] eqn:E; [reflexivity|].
    assert (Hv : In v (concat (to_list a))) by (rewrite E; left; reflexivity).
    apply in_concat_to_list in Hv. destruct Hv as (y & x & Hy & Hx & _). lia.
  - intros Hr Hc. destruct (concat (to_list a)) as [|v l] eqn:E.
    + assert (Hin : In (cell a 0 0) (concat (to_list a)))
        by (apply in_concat_to_list; exists 0%Z, 0%Z; repeat split; lia).
      rewrite E in Hin. destruct Hin.
    + eexists; split; [reflexivity|]. destruct (fold_left_Rmax l v) as (H1 & H2 & H3). split.
      * intros y x Hy Hx.
        assert (Hin : In (cell a y x) (v :: l)) by (rewrite <- E; apply in_concat_to_list; eauto).
        destruct Hin as [<-|Hin]; auto.
      * apply in_concat_to_list. rewrite E. destruct H3 as [->|H3]; [left; reflexivity|right; exact H3].
Qed.

Lemma masked_is_msum mask f : masked_sum mask f = msum (rows mask) (cols mask) (cell mask) f.
Proof. reflexivity. Qed.

Lemma nrgf_spec data y0 x0 cy cx rho_min step tm to out :
  truncated y0 cy -> truncated x0 cx -> (0 < step)%Z ->
  nrgf data y0 x0 rho_min step tm to = Ok out ->
  exists rmax : Z,
    (forall r : Z, (r < rmax)%Z <->
       exists y x, (0 <= y < rows data)%Z /\ (0 <= x < cols data)%Z /\
         IZR (r + 1) <= rho_at (IZR cy) (IZR cx) y x) /\
    rows out = rows data /\ cols out = cols data /\
    forall y x, (0 <= y < rows data)%Z -> (0 <= x < cols data)%Z ->
      (forall k, (0 <= k)%Z -> (rho_min + k * step < rmax)%Z ->
         ringb (IZR cy) (IZR cx) (rho_min + k * step) step to y x = true ->
         cell out y x = ring_value data (IZR cy) (IZR cx) (rho_min + k * step) step tm y x) /\
      ((forall k, (0 <= k)%Z -> (rho_min + k * step < rmax)%Z ->
          ringb (IZR cy) (IZR cx) (rho_min + k * step) step to y x = false) ->
       cell out y x = 0).
Proof.
  intros Hcy Hcx Hs E. unfold nrgf, nrgf_from, map_polar_coordinates in E.
  rewrite (truncated_unique _ _ _ (rtrunc_spec y0) Hcy), (truncated_unique _ _ _ (rtrunc_spec x0) Hcx) in E.
  destruct (amax_spec (mkarr (rows data) (cols data) (rho_at (IZR cy) (IZR cx)))) as [Hem Hmx].
  cbn [rows cols cell] in Hem, Hmx.
  destruct (Z_le_gt_dec (rows data) 0) as [Hr|Hr]; [rewrite Hem in E by lia; discriminate|].
  destruct (Z_le_gt_dec (cols data) 0) as [Hc|Hc]; [rewrite Hem in E by lia; discriminate|].
  destruct (Hmx ltac:(lia) ltac:(lia)) as (m & Em & Hle & (ym & xm & Hym & Hxm & Hm)).
  rewrite Em in E. cbn [bind] in E.
  replace (step =? 0)%Z with false in E by lia. replace (step <? 0)%Z with false in E by lia.
  exists (rtrunc m).
  assert (Hm0 : 0 <= m) by (rewrite Hm; apply sqrt_pos).
  split.
  { pose proof (rtrunc_spec m) as [Ht _]. specialize (Ht Hm0). intros r. split.
    - intros Hlt. exists ym, xm. split; [exact Hym|]. split; [exact Hxm|]. rewrite <- Hm.
      assert (IZR (r + 1) <= IZR (rtrunc m)) by (apply IZR_le; lia). lra.
    - intros (y & x & Hy & Hx & Hge). specialize (Hle y x Hy Hx).
      assert (IZR (r + 1) < IZR (rtrunc m + 1)) by (rewrite (plus_IZR (rtrunc m)); lra).
      apply lt_IZR in H. lia. }
  set (rmax := rtrunc m) in *. clearbody rmax. clear Em Hem Hmx Hle Hm.
  match type of E with for_range _ _ _ ?b ?s = _ => set (body := b) in E; set (s0 := s) in E end.
  assert (Hbody : forall r s, rows s = rows data -> cols s = cols data ->
    exists s', body r s = Ok s' /\ rows s' = rows data /\ cols s' = cols data /\
      forall y x, cell s' y x =
        if ringb (IZR cy) (IZR cx) r step to y x
        then ring_value data (IZR cy) (IZR cx) r step tm y x else cell s y x).
  { intros r s Hrs Hcs. unfold body.
    set (mc := amap2 andb _ (amap (fun p => Rleb (fst tm) p && Rltb p (snd tm)) _)).
    set (cond := amap2 andb _ (amap (fun p => Rleb (fst to) p && Rltb p (snd to)) _)).
    assert (Hcond : forall y x, cell cond y x = ringb (IZR cy) (IZR cx) r step to y x) by reflexivity.
    set (P := ringb (IZR cy) (IZR cx) r step tm).
    set (n := msum (rows data) (cols data) P (fun _ _ => 1)).
    set (mm := msum (rows data) (cols data) P (cell data) / n).
    set (sd := sqrt (msum (rows data) (cols data) P
                       (fun y x => (cell data y x - mm) * (cell data y x - mm)) / n)).
    assert (Emn : mean_where data mc = if Reqb n 0 then None else Some mm) by reflexivity.
    assert (Esd : std_where data mc = if Reqb n 0 then None else Some sd).
    { unfold std_where. rewrite Emn. destruct (Reqb n 0); reflexivity. }
    assert (Erv : forall y x, ring_value data (IZR cy) (IZR cx) r step tm y x =
      if Reqb n 0 then 0 else if Rltb 0 sd then (cell data y x - mm) / sd else 0) by reflexivity.
    rewrite Emn, Esd. clearbody cond sd. clear Emn Esd.
    destruct (Reqb n 0); [|destruct (Rltb 0 sd)];
      (eexists; split; [reflexivity|]; cbn [rows cols cell];
       split; [reflexivity|]; split; [reflexivity|]; intros y x; rewrite Hcond, Erv; reflexivity). }
  clearbody body.
  pose (Inv := fun (k : Z) (s : arr R) => rows s = rows data /\ cols s = cols data /\
    forall y x,
      (forall j, (0 <= j < k)%Z -> ringb (IZR cy) (IZR cx) (rho_min + j * step) step to y x = true ->
         cell s y x = ring_value data (IZR cy) (IZR cx) (rho_min + j * step) step tm y x) /\
      ((forall j, (0 <= j < k)%Z -> ringb (IZR cy) (IZR cx) (rho_min + j * step) step to y x = false) ->
       cell s y x = 0)).
  destruct (for_range_inv Inv rho_min rmax step body s0 Hs) as (out' & Eo & (Ro & Co & Vo)).
  - unfold Inv, s0. cbn [full rows cols cell]. split; [reflexivity|]. split; [reflexivity|].
    intros y x. split; [intros; lia|reflexivity].
  - intros k s Hk Hlt (Rs & Cs & Vs).
    destruct (Hbody (rho_min + k * step)%Z s Rs Cs) as (s' & Es' & Rs' & Cs' & Vs').
    exists s'. split; [exact Es'|]. split; [exact Rs'|]. split; [exact Cs'|].
    intros y x. rewrite Vs'. destruct (Vs y x) as [V1 V2].
    destruct (ringb (IZR cy) (IZR cx) (rho_min + k * step) step to y x) eqn:Ek.
    + split.
      * intros j Hj Hjr.
        assert (j = k) as ->; [|reflexivity].
        destruct (Z_lt_ge_dec j k) as [Hjk|]; [exfalso|lia].
        unfold ringb in Hjr, Ek. rewrite !andb_true_iff, !Rltb_true, !Rleb_true in Hjr, Ek.
        destruct Hjr as [[_ H1] _]. destruct Ek as [[H2 _] _].
        assert (Hle : (rho_min + j * step + step <= rho_min + k * step)%Z) by nia.
        apply IZR_le in Hle. lra.
      * intros Hall. rewrite Hall in Ek by lia. discriminate.
    + split.
      * intros j Hj Hjr. apply V1; [|exact Hjr].
        destruct (Z.eq_dec j k) as [->|]; [congruence|lia].
      * intros Hall. apply V2. intros j Hj. apply Hall. lia.
  - rewrite E in Eo. injection Eo as <-. split; [exact Ro|]. split; [exact Co|].
    intros y x Hy Hx. destruct (Vo y x) as [V1 V2]. split.
    + intros k Hk Hlt Hr'. apply V1; [|exact Hr']. split; [exact Hk|]. apply range_len_lt; assumption.
    + intros Hall. apply V2. intros j Hj. apply Hall; [lia|]. apply range_len_lt; lia.
Qed.

Lemma ringb_mask cy cx r step t1 t2 : ring_mask cy cx r step t1 t2 (ringb (IZR cy) (IZR cx) r step (t1, t2)).
Proof. intros y x. unfold ringb. cbn [fst snd]. apply sector_iff. Qed.

Lemma mask_unique cy cx r step t1 t2 P Q :
  ring_mask cy cx r step t1 t2 P -> ring_mask cy cx r step t1 t2 Q -> forall y x, P y x = Q y x.
Proof. intros HP HQ y x. apply Bool.eq_iff_eq_true. rewrite (HP y x), (HQ y x). reflexivity. Qed.

Lemma c39_ring data y0 x0 cy cx rho_min step t1 t2 out k P :
  truncated y0 cy -> truncated x0 cx -> (0 < step)%Z ->
  nrgf data y0 x0 rho_min step (t1, t2) (t1, t2) = Ok out ->
  (0 <= k)%Z ->
  (exists y x, (0 <= y < rows data)%Z /\ (0 <= x < cols data)%Z /\
     IZR (rho_min + k * step + 1) <= dist y x cy cx) ->
  ring_mask cy cx (rho_min + k * step) step t1 t2 P ->
  let h := rows data in
  let w := cols data in
  ((exists y x y' x', (0 <= y < h)%Z /\ (0 <= x < w)%Z /\ P y x = true /\
      (0 <= y' < h)%Z /\ (0 <= x' < w)%Z /\ P y' x' = true /\ cell data y x <> cell data y' x') ->
   rsum_over h w P (cell out) = 0 /\
   rsum_over h w P (fun y x => cell out y x * cell out y x) = rsum_over h w P (fun _ _ => 1)) /\
  ((forall y x y' x', (0 <= y < h)%Z -> (0 <= x < w)%Z -> P y x = true ->
      (0 <= y' < h)%Z -> (0 <= x' < w)%Z -> P y' x' = true -> cell data y x = cell data y' x') ->
   forall y x, (0 <= y < h)%Z -> (0 <= x < w)%Z -> P y x = true -> cell out y x = 0).
Proof.
  intros Hcy Hcx Hs E Hk Hfar HP h w.
  destruct (nrgf_spec _ _ _ _ _ _ _ _ _ _ Hcy Hcx Hs E) as (rmax & Hrm & Ro & Co & V).
  assert (Hlt : (rho_min + k * step < rmax)%Z).
  { apply Hrm. destruct Hfar as (y & x & Hy & Hx & Hd). exists y, x. rewrite rho_at_Z. auto. }
  pose proof (mask_unique _ _ _ _ _ _ _ _ HP (ringb_mask cy cx (rho_min + k * step) step t1 t2)) as EP.
  set (Q := ringb (IZR cy) (IZR cx) (rho_min + k * step) step (t1, t2)) in *.
  assert (Vq : forall y x, (0 <= y < h)%Z -> (0 <= x < w)%Z -> P y x = true ->
    cell out y x = ring_value data (IZR cy) (IZR cx) (rho_min + k * step) step (t1, t2) y x).
  { intros y x Hy Hx Hp. destruct (V y x Hy Hx) as [V1 _]. apply V1; [exact Hk|exact Hlt|].
    rewrite EP in Hp. exact Hp. }
  unfold ring_value in Vq. fold Q in Vq. fold h w in Vq.
  set (n := msum h w Q (fun _ _ => 1)) in *.
  set (m := msum h w Q (cell data) / n) in *.
  set (v := msum h w Q (fun y x => (cell data y x - m) * (cell data y x - m))) in *.
  split.
  - intros (ya & xa & yb & xb & Hya & Hxa & Pa & Hyb & Hxb & Pb & Hne).
    rewrite EP in Pa, Pb.
    assert (Hn : 0 < n) by (apply (count_pos h w Q ya xa); assumption).
    assert (Hv : 0 < v) by (apply (var_pos h w Q (cell data) ya xa yb xb); assumption).
    assert (Hd : 0 < v / n) by (apply Rdiv_lt_0_compat; assumption).
    assert (Hsd : 0 < sqrt (v / n)) by (apply sqrt_lt_R0; exact Hd).
    assert (E0 : Reqb n 0 = false) by (apply Reqb_false; lra).
    assert (E1 : Rltb 0 (sqrt (v / n)) = true) by (apply Rltb_true; exact Hsd).
    rewrite E0, E1 in Vq.
    assert (Hss : sqrt (v / n) * sqrt (v / n) = v / n) by (apply sqrt_sqrt; lra).
    set (sd := sqrt (v / n)) in *.
    change rsum_over with msum. split.
    + rewrite (msum_ext h w P Q (cell out) (fun y x => / sd * (cell data y x - m))).
      * rewrite msum_scal. rewrite dev_sum by (fold n; lra). ring.
      * intros; apply EP.
      * intros y x Hy Hx Hq. rewrite Vq by (try assumption; rewrite EP; exact Hq). unfold Rdiv. ring.
    + rewrite (msum_ext h w P Q (fun _ _ => 1) (fun _ _ => 1)) by (intros; [apply EP|reflexivity] || (intros; apply EP) || reflexivity).
      rewrite (msum_ext h w P Q _ (fun y x => (n / v) * ((cell data y x - m) * (cell data y x - m)))).
      * rewrite msum_scal. fold v. fold n. field. lra.
      * intros; apply EP.
      * intros y x Hy Hx Hq. rewrite Vq by (try assumption; rewrite EP; exact Hq).
        replace ((cell data y x - m) / sd * ((cell data y x - m) / sd))
          with ((cell data y x - m) * (cell data y x - m) / (sd * sd)) by (field; lra).
        rewrite Hss. field. split; lra.
  - intros Hall y x Hy Hx Hp. rewrite Vq by assumption.
    rewrite EP in Hp.
    assert (Hn : 0 < n) by (apply (count_pos h w Q y x); assumption).
    destruct (const_mean h w Q (cell data) (cell data y x)) as [_ Hv]; [fold n; lra| |].
    { intros y' x' Hy' Hx' Hp'. apply Hall; try assumption; rewrite EP; assumption. }
    fold n m v in Hv. rewrite Hv.
    replace (0 / n) with 0 by (field; lra). rewrite sqrt_0.
    destruct (Reqb n 0); [reflexivity|].
    assert (E1 : Rltb 0 0 = false) by (apply Rltb_false; lra). rewrite E1. reflexivity.
Qed.

(** Pixels outside every processed ring, or outside the output sector, stay 0. *)
Lemma c39_zero data y0 x0 cy cx rho_min step tm t1 t2 out y x :
  truncated y0 cy -> truncated x0 cx -> (0 < step)%Z ->
  nrgf data y0 x0 rho_min step tm (t1, t2) = Ok out ->
  (0 <= y < rows data)%Z -> (0 <= x < cols data)%Z ->
  dist y x cy cx <= IZR rho_min \/
  (forall r1 r2, ~ in_sector (IZR y - IZR cy) (IZR x - IZR cx) r1 r2 t1 t2) ->
  cell out y x = 0.
Proof.
  intros Hcy Hcx Hs E Hy Hx H.
  destruct (nrgf_spec _ _ _ _ _ _ _ _ _ _ Hcy Hcx Hs E) as (rmax & _ & _ & _ & V).
  destruct (V y x Hy Hx) as [_ V2]. apply V2. intros k Hk _.
  destruct (ringb (IZR cy) (IZR cx) (rho_min + k * step) step (t1, t2) y x) eqn:Er; [exfalso|reflexivity].
  destruct H as [H|H].
  - unfold ringb in Er. rewrite !andb_true_iff, Rltb_true in Er. destruct Er as [[Er _] _].
    rewrite rho_at_Z in Er.
    assert (Hle : (rho_min <= rho_min + k * step)%Z) by nia. apply IZR_le in Hle. lra.
  - apply ringb_mask in Er. exact (H _ _ Er).
Qed.

(** A gain and an offset do not change the result. *)
Lemma ring_value_affine data yc xc r step tm y x g o :
  0 < g -> (0 <= y < rows data)%Z -> (0 <= x < cols data)%Z ->
  ring_value (amap (fun v => g * v + o) data) yc xc r step tm y x =
  ring_value data yc xc r step tm y x.
Proof.
  intros Hg Hy Hx. unfold ring_value. cbn [amap rows cols cell].
  set (P := ringb yc xc r step tm). set (h := rows data). set (w := cols data).
  set (n := msum h w P (fun _ _ => 1)).
  destruct (Reqb n 0) eqn:En; [reflexivity|]. apply Reqb_false in En.
  set (m := msum h w P (cell data) / n).
  assert (Em : msum h w P (fun y0 x0 => g * cell data y0 x0 + o) / n = g * m + o).
  { rewrite msum_plus, msum_scal.
    rewrite (msum_ext h w P P (fun _ _ => o) (fun _ _ => o * 1)) by (intros; ring || reflexivity).
    rewrite msum_scal. fold n. unfold m. field. exact En. }
  rewrite Em.
  set (v := msum h w P (fun y0 x0 => (cell data y0 x0 - m) * (cell data y0 x0 - m))).
  assert (Ev : msum h w P (fun y0 x0 => (g * cell data y0 x0 + o - (g * m + o)) *
                                        (g * cell data y0 x0 + o - (g * m + o))) = g * g * v).
  { unfold v. rewrite <- msum_scal. apply msum_ext; intros; ring || reflexivity. }
  rewrite Ev.
  assert (Hn : 0 < n \/ n < 0) by lra.
  assert (Hn' : 0 < n).
  { destruct Hn as [Hn|Hn]; [exact Hn|]. assert (0 <= n) by (apply msum_nonneg; intros; lra). lra. }
  assert (Hv : 0 <= v) by apply var_nonneg.
  assert (Hq : 0 <= v / n) by (apply div_nonneg; assumption).
  assert (Es : sqrt (g * g * v / n) = g * sqrt (v / n)).
  { replace (g * g * v / n) with (g * g * (v / n)) by (field; lra).
    rewrite sqrt_mult by nra. rewrite sqrt_square by lra. reflexivity. }
  rewrite Es.
  destruct (Rltb 0 (sqrt (v / n))) eqn:E1.
  - apply Rltb_true in E1.
    assert (E2 : Rltb 0 (g * sqrt (v / n)) = true) by (apply Rltb_true; nra).
    rewrite E2. field. split; lra.
  - apply Rltb_false in E1.
    assert (E2 : Rltb 0 (g * sqrt (v / n)) = false) by (apply Rltb_false; nra).
    rewrite E2. reflexivity.
Qed.

Lemma c39_affine data y0 x0 rho_min step tm to g o out out' :
  0 < g -> (0 < step)%Z ->
  nrgf data y0 x0 rho_min step tm to = Ok out ->
  nrgf (amap (fun v => g * v + o) data) y0 x0 rho_min step tm to = Ok out' ->
  out' =a= out.
Proof.
  intros Hg Hs E E'.
  destruct (nrgf_spec _ _ _ _ _ _ _ _ _ _ (rtrunc_spec y0) (rtrunc_spec x0) Hs E)
    as (rmax & Hrm & Ro & Co & V).
  destruct (nrgf_spec _ _ _ _ _ _ _ _ _ _ (rtrunc_spec y0) (rtrunc_spec x0) Hs E')
    as (rmax' & Hrm' & Ro' & Co' & V').
  cbn [amap rows cols cell] in *.
  assert (rmax' = rmax) as ->.
  { assert (forall r, (r < rmax' <-> r < rmax)%Z) by (intros r; rewrite Hrm, Hrm'; reflexivity).
    destruct (Z.lt_trichotomy rmax rmax') as [L|[->|L]]; [|reflexivity|].
    - apply H in L. lia.
    - apply H in L. lia. }
  split; [congruence|]. split; [congruence|]. rewrite Ro', Co'.
  intros y x Hy Hx. destruct (V y x Hy Hx) as [V1 V2]. destruct (V' y x Hy Hx) as [V1' V2'].
  destruct (Z_lt_ge_dec rho_min rmax) as [Hlt|Hge].
  2: { rewrite V2, V2'; [reflexivity|intros k Hk Hl; nia|intros k Hk Hl; nia]. }
  set (q := range_len rho_min rmax step).
  assert (D : (exists k, (0 <= k < q)%Z /\
             ringb (IZR (rtrunc y0)) (IZR (rtrunc x0)) (rho_min + k * step) step to y x = true) \/
          (forall k, (0 <= k < q)%Z ->
             ringb (IZR (rtrunc y0)) (IZR (rtrunc x0)) (rho_min + k * step) step to y x = false)).
  { assert (Hq : (0 <= q)%Z) by (unfold q, range_len; lia). clearbody q. pattern q.
    apply zpos_ind; [right; intros; lia| |exact Hq].
    intros n Hn [(k & Hk & Ek)|Hall]; [left; exists k; split; [lia|exact Ek]|].
    destruct (ringb (IZR (rtrunc y0)) (IZR (rtrunc x0)) (rho_min + n * step) step to y x) eqn:En.
    - left. exists n. split; [lia|exact En].
    - right. intros k Hk. destruct (Z.eq_dec k n) as [->|]; [exact En|apply Hall; lia]. }
  destruct D as [(k & Hk & Ek)|Hall].
  - assert (Hl : (rho_min + k * step < rmax)%Z) by (apply range_len_lt; [exact Hs|lia|unfold q in Hk; lia]).
    rewrite (V1 k), (V1' k) by (try assumption; lia). apply ring_value_affine; assumption.
  - rewrite V2, V2'; [reflexivity| |]; intros k Hk Hl; apply Hall; (split; [exact Hk|]);
      apply range_len_lt; assumption.
Qed.

(** The call succeeds on every non-empty image with a positive step. *)
Lemma nrgf_total data y0 x0 rho_min step tm to :
  (0 < rows data)%Z -> (0 < cols data)%Z -> (0 < step)%Z ->
  exists out, nrgf data y0 x0 rho_min step tm to = Ok out.
Proof.
  intros Hr Hc Hs. unfold nrgf, nrgf_from, map_polar_coordinates.
  destruct (amax_spec (mkarr (rows data) (cols data) (rho_at (IZR (rtrunc y0)) (IZR (rtrunc x0)))))
    as [_ Hmx]. destruct (Hmx Hr Hc) as (m & Em & _). rewrite Em. cbn [bind].
  replace (step =? 0)%Z with false by lia. replace (step <? 0)%Z with false by lia.
  match goal with |- exists _, for_range ?a ?b ?c ?d ?e = _ =>
    destruct (for_range_inv (fun _ _ => True) a b c d e Hs I) as (out & Eo & _) end.
  - intros k s _ _ _. cbn zeta beta.
    match goal with |- context [mean_where ?a ?b] => destruct (mean_where a b) as [mm|] end;
    [match goal with |- context [std_where ?a ?b] => destruct (std_where a b) as [sd|] end;
      [destruct (Rltb 0 sd)|]|]; eexists; split; reflexivity || exact I.
  - exists out. exact Eo.
Qed.

Lemma c39_case :
  let data := mkarr 5 5 (fun y x => IZR (y + x)) in
  truncated 2 2 /\
  (exists out, nrgf data 2 2 1 1 (0, 360) (0, 360) = Ok out) /\
  (exists y x, (0 <= y < 5)%Z /\ (0 <= x < 5)%Z /\ IZR (1 + 0 * 1 + 1) <= dist y x 2 2) /\
  exists P, ring_mask 2 2 (1 + 0 * 1) 1 0 360 P /\ P 1%Z 1%Z = true /\ P 3%Z 3%Z = true /\
    cell data 1 1 <> cell data 3 3.
Proof.
  cbn zeta. split; [split; intros; lra|]. split; [apply nrgf_total; cbn; lia|]. split.
  - exists 0%Z, 0%Z. split; [lia|]. split; [lia|]. unfold dist. cbn.
    rewrite <- (sqrt_square 2) by lra. apply sqrt_le_1; lra.
  - exists (ringb (IZR 2) (IZR 2) (1 + 0 * 1) 1 (0, 360)). split; [apply ringb_mask|].
    assert (Hs : forall y x, dist y x 2 2 = sqrt 2 -> ringb (IZR 2) (IZR 2) (1 + 0 * 1) 1 (0, 360) y x = true).
    { intros y x Hd. unfold ringb. rewrite !andb_true_iff, !Rltb_true, !Rleb_true, rho_at_Z, Hd.
      destruct (polar_at (IZR 2) (IZR 2) y x) as (_ & Hp & _). cbn [fst snd].
      assert (1 < sqrt 2) by (rewrite <- sqrt_1 at 1; apply sqrt_lt_1; lra).
      assert (sqrt 2 <= 2) by (rewrite <- (sqrt_square 2) at 2 by lra; apply sqrt_le_1; lra).
      cbn. repeat split; lra. }
    split; [apply Hs; unfold dist; f_equal|]. split; [apply Hs; unfold dist; f_equal|].
    cbn. lra.
Qed.
