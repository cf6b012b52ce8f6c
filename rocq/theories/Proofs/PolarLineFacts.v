(** Lines from a centre along an angle. *)
From Coq Require Import Reals Lra Lia.
From Verif Require Import Base.Base Base.BaseFacts Base.Num Model.Codec Model.LinRoi Model.PolarLine
  Spec.CodecSpec Spec.LineSpec Spec.RaySpec Spec.Terminates Proofs.RawFacts Proofs.LineFacts.
Local Open Scope Z_scope.

Lemma while_seq {S} (cond : S -> bool) (body : S -> S) (f : nat -> S) :
  (forall k, body (f k) = f (Datatypes.S k)) ->
  forall K k, (forall j, (k <= j < k + K)%nat -> cond (f j) = true) -> cond (f (k + K)%nat) = false ->
  forall fuel, (K <= fuel)%nat -> while_loop fuel cond body (f k) = Ok (f (k + K)%nat).
Proof.
  intros Hb K. induction K as [|K IH]; intros k Hc He fuel Hf.
  - rewrite Nat.add_0_r in *. destruct fuel; cbn [while_loop]; rewrite He; reflexivity.
  - destruct fuel as [|fuel]; [lia|]. cbn [while_loop]. rewrite Hc by lia. rewrite Hb.
    replace (k + Datatypes.S K)%nat with (Datatypes.S k + K)%nat in * by lia.
    apply IH; [intros j Hj; apply Hc; lia|exact He|lia].
Qed.

Lemma first_false (c : nat -> bool) N : c N = false ->
  exists K, (K <= N)%nat /\ c K = false /\ forall j, (j < K)%nat -> c j = true.
Proof.
  revert c. induction N as [|N IH]; intros c Hc.
  - exists O. repeat split; [lia|exact Hc|intros; lia].
  - destruct (c O) eqn:E0.
    + destruct (IH (fun k => c (S k)) Hc) as (K & HK & HcK & Hb). exists (S K). repeat split; [lia|exact HcK|].
      intros [|j] Hj; [exact E0|]. apply Hb. lia.
    + exists O. repeat split; [lia|exact E0|intros; lia].
Qed.

Definition pos (cy cx rad : R) (k : nat) : R * R := ((cy - INR k * sin rad)%R, (cx + INR k * cos rad)%R).
Lemma march_pos cy cx rad k : march rad (pos cy cx rad k) = pos cy cx rad (S k).
Proof. unfold march, pos. rewrite S_INR. f_equal; lra. Qed.
Lemma pos_0 cy cx rad : pos cy cx rad 0 = (cy, cx).
Proof. unfold pos. cbn [INR]. f_equal; lra. Qed.
Lemma distance_pos cy cx rad k :
  distance cy cx (cy - INR k * sin rad) (cx + INR k * cos rad) = INR k.
Proof.
  unfold distance. pose proof (sin2_cos2 rad) as E. unfold Rsqr in E.
  replace ((cx - (cx + INR k * cos rad)) * (cx - (cx + INR k * cos rad)) +
           (cy - (cy - INR k * sin rad)) * (cy - (cy - INR k * sin rad)))%R
    with (INR k * INR k * (sin rad * sin rad + cos rad * cos rad))%R by ring.
  rewrite E, Rmult_1_r. apply sqrt_square. apply pos_INR.
Qed.

Definition going (ht wd : Z) (cy cx lim : R) : R * R -> bool := fun '(y, x) =>
  Rltb y (IZR ht) && Rltb 1 y && Rltb x (IZR wd) && Rltb 1 x && Rltb (distance cy cx y x) lim.

Lemma going_spec ht wd cy cx lim rad k :
  going ht wd cy cx lim (pos cy cx rad k) = true <->
  (cy - INR k * sin rad < IZR ht /\ 1 < cy - INR k * sin rad /\
   cx + INR k * cos rad < IZR wd /\ 1 < cx + INR k * cos rad /\ INR k < lim)%R.
Proof.
  unfold going, pos. rewrite distance_pos. rewrite !andb_true_iff. unfold Rltb.
  repeat match goal with |- context [Rlt_dec ?a ?b] => destruct (Rlt_dec a b) end; intuition congruence.
Qed.

Lemma going_stops ht wd cy cx lim rad : exists K,
  going ht wd cy cx lim (pos cy cx rad K) = false /\
  forall j, (j < K)%nat -> going ht wd cy cx lim (pos cy cx rad j) = true.
Proof.
  destruct (first_false (fun k => going ht wd cy cx lim (pos cy cx rad k)) (Z.to_nat (up lim))) as (K & _ & H1 & H2).
  - destruct (going ht wd cy cx lim (pos cy cx rad (Z.to_nat (up lim)))) eqn:E; [exfalso|reflexivity].
    apply going_spec in E. destruct E as (_ & _ & _ & _ & E). destruct (archimed lim) as [Hu _].
    destruct (Z_le_gt_dec 0 (up lim)) as [Hz|Hz].
    + rewrite INR_IZR_INZ, Z2Nat.id in E by exact Hz. lra.
    + pose proof (pos_INR (Z.to_nat (up lim))). assert (IZR (up lim) < 0)%R by (apply (IZR_lt _ 0); lia). lra.
  - exists K. split; assumption.
Qed.

Lemma rtrunc_pos v : (0 <= v)%R -> (IZR (rtrunc v) <= v < IZR (rtrunc v) + 1)%R.
Proof. intros Hv. destruct (rtrunc_spec v) as [P _]. specialize (P Hv). lra. Qed.
Lemma rtrunc_IZR z : rtrunc (IZR z) = z.
Proof. apply (truncated_unique (IZR z)); [apply rtrunc_spec|apply truncated_IZR]. Qed.

Lemma inner_none fuel cy cx rad rin : (rin <= 0)%R ->
  while_loop fuel (fun '(y, x) => Rltb (distance cy cx y x) rin) (march rad) (cy, cx) = Ok (cy, cx).
Proof.
  intros Hr. assert (E : Rltb (distance cy cx cy cx) rin = false).
  { unfold Rltb. destruct (Rlt_dec _ _) as [L|]; [exfalso|reflexivity].
    pose proof (sqrt_pos ((cx - cx) * (cx - cx) + (cy - cy) * (cy - cy))). unfold distance in L. lra. }
  destruct fuel; cbn [while_loop]; rewrite E; reflexivity.
Qed.

Lemma rev_map_zrange (f : Z -> Z) n : 0 <= n -> rev (map f (zrange (n + 1))) = f n :: rev (map f (zrange n)).
Proof. intros Hn. rewrite zrange_succ by exact Hn. rewrite map_app, rev_app_distr. reflexivity. Qed.

Lemma but_two_map (f : Z -> Z) n : 0 <= n -> but_two (map f (zrange (n + 2))) = map f (zrange n).
Proof.
  intros Hn. unfold but_two. rewrite map_length, length_zrange.
  replace (n + 2) with (n + 1 + 1) by lia. rewrite !zrange_succ by lia. rewrite <- app_assoc, map_app.
  rewrite firstn_app, map_length, length_zrange.
  replace (Z.to_nat (n + 1 + 1) - 2)%nat with (Z.to_nat n) by lia. rewrite Nat.sub_diag. cbn [firstn].
  rewrite app_nil_r. rewrite <- (firstn_all (map f (zrange n))) at 2. rewrite map_length, length_zrange. reflexivity.
Qed.

Lemma outside_false ht wd y x : 0 <= y < ht -> 0 <= x < wd -> outside ht wd y x = false.
Proof.
  intros Hy Hx. unfold outside. repeat (rewrite (proj2 (Z.leb_gt _ _)) by lia).
  repeat (rewrite (proj2 (Z.ltb_ge _ _)) by lia). reflexivity.
Qed.
Lemma outside_inv ht wd y x : outside ht wd y x = false -> 0 <= y < ht /\ 0 <= x < wd.
Proof.
  unfold outside. intros E. apply orb_false_elim in E. destruct E as [E E4].
  apply orb_false_elim in E. destruct E as [E E3]. apply orb_false_elim in E. destruct E as [E1 E2].
  apply Z.leb_gt in E1, E2. apply Z.ltb_ge in E3, E4. lia.
Qed.

Lemma along_mono a d n i j : 0 < n -> i <= j ->
  (0 <= d -> along a d n i <= along a d n j) /\ (d <= 0 -> along a d n j <= along a d n i).
Proof.
  intros Hn Hij. unfold along. split; intros Hd; apply Z.quot_le_mono; nia.
Qed.

Lemma along_close a d n k : 0 < n ->
  (Rabs (IZR (along a d n k) - (IZR a + IZR k / IZR n * IZR d)) < 1)%R.
Proof.
  intros Hn. assert (Hr : (0 < IZR n)%R) by (apply (IZR_lt 0); lia).
  unfold along. set (p := a * n + k * d).
  replace (IZR a + IZR k / IZR n * IZR d)%R with (IZR p / IZR n)%R
    by (unfold p; rewrite plus_IZR, !mult_IZR; field; lra).
  destruct (rtrunc_spec (IZR p / IZR n)) as [A1 A2]. rewrite rtrunc_quot in A1, A2 by exact Hn.
  apply Rabs_def1; destruct (Rle_lt_dec 0 (IZR p / IZR n)) as [L|L];
    try (specialize (A1 L)); try (specialize (A2 L)); lra.
Qed.

Section Ray.
  Context {B : Type}.
  Variable data : arr B.
  Variables cy cx : Z.
  Variables theta lim : R.
  Hypothesis Hcy : 2 <= cy < rows data.
  Hypothesis Hcx : 2 <= cx < cols data.
  Hypothesis Hlim : (1 < lim)%R.
  Let rad := (theta * PI / 180)%R.
  Let ht := rows data.
  Let wd := cols data.

  Variable K : nat.
  Hypothesis Hstop : going ht wd (IZR cy) (IZR cx) lim (pos (IZR cy) (IZR cx) rad K) = false.
  Hypothesis Hgo : forall j, (j < K)%nat -> going ht wd (IZR cy) (IZR cx) lim (pos (IZR cy) (IZR cx) rad j) = true.

  Let y2 := (IZR cy - INR K * sin rad)%R.
  Let x2 := (IZR cx + INR K * cos rad)%R.

  Lemma K_pos : (0 < K)%nat.
  Proof.
    destruct (Nat.eq_dec K 0) as [EK|]; [exfalso|lia].
    assert (E : going ht wd (IZR cy) (IZR cx) lim (pos (IZR cy) (IZR cx) rad 0) = true).
    { apply going_spec. cbn [INR]. pose proof (IZR_lt cy ht ltac:(unfold ht; lia)).
      pose proof (IZR_lt cx wd ltac:(unfold wd; lia)).
      pose proof (IZR_lt 1 cy ltac:(lia)). pose proof (IZR_lt 1 cx ltac:(lia)). repeat split; lra. }
    rewrite <- EK in E. congruence.
  Qed.

  Lemma end_bounds : (0 < y2 < IZR ht + 1 /\ 0 < x2 < IZR wd + 1 /\ INR K < lim + 1)%R.
  Proof.
    assert (EK : exists K0, K = S K0) by (exists (pred K); pose proof K_pos; lia). destruct EK as [K0 EK].
    assert (E : going ht wd (IZR cy) (IZR cx) lim (pos (IZR cy) (IZR cx) rad K0) = true) by (apply Hgo; lia).
    apply going_spec in E. unfold y2, x2. rewrite EK, !S_INR.
    pose proof (SIN_bound rad). pose proof (COS_bound rad). lra.
  Qed.

  Lemma end_reached : (IZR ht <= y2 \/ y2 <= 1 \/ IZR wd <= x2 \/ x2 <= 1 \/ lim <= INR K)%R.
  Proof.
    destruct (Rlt_dec y2 (IZR ht)); [|left; lra]. destruct (Rlt_dec 1 y2); [|right; left; lra].
    destruct (Rlt_dec x2 (IZR wd)); [|right; right; left; lra]. destruct (Rlt_dec 1 x2); [|right; right; right; left; lra].
    destruct (Rlt_dec (INR K) lim); [exfalso|right; right; right; right; lra].
    assert (going ht wd (IZR cy) (IZR cx) lim (pos (IZR cy) (IZR cx) rad K) = true) by (apply going_spec; auto).
    congruence.
  Qed.

  Let ey := rtrunc y2.
  Let ex := rtrunc x2.
  Let n := longer (ey - cy) (ex - cx).

  Lemma ey_bounds : (IZR ey <= y2 < IZR ey + 1)%R.
  Proof. apply rtrunc_pos. pose proof end_bounds. lra. Qed.
  Lemma ex_bounds : (IZR ex <= x2 < IZR ex + 1)%R.
  Proof. apply rtrunc_pos. pose proof end_bounds. lra. Qed.
  Lemma ey_range : 0 <= ey <= ht.
  Proof.
    pose proof ey_bounds. pose proof end_bounds. split.
    - assert (IZR (-1) < IZR ey)%R by (change (IZR (-1)) with (-1)%R; lra). apply lt_IZR in H1. lia.
    - assert (IZR ey < IZR (ht + 1))%R by (rewrite plus_IZR; lra). apply lt_IZR in H1. lia.
  Qed.
  Lemma ex_range : 0 <= ex <= wd.
  Proof.
    pose proof ex_bounds. pose proof end_bounds. split.
    - assert (IZR (-1) < IZR ex)%R by (change (IZR (-1)) with (-1)%R; lra). apply lt_IZR in H1. lia.
    - assert (IZR ex < IZR (wd + 1))%R by (rewrite plus_IZR; lra). apply lt_IZR in H1. lia.
  Qed.

  Lemma K_square : (INR K * INR K = (y2 - IZR cy) * (y2 - IZR cy) + (x2 - IZR cx) * (x2 - IZR cx))%R.
  Proof.
    unfold y2, x2. pose proof (sin2_cos2 rad) as E. unfold Rsqr in E.
    transitivity (INR K * INR K * (sin rad * sin rad + cos rad * cos rad))%R; [rewrite E; ring|ring].
  Qed.

  Lemma n_pos : 0 < n.
  Proof.
    unfold n, longer. assert (~ (ey = cy /\ ex = cx)); [|lia]. intros [E1 E2].
    pose proof ey_bounds as By. pose proof ex_bounds as Bx. rewrite E1 in By. rewrite E2 in Bx.
    pose proof (IZR_le _ _ (proj1 Hcy)). pose proof (IZR_le _ _ (proj1 Hcx)).
    assert (IZR cy + 1 <= IZR ht)%R by (rewrite <- plus_IZR; apply IZR_le; unfold ht; lia).
    assert (IZR cx + 1 <= IZR wd)%R by (rewrite <- plus_IZR; apply IZR_le; unfold wd; lia).
    destruct end_reached as [R|[R|[R|[R|R]]]]; try lra.
    pose proof K_square as Q. assert (2 <= INR K)%R.
    { change 2%R with (INR 2). apply le_INR. destruct (le_lt_dec 2 K) as [|L]; [assumption|exfalso].
      assert (INR K <= INR 1)%R by (apply le_INR; lia). change (INR 1) with 1%R in *. lra. }
    assert ((y2 - IZR cy) * (y2 - IZR cy) <= 1 * 1)%R by (apply Rmult_le_compat; lra).
    assert ((x2 - IZR cx) * (x2 - IZR cx) <= 1 * 1)%R by (apply Rmult_le_compat; lra).
    assert (2 * 2 <= INR K * INR K)%R by (apply Rmult_le_compat; lra). lra.
  Qed.

  (** The ray advances at most two pixels per sample. *)
  Lemma K_le : (INR K <= 2 * IZR n)%R.
  Proof.
    pose proof n_pos as Hn. pose proof ey_bounds as By. pose proof ex_bounds as Bx.
    assert (Ny : (Rabs (IZR ey - IZR cy) <= IZR n)%R).
    { rewrite <- minus_IZR, <- abs_IZR. apply IZR_le. unfold n, longer. lia. }
    assert (Nx : (Rabs (IZR ex - IZR cx) <= IZR n)%R).
    { rewrite <- minus_IZR, <- abs_IZR. apply IZR_le. unfold n, longer. lia. }
    pose proof (IZR_le 1 n ltac:(lia)) as N1.
    assert (Ay : (Rabs (y2 - IZR cy) < IZR n + 1)%R).
    { replace (y2 - IZR cy)%R with ((IZR ey - IZR cy) + (y2 - IZR ey))%R by ring.
      eapply Rle_lt_trans; [apply Rabs_triang|]. rewrite (Rabs_right (y2 - IZR ey)) by lra. lra. }
    assert (Ax : (Rabs (x2 - IZR cx) < IZR n + 1)%R).
    { replace (x2 - IZR cx)%R with ((IZR ex - IZR cx) + (x2 - IZR ex))%R by ring.
      eapply Rle_lt_trans; [apply Rabs_triang|]. rewrite (Rabs_right (x2 - IZR ex)) by lra. lra. }
    assert (Sq : forall v m, (Rabs v < m -> v * v < m * m)%R).
    { intros v m Hv. apply Rabs_def2 in Hv. nra. }
    pose proof (Sq _ _ Ay) as Qy. pose proof (Sq _ _ Ax) as Qx. pose proof K_square as Q.
    (* K * K < 2 (n + 1) (n + 1), hence K <= 2 n as K and n are integers *)
    rewrite INR_IZR_INZ in *. set (k := Z.of_nat K) in *.
    assert (QZ : k * k < 2 * ((n + 1) * (n + 1))).
    { apply lt_IZR. rewrite !mult_IZR, plus_IZR. lra. }
    rewrite <- mult_IZR. apply IZR_le. assert (0 <= k) by (unfold k; lia). nia.
  Qed.

  (** Samples [0 .. m - 1] are kept. *)
  Definition kept (m : Z) : Prop :=
    (m = n \/ m = n + 2) /\
    forall k, 0 <= k < m -> 0 <= along cy (ey - cy) n k < ht /\ 0 <= along cx (ex - cx) n k < wd.

  Lemma inside_upto k0 : 0 <= k0 ->
    0 <= along cy (ey - cy) n k0 < ht -> 0 <= along cx (ex - cx) n k0 < wd ->
    forall k, 0 <= k <= k0 -> 0 <= along cy (ey - cy) n k < ht /\ 0 <= along cx (ex - cx) n k < wd.
  Proof.
    intros Hk0 Hy Hx k Hk. pose proof n_pos as Hn.
    pose proof (along_0 cy (ey - cy) n Hn) as Ey. pose proof (along_0 cx (ex - cx) n Hn) as Ex.
    pose proof (along_mono cy (ey - cy) n 0 k Hn ltac:(lia)) as M1.
    pose proof (along_mono cy (ey - cy) n k k0 Hn ltac:(lia)) as M2.
    pose proof (along_mono cx (ex - cx) n 0 k Hn ltac:(lia)) as M3.
    pose proof (along_mono cx (ex - cx) n k k0 Hn ltac:(lia)) as M4.
    unfold ht, wd in *. lia.
  Qed.

  Lemma before_end : 0 <= along cy (ey - cy) n (n - 1) < ht /\ 0 <= along cx (ex - cx) n (n - 1) < wd.
  Proof.
    pose proof n_pos as Hn. pose proof ey_range as Ry. pose proof ex_range as Rx.
    assert (G : forall c e h, 0 <= c < h -> 0 <= e <= h -> Z.abs (e - c) <= n -> 0 <= along c (e - c) n (n - 1) < h).
    { intros c e h Hc He Hd. pose proof (along_0 c (e - c) n Hn) as E0. pose proof (along_n c (e - c) n Hn) as En.
      pose proof (along_mono c (e - c) n 0 (n - 1) Hn ltac:(lia)) as M1.
      pose proof (along_mono c (e - c) n (n - 1) n Hn ltac:(lia)) as M2.
      destruct (Z.eq_dec e h) as [->|]; [|lia].
      (* at the far border the last-but-one sample is strictly before *)
      assert (along c (h - c) n (n - 1) < h); [|lia].
      unfold along. apply Z.quot_lt_upper_bound; [nia|lia|]. nia. }
    split; apply G; unfold n, longer, ht, wd in *; lia.
  Qed.

  Lemma trimmed fuel : (0 < fuel)%nat -> exists m, kept m /\
    trim fuel ht wd (map (along cy (ey - cy) n) (zrange (n + 2))) (map (along cx (ex - cx) n) (zrange (n + 2))) =
      Ok (map (along cy (ey - cy) n) (zrange m), map (along cx (ex - cx) n) (zrange m)) /\
    forall fuel', (0 < fuel')%nat ->
    trim fuel' ht wd (map (along cy (ey - cy) n) (zrange (n + 2))) (map (along cx (ex - cx) n) (zrange (n + 2))) =
      Ok (map (along cy (ey - cy) n) (zrange m), map (along cx (ex - cx) n) (zrange m)).
  Proof.
    intros Hf. pose proof n_pos as Hn.
    assert (G : exists m, kept m /\ forall fuel', (0 < fuel')%nat ->
      trim fuel' ht wd (map (along cy (ey - cy) n) (zrange (n + 2))) (map (along cx (ex - cx) n) (zrange (n + 2))) =
        Ok (map (along cy (ey - cy) n) (zrange m), map (along cx (ex - cx) n) (zrange m)));
      [|destruct G as (m & Hm & G); exists m; auto].
    destruct (outside ht wd (along cy (ey - cy) n (n + 1)) (along cx (ex - cx) n (n + 1))) eqn:E.
    - exists n. destruct before_end as [Hy Hx]. split.
      + split; [left; reflexivity|]. intros k Hk. apply (inside_upto (n - 1)); auto; lia.
      + intros [|f] Hf'; [lia|]. cbn [trim].
        replace (n + 2) with (n + 1 + 1) by lia. rewrite !rev_map_zrange by lia. rewrite E.
        replace (n + 1 + 1) with (n + 2) by lia. rewrite !but_two_map by lia.
        destruct f; cbn [trim]; replace (zrange n) with (zrange (n - 1 + 1)) by (f_equal; lia);
          rewrite !rev_map_zrange by lia; rewrite outside_false by assumption; reflexivity.
    - exists (n + 2). apply outside_inv in E. destruct E as [Hy Hx]. split.
      + split; [right; reflexivity|]. intros k Hk. apply (inside_upto (n + 1)); auto; lia.
      + intros [|f] Hf'; [lia|]. cbn [trim].
        replace (n + 2) with (n + 1 + 1) by lia. rewrite !rev_map_zrange by lia.
        rewrite outside_false by assumption. reflexivity.
  Qed.

  (** Distance along the ray of sample [k]. *)
  Definition at_sample (k : Z) : R := (IZR k / IZR n * INR K)%R.

  Lemma sample_near k : 0 <= k <= n + 1 ->
    near_ray cy cx theta (at_sample k) 3 (along cy (ey - cy) n k) (along cx (ex - cx) n k) /\
    (0 <= at_sample k < lim + 3)%R.
  Proof.
    intros Hk. pose proof n_pos as Hn. pose proof (IZR_le 1 n ltac:(lia)) as N1.
    set (u := (IZR k / IZR n)%R). assert (Hu : (0 <= u /\ (u - 1) * IZR n <= 1)%R).
    { split.
      - unfold u. apply Rmult_le_pos; [apply (IZR_le 0); lia|]. apply Rlt_le, Rinv_0_lt_compat. lra.
      - unfold u. replace ((IZR k / IZR n - 1) * IZR n)%R with (IZR k - IZR n)%R by (field; lra).
        rewrite <- minus_IZR. apply IZR_le. lia. }
    assert (Hu2 : (u <= 2)%R) by nra.
    pose proof ey_bounds as By. pose proof ex_bounds as Bx.
    pose proof (along_close cy (ey - cy) n k Hn) as Cy. pose proof (along_close cx (ex - cx) n k Hn) as Cx.
    fold u in Cy, Cx. rewrite minus_IZR in Cy, Cx. apply Rabs_def2 in Cy. apply Rabs_def2 in Cx.
    unfold near_ray, ray_row, ray_col, at_sample. fold u. fold rad.
    assert (Py : (u * (IZR ey - y2) <= 0 /\ - 2 <= u * (IZR ey - y2))%R) by nra.
    assert (Px : (u * (IZR ex - x2) <= 0 /\ - 2 <= u * (IZR ex - x2))%R) by nra.
    unfold y2 in Py. unfold x2 in Px.
    split; [split; apply Rabs_def1; nra|].
    pose proof end_bounds as (_ & _ & HK). pose proof K_le as KL. pose proof (pos_INR K). split; [nra|].
    (* u K = K + (u - 1) K <= K + 2 *)
    destruct (Rle_lt_dec u 1) as [L|L]; [nra|].
    assert ((u - 1) * INR K <= (u - 1) * (2 * IZR n))%R by (apply Rmult_le_compat_l; lra). lra.
  Qed.

  Lemma last_sample m : kept m -> 0 < m ->
    at_border ht wd 2 (along cy (ey - cy) n (m - 1)) (along cx (ex - cx) n (m - 1)) \/
    (lim - 2 <= at_sample (m - 1))%R.
  Proof.
    intros [Hm _] H0. pose proof n_pos as Hn. pose proof ey_bounds as By. pose proof ex_bounds as Bx.
    pose proof ey_range as Ry. pose proof ex_range as Rx.
    assert (S : forall c e, Z.abs (e - c) <= n -> Z.abs (along c (e - c) n (m - 1) - e) <= 1).
    { intros c e Hd. pose proof (along_n c (e - c) n Hn) as En.
      destruct Hm as [-> | ->].
      - pose proof (along_step c (e - c) n (n - 1) Hn Hd) as St. replace (n - 1 + 1) with n in St by lia. lia.
      - pose proof (along_step c (e - c) n n Hn Hd) as St. replace (n + 2 - 1) with (n + 1) by lia. lia. }
    pose proof (S cy ey ltac:(unfold n, longer; lia)) as Sy.
    pose proof (S cx ex ltac:(unfold n, longer; lia)) as Sx.
    unfold at_border.
    destruct end_reached as [R|[R|[R|[R|R]]]].
    - left. assert (IZR ht < IZR (ey + 1))%R by (rewrite plus_IZR; lra). apply lt_IZR in H. lia.
    - left. assert (IZR ey <= IZR 1)%R by lra. apply le_IZR in H. lia.
    - left. assert (IZR wd < IZR (ex + 1))%R by (rewrite plus_IZR; lra). apply lt_IZR in H. lia.
    - left. assert (IZR ex <= IZR 1)%R by lra. apply le_IZR in H. lia.
    - right. pose proof K_le as KL. pose proof (IZR_le 1 n ltac:(lia)) as N1. pose proof (pos_INR K).
      unfold at_sample. apply (Rmult_le_reg_r (IZR n)); [lra|].
      replace (IZR (m - 1) / IZR n * INR K * IZR n)%R with (IZR (m - 1) * INR K)%R by (field; lra).
      destruct Hm as [-> | ->]; [rewrite minus_IZR|replace (n + 2 - 1) with (n + 1) by lia; rewrite plus_IZR]; nra.
  Qed.

  Lemma ray_run : exists m, kept m /\ 0 < m /\
    forall rin, (rin <= 0)%R -> forall rout, lim = (rout - 1)%R -> forall fuel, (K <= fuel)%nat ->
    linear_roi_from_polar fuel data (IZR cy) (IZR cx) theta (Some (rin, rout)) =
      Ok (map (fun k => cell data (along cy (ey - cy) n k) (along cx (ex - cx) n k)) (zrange m),
          map (along cy (ey - cy) n) (zrange m), map (along cx (ex - cx) n) (zrange m),
          (sqrt (IZR ((ex - cx) * (ex - cx) + (ey - cy) * (ey - cy))) / IZR (n + 2))%R).
  Proof.
    pose proof n_pos as Hn. pose proof K_pos as HK.
    destruct (trimmed 1 ltac:(lia)) as (m & Hm & _ & Ht). exists m. split; [exact Hm|].
    split; [destruct Hm as [[-> | ->] _]; lia|].
    intros rin Hrin rout Hrout fuel Hf. unfold linear_roi_from_polar.
    rewrite inner_none by exact Hrin. cbn [bind]. fold rad. rewrite <- Hrout.
    pose proof (while_seq (going ht wd (IZR cy) (IZR cx) lim) (march rad) (pos (IZR cy) (IZR cx) rad)
      (march_pos _ _ _) K 0) as W. cbn [Nat.add] in W. specialize (W ltac:(intros; apply Hgo; lia) Hstop fuel Hf).
    rewrite pos_0 in W. unfold going, ht, wd in W. rewrite W. cbn [bind]. unfold pos.
    rewrite !rtrunc_IZR. fold y2 x2. fold ey ex. rewrite dda_points by exact Hn. fold n. cbn [bind].
    rewrite Ht by lia. cbn [bind]. rewrite values_cells; [reflexivity|].
    intros k Hk. apply in_zrange in Hk. apply Hm. exact Hk.
  Qed.
End Ray.

(** ** The whole function *)
Definition radii (r : option (R * R)) : R * R := match r with Some p => p | None => (0%R, IZR (10 ^ 18)) end.
Lemma radii_some {B} fuel (data : arr B) cy cx theta r :
  linear_roi_from_polar fuel data cy cx theta r = linear_roi_from_polar fuel data cy cx theta (Some (radii r)).
Proof. destruct r as [[a b]|]; reflexivity. Qed.

Lemma ray_followed {B} (data : arr B) cy cx theta r :
  2 <= cy < rows data -> 2 <= cx < cols data -> whole_ray r ->
  exists vals ys xs density m,
    Terminates.evaluates (fun fuel => linear_roi_from_polar fuel data (IZR cy) (IZR cx) theta r) (vals, ys, xs, density) /\
    0 < m /\ length vals = Z.to_nat m /\ length ys = Z.to_nat m /\ length xs = Z.to_nat m /\
    item ys 0 cy /\ item xs 0 cx /\
    (forall k y x, item ys k y -> item xs k x ->
       0 <= y < rows data /\ 0 <= x < cols data /\
       nth_error vals (Z.to_nat k) = Some (cell data y x) /\
       exists t, (0 <= t < reach r + 2)%R /\ near_ray cy cx theta t 3 y x) /\
    (forall k y x y' x', item ys k y -> item xs k x -> item ys (k + 1) y' -> item xs (k + 1) x' ->
       Z.abs (y' - y) <= 1 /\ Z.abs (x' - x) <= 1 /\ (y', x') <> (y, x)) /\
    (forall y x, item ys (m - 1) y -> item xs (m - 1) x ->
       at_border (rows data) (cols data) 2 y x \/
       exists t, (reach r - 3 <= t)%R /\ near_ray cy cx theta t 3 y x).
Proof.
  intros Hcy Hcx Hr. set (p := radii r). assert (Hp : (fst p <= 0 /\ 2 < snd p /\ snd p = reach r)%R).
  { unfold p. destruct r as [[a b]|]; cbn [radii fst snd reach whole_ray] in *; [lra|].
    pose proof (IZR_lt 2 (10 ^ 18) eq_refl). lra. }
  destruct p as [rin rout] eqn:Ep. cbn [fst snd] in Hp. destruct Hp as (H1 & H2 & H3). subst rout.
  assert (Hlim : (1 < reach r - 1)%R) by lra.
  destruct (going_stops (rows data) (cols data) (IZR cy) (IZR cx) (reach r - 1) (theta * PI / 180))
    as (K & Hstop & Hgo).
  destruct (ray_run data cy cx theta (reach r - 1) Hcy Hcx Hlim K Hstop Hgo) as (m & Hkept & Hm & E).
  pose proof (sample_near data cy cx theta (reach r - 1) Hcy Hcx Hlim K Hstop Hgo) as Near.
  pose proof (last_sample data cy cx theta (reach r - 1) Hcy Hcx Hlim K Hstop Hgo m Hkept Hm) as Last.
  pose proof (n_pos data cy cx theta (reach r - 1) Hcy Hcx Hlim K Hstop Hgo) as Hn.
  destruct Hkept as [Hmn Hin].
  set (ey := rtrunc (IZR cy - INR K * sin (theta * PI / 180))) in *.
  set (ex := rtrunc (IZR cx + INR K * cos (theta * PI / 180))) in *.
  set (n := longer (ey - cy) (ex - cx)) in *.
  eexists _, _, _, _, m. split; [|split; [exact Hm|]].
  { exists K. intros fuel Hf. rewrite radii_some. fold p. rewrite Ep. apply (E rin H1 (reach r) eq_refl fuel Hf). }
  rewrite !map_length, !length_zrange. do 3 (split; [reflexivity|]).
  split; [|split].
  { pose proof (item_map (along cy (ey - cy) n) m 0 ltac:(lia)) as I0. rewrite along_0 in I0 by exact Hn. exact I0. }
  { pose proof (item_map (along cx (ex - cx) n) m 0 ltac:(lia)) as I0. rewrite along_0 in I0 by exact Hn. exact I0. }
  split; [|split].
  - intros k y x Hy Hx. apply item_map_inv in Hy. apply item_map_inv in Hx.
    destruct Hy as [Hk ->]. destruct Hx as [_ ->]. destruct (Hin k Hk) as [Iy Ix].
    split; [exact Iy|]. split; [exact Ix|]. split.
    + rewrite nth_error_map, nth_error_zrange by exact Hk. reflexivity.
    + destruct (Near k ltac:(lia)) as [N1 N2]. eexists. split; [|exact N1]. lra.
  - intros k y x y' x' Hy Hx Hy' Hx'. apply item_map_inv in Hy, Hx, Hy', Hx'.
    destruct Hy as [Hk ->]. destruct Hx as [_ ->]. destruct Hy' as [Hk' ->]. destruct Hx' as [_ ->].
    split; [apply along_step; [exact Hn|unfold n, longer; lia]|]. split; [apply along_step; [exact Hn|unfold n, longer; lia]|].
    intros Eq. injection Eq as E1 E2.
    destruct (Z_le_gt_dec (Z.abs (ey - cy)) (Z.abs (ex - cx))) as [L|L].
    + assert (Z.abs (ex - cx) = n) by (unfold n, longer; lia).
      rewrite !(along_major cx) in E2 by lia. nia.
    + assert (Z.abs (ey - cy) = n) by (unfold n, longer; lia).
      rewrite !(along_major cy) in E1 by lia. nia.
  - intros y x Hy Hx. apply item_map_inv in Hy. apply item_map_inv in Hx.
    destruct Hy as [Hk ->]. destruct Hx as [_ ->]. destruct Last as [Lb|Lt]; [left; exact Lb|right].
    destruct (Near (m - 1) ltac:(lia)) as [N1 N2]. eexists. split; [|exact N1]. lra.
Qed.

(** ** Failures *)
Lemma whole_ray_inner r : whole_ray r -> (fst (radii r) <= 0)%R.
Proof. destruct r as [[a b]|]; cbn; lra. Qed.

Lemma border_centre {B} fuel (data : arr B) cy cx theta r :
  cy <= 1 \/ cx <= 1 -> whole_ray r ->
  linear_roi_from_polar fuel data (IZR cy) (IZR cx) theta r = Raise ValueError.
Proof.
  intros Hb Hr. apply whole_ray_inner in Hr. rewrite radii_some. destruct (radii r) as [rin rout]. cbn [fst] in Hr.
  unfold linear_roi_from_polar. rewrite inner_none by exact Hr. cbn [bind].
  assert (E : going (rows data) (cols data) (IZR cy) (IZR cx) (rout - 1) (IZR cy, IZR cx) = false).
  { unfold going, Rltb. repeat match goal with |- context [Rlt_dec ?a ?b] => destruct (Rlt_dec a b) end;
      try reflexivity; exfalso.
    destruct Hb as [Hb|Hb]; apply IZR_le in Hb; lra. }
  unfold going in E. destruct fuel; cbn [while_loop]; rewrite E; cbn [bind]; rewrite !rtrunc_IZR;
    rewrite (proj1 (dda_same cy cx)); reflexivity.
Qed.

Lemma INR_Z (z : Z) : 0 <= z -> INR (Z.to_nat z) = IZR z.
Proof. intros Hz. rewrite INR_IZR_INZ, Z2Nat.id by exact Hz. reflexivity. Qed.

Lemma inner_loop cy cx rad rin : 0 <= rin -> forall fuel, (Z.to_nat rin <= fuel)%nat ->
  while_loop fuel (fun '(y, x) => Rltb (distance cy cx y x) (IZR rin)) (march rad) (cy, cx) =
    Ok ((cy - IZR rin * sin rad)%R, (cx + IZR rin * cos rad)%R).
Proof.
  intros Hr fuel Hf. pose proof (while_seq (fun '(y, x) => Rltb (distance cy cx y x) (IZR rin)) (march rad)
    (pos cy cx rad) (march_pos _ _ _) (Z.to_nat rin) 0) as W. rewrite pos_0 in W. cbn [Nat.add] in W.
  rewrite W; [unfold pos; rewrite INR_Z by exact Hr; reflexivity| | |exact Hf].
  - intros j Hj. unfold pos. rewrite distance_pos. unfold Rltb. destruct (Rlt_dec _ _) as [|L]; [reflexivity|exfalso].
    apply L. rewrite <- (INR_Z rin Hr). apply lt_INR. lia.
  - unfold pos. rewrite distance_pos, INR_Z by exact Hr. unfold Rltb. destruct (Rlt_dec _ _); [exfalso; lra|reflexivity].
Qed.

Lemma outer_loop ht wd cy cx lim rad K :
  (forall j, (j < K)%nat -> going ht wd cy cx lim (pos cy cx rad j) = true) ->
  going ht wd cy cx lim (pos cy cx rad K) = false ->
  forall fuel, (K <= fuel)%nat ->
  while_loop fuel (fun '(y, x) =>
    Rltb y (IZR ht) && Rltb 1 y && Rltb x (IZR wd) && Rltb 1 x && Rltb (distance cy cx y x) lim) (march rad) (cy, cx) =
    Ok (pos cy cx rad K).
Proof.
  intros Hg Hs fuel Hf. pose proof (while_seq (going ht wd cy cx lim) (march rad)
    (pos cy cx rad) (march_pos _ _ _) K 0) as W. rewrite pos_0 in W. cbn [Nat.add] in W.
  apply W; [intros; apply Hg; lia|exact Hs|exact Hf].
Qed.

(** An inner radius beyond the right border. *)
Lemma inner_right {B} (data : arr B) cy cx rin rout :
  2 <= cy < rows data -> 2 <= cx < cols data -> cols data <= rin -> (IZR (cols data) <= rout - 1)%R ->
  exists n, forall fuel, (n <= fuel)%nat ->
    linear_roi_from_polar fuel data (IZR cy) (IZR cx) 0 (Some (IZR rin, rout)) = Raise IndexError.
Proof.
  intros Hcy Hcx Hrin Hrout. exists (Z.to_nat (rin + cols data + 1)). intros fuel Hf.
  unfold linear_roi_from_polar. replace (0 * PI / 180)%R with 0%R by lra.
  rewrite inner_loop by lia. cbn [bind]. rewrite sin_0, cos_0.
  rewrite (outer_loop (rows data) (cols data) (IZR cy) (IZR cx) (rout - 1) 0 (Z.to_nat (cols data - cx))); [| | |lia].
  2: { intros j Hj. apply going_spec. rewrite sin_0, cos_0.
       pose proof (IZR_lt _ _ (proj2 Hcy)). pose proof (IZR_lt 1 cy ltac:(lia)). pose proof (IZR_lt 1 cx ltac:(lia)).
       assert (INR j < IZR (cols data - cx))%R by (rewrite <- INR_Z by lia; apply lt_INR; exact Hj).
       rewrite minus_IZR in *. pose proof (pos_INR j). lra. }
  2: { apply Bool.not_true_is_false. rewrite going_spec, sin_0, cos_0, INR_Z by lia. rewrite minus_IZR. lra. }
  cbn [bind]. unfold pos. rewrite sin_0, cos_0, INR_Z by lia.
  replace (IZR cy - IZR rin * 0)%R with (IZR cy) by ring.
  replace (IZR cy - IZR (cols data - cx) * 0)%R with (IZR cy) by ring.
  replace (IZR cx + IZR rin * 1)%R with (IZR (cx + rin)) by (rewrite plus_IZR; ring).
  replace (IZR cx + IZR (cols data - cx) * 1)%R with (IZR (cols data)) by (rewrite minus_IZR; ring).
  rewrite !rtrunc_IZR.
  assert (Ln : longer (cy - cy) (cols data - (cx + rin)) = cx + rin - cols data) by (unfold longer; lia).
  rewrite dda_points by lia. rewrite Ln. set (n := cx + rin - cols data). assert (Hn : 0 < n) by (unfold n; lia).
  cbn [bind]. destruct fuel as [|f]; [lia|]. cbn [trim].
  replace (zrange (n + 2)) with (zrange (n + 1 + 1)) by (f_equal; lia).
  rewrite !rev_map_zrange by lia.
  rewrite !(along_major (cx + rin)) by (unfold n; lia).
  assert (F : forall k, along cy (cy - cy) n k = cy).
  { intros k. unfold along. replace (cy * n + k * (cy - cy)) with (cy * n) by lia. apply Z.quot_mul. lia. }
  rewrite F. replace (Z.sgn (cols data - (cx + rin))) with (-1) by lia.
  rewrite outside_false by (unfold n; lia). cbn [bind].
  assert (Z0 : exists l, zrange (n + 1 + 1) = 0 :: l).
  { unfold zrange. replace (Z.to_nat (n + 1 + 1)) with (S (Z.to_nat (n + 1))) by lia. cbn [seq map]. eexists; reflexivity. }
  destruct Z0 as (l & ->). cbn [map values]. rewrite F, along_0 by exact Hn.
  unfold get, norm_idx.
  replace ((0 <=? cy) && (cy <? rows data)) with true by (symmetry; apply andb_true_intro; split; [apply Z.leb_le|apply Z.ltb_lt]; lia).
  replace ((0 <=? cx + rin) && (cx + rin <? cols data)) with false
    by (symmetry; apply andb_false_iff; right; apply Z.ltb_ge; lia).
  replace ((- cols data <=? cx + rin) && (cx + rin <? 0)) with false
    by (symmetry; apply andb_false_iff; right; apply Z.ltb_ge; lia).
  reflexivity.
Qed.

Lemma values_wrapped {B} (data : arr B) cy (l : list Z) (f : Z -> Z) :
  0 <= cy < rows data -> (forall k, In k l -> - cols data <= f k < cols data) ->
  values data (map (fun _ => cy) l) (map f l) =
    Ok (map (fun k => cell data cy (if f k <? 0 then cols data + f k else f k)) l).
Proof.
  intros Hy. induction l as [|k l IH]; intros Hb; [reflexivity|]. cbn [map values].
  specialize (Hb k) as Hk. specialize (Hk (or_introl eq_refl)).
  unfold get, norm_idx.
  replace ((0 <=? cy) && (cy <? rows data)) with true by (symmetry; apply andb_true_intro; split; [apply Z.leb_le|apply Z.ltb_lt]; lia).
  destruct (Z.ltb_spec (f k) 0) as [L|L].
  - replace (0 <=? f k) with false by (symmetry; apply Z.leb_gt; lia). cbn [andb].
    replace (- cols data <=? f k) with true by (symmetry; apply Z.leb_le; lia). cbn [andb bind].
    rewrite IH by (intros; apply Hb; right; assumption). cbn [bind]. reflexivity.
  - replace (0 <=? f k) with true by (symmetry; apply Z.leb_le; lia).
    replace (f k <? cols data) with true by (symmetry; apply Z.ltb_lt; lia). cbn [andb bind].
    rewrite IH by (intros; apply Hb; right; assumption). cbn [bind]. reflexivity.
Qed.

(** An inner radius beyond the left border. *)
Lemma inner_left {B} (data : arr B) cy cx rin rout :
  2 <= cy < rows data -> 2 <= cx < cols data -> cx < rin <= cols data -> (IZR cx <= rout - 1)%R ->
  Terminates.returns (fun fuel => linear_roi_from_polar fuel data (IZR cy) (IZR cx) 180 (Some (IZR rin, rout)))
    (fun '(vals, ys, xs, _) => item ys 0 cy /\ item xs 0 (cx - rin) /\
       nth_error vals 0 = Some (cell data cy (cols data + (cx - rin)))).
Proof.
  intros Hcy Hcx Hrin Hrout.
  set (n := 1 - (cx - rin)). assert (Hn : 0 < n) by (unfold n; lia).
  exists (map (fun k => cell data cy (if (cx - rin + k <? 0) then cols data + (cx - rin + k) else cx - rin + k)) (zrange (n + 2)),
          map (fun _ => cy) (zrange (n + 2)), map (fun k => cx - rin + k) (zrange (n + 2)),
          (sqrt (IZR ((1 - (cx - rin)) * (1 - (cx - rin)) + (cy - cy) * (cy - cy))) / IZR (n + 2))%R).
  assert (Z0 : exists l, zrange (n + 2) = 0 :: l).
  { unfold zrange. replace (Z.to_nat (n + 2)) with (S (Z.to_nat (n + 1))) by lia. cbn [seq map]. eexists; reflexivity. }
  split.
  - destruct Z0 as (l & ->). cbn [map nth_error]. unfold item. rewrite !Z.add_0_r.
    replace (cx - rin <? 0) with true by (symmetry; apply Z.ltb_lt; lia).
    repeat split; try lia.
  - exists (Z.to_nat (rin + cx + 1)). intros fuel Hf.
    unfold linear_roi_from_polar. replace (180 * PI / 180)%R with PI by lra.
    rewrite inner_loop by lia. cbn [bind]. rewrite sin_PI, cos_PI.
    rewrite (outer_loop (rows data) (cols data) (IZR cy) (IZR cx) (rout - 1) PI (Z.to_nat (cx - 1))); [| | |lia].
    2: { intros j Hj. apply going_spec. rewrite sin_PI, cos_PI.
         pose proof (IZR_lt _ _ (proj2 Hcy)). pose proof (IZR_lt 1 cy ltac:(lia)).
         pose proof (IZR_lt _ _ (proj2 Hcx)).
         assert (INR j < IZR (cx - 1))%R by (rewrite <- INR_Z by lia; apply lt_INR; exact Hj).
         rewrite minus_IZR in *. pose proof (pos_INR j). lra. }
    2: { apply Bool.not_true_is_false. rewrite going_spec, sin_PI, cos_PI, INR_Z by lia. rewrite minus_IZR. lra. }
    cbn [bind]. unfold pos. rewrite sin_PI, cos_PI, INR_Z by lia.
    replace (IZR cy - IZR rin * 0)%R with (IZR cy) by ring.
    replace (IZR cy - IZR (cx - 1) * 0)%R with (IZR cy) by ring.
    replace (IZR cx + IZR rin * -1)%R with (IZR (cx - rin)) by (rewrite minus_IZR; ring).
    replace (IZR cx + IZR (cx - 1) * -1)%R with (IZR 1) by (rewrite minus_IZR; ring).
    rewrite !rtrunc_IZR.
    assert (Ln : longer (cy - cy) (1 - (cx - rin)) = n) by (unfold longer, n; lia).
    rewrite dda_points by lia. rewrite Ln. cbn [bind].
    assert (F : map (along cy (cy - cy) n) (zrange (n + 2)) = map (fun _ => cy) (zrange (n + 2))).
    { apply map_ext. intros k. unfold along. replace (cy * n + k * (cy - cy)) with (cy * n) by lia. apply Z.quot_mul. lia. }
    assert (G : map (along (cx - rin) (1 - (cx - rin)) n) (zrange (n + 2)) = map (fun k => cx - rin + k) (zrange (n + 2))).
    { apply map_ext. intros k. rewrite along_major by (unfold n; lia).
      replace (Z.sgn (1 - (cx - rin))) with 1 by lia. lia. }
    rewrite F, G. destruct fuel as [|f]; [lia|]. cbn [trim].
    replace (zrange (n + 2)) with (zrange (n + 1 + 1)) by (f_equal; lia).
    rewrite !rev_map_zrange by lia. rewrite outside_false by (unfold n; lia). cbn [bind].
    rewrite values_wrapped; [reflexivity|lia|]. intros k Hk. apply in_zrange in Hk. unfold n in Hk. lia.
Qed.

(** A radius of two pixels towards the bottom right. *)
Lemma short_radius {B} (data : arr B) cy cx rout :
  2 <= cy < rows data -> 2 <= cx < cols data -> (rout <= 2)%R ->
  exists n, forall fuel, (n <= fuel)%nat ->
    linear_roi_from_polar fuel data (IZR cy) (IZR cx) (-45) (Some (0%R, rout)) = Raise ValueError.
Proof.
  intros Hcy Hcx Hr. exists 1%nat. intros fuel Hf. unfold linear_roi_from_polar.
  rewrite inner_none by lra. cbn [bind]. replace (-45 * PI / 180)%R with (- (PI / 4))%R by lra.
  assert (B0 : (0 < 1 / sqrt 2 < 1)%R).
  { assert (1 < sqrt 2)%R by (rewrite <- sqrt_1; apply sqrt_lt_1; lra). split.
    - apply Rdiv_lt_0_compat; lra.
    - apply (Rmult_lt_reg_r (sqrt 2)); [lra|]. replace (1 / sqrt 2 * sqrt 2)%R with 1%R by (field; lra). lra. }
  assert (T : forall c, 2 <= c -> forall k, (k <= 1)%nat -> rtrunc (IZR c + INR k * (1 / sqrt 2)) = c).
  { intros c Hc k Hk. apply IZR_le in Hc. assert (INR k = 0%R \/ INR k = 1%R) as HK.
    { destruct k as [|[|k]]; [left; reflexivity|right; reflexivity|lia]. }
    apply (truncated_unique (IZR c + INR k * (1 / sqrt 2))); [apply rtrunc_spec|].
    destruct HK as [-> | ->]; split; intros; lra. }
  destruct (going (rows data) (cols data) (IZR cy) (IZR cx) (rout - 1) (pos (IZR cy) (IZR cx) (- (PI / 4)) 0)) eqn:E.
  - rewrite (outer_loop (rows data) (cols data) (IZR cy) (IZR cx) (rout - 1) (- (PI / 4)) 1); [| | |exact Hf].
    2: { intros j Hj. replace j with O by lia. exact E. }
    2: { apply Bool.not_true_is_false. rewrite going_spec. cbn [INR]. lra. }
    cbn [bind]. unfold pos. rewrite sin_neg, cos_neg, sin_PI4, cos_PI4.
    replace (IZR cy - INR 1 * - (1 / sqrt 2))%R with (IZR cy + INR 1 * (1 / sqrt 2))%R by ring.
    rewrite !T by lia. rewrite !rtrunc_IZR, (proj1 (dda_same cy cx)). reflexivity.
  - rewrite (outer_loop (rows data) (cols data) (IZR cy) (IZR cx) (rout - 1) (- (PI / 4)) 0); [| | |lia].
    2: { intros; lia. }
    2: { exact E. }
    cbn [bind]. rewrite pos_0, !rtrunc_IZR, (proj1 (dda_same cy cx)). reflexivity.
Qed.
