(** Lines along an angle that begin at an inner radius. *)
From Coq Require Import Reals Lra Lia.
From Verif Require Import Base.Base Base.BaseFacts Base.Num Model.Codec Model.LinRoi Model.PolarLine
  Spec.CodecSpec Spec.LineSpec Spec.RaySpec Spec.Terminates Proofs.RawFacts Proofs.LineFacts Proofs.PolarLineFacts.
Local Open Scope Z_scope.

Section Inner.
  Context {B : Type} (data : arr B) (cy cx : Z) (theta lim : R) (k0 K : nat) (HK : (k0 + 2 <= K)%nat).
  Let rad := (theta * PI / 180)%R.
  Let ht := rows data.
  Let wd := cols data.
  Context (Hstop : going ht wd (IZR cy) (IZR cx) lim (pos (IZR cy) (IZR cx) rad K) = false)
    (Hgo : forall j, (j < K)%nat -> going ht wd (IZR cy) (IZR cx) lim (pos (IZR cy) (IZR cx) rad j) = true).
  Let y1 := (IZR cy - INR k0 * sin rad)%R.
  Let x1 := (IZR cx + INR k0 * cos rad)%R.
  Let y2 := (IZR cy - INR K * sin rad)%R.
  Let x2 := (IZR cx + INR K * cos rad)%R.
  Let L := (INR K - INR k0)%R.

  Lemma start_inside : (1 < y1 < IZR ht /\ 1 < x1 < IZR wd)%R.
  Proof. assert (E := Hgo k0 ltac:(lia)). apply going_spec in E. unfold y1, x1. lra. Qed.
  Lemma stop_bounds : (0 < y2 < IZR ht + 1 /\ 0 < x2 < IZR wd + 1 /\ INR K < lim + 1)%R.
  Proof.
    assert (EK : exists j, K = S j) by (exists (pred K); lia). destruct EK as [j EK].
    assert (E := Hgo j ltac:(lia)). apply going_spec in E. unfold y2, x2. rewrite EK, !S_INR.
    pose proof (SIN_bound rad). pose proof (COS_bound rad). lra.
  Qed.
  Lemma stop_reached : (IZR ht <= y2 \/ y2 <= 1 \/ IZR wd <= x2 \/ x2 <= 1 \/ lim <= INR K)%R.
  Proof.
    destruct (Rlt_dec y2 (IZR ht)); [|left; lra]. destruct (Rlt_dec 1 y2); [|right; left; lra].
    destruct (Rlt_dec x2 (IZR wd)); [|right; right; left; lra]. destruct (Rlt_dec 1 x2); [|right; right; right; left; lra].
    destruct (Rlt_dec (INR K) lim); [exfalso|right; right; right; right; lra].
    assert (going ht wd (IZR cy) (IZR cx) lim (pos (IZR cy) (IZR cx) rad K) = true) by (apply going_spec; auto).
    congruence.
  Qed.

  Let sy := rtrunc y1.
  Let sx := rtrunc x1.
  Let ey := rtrunc y2.
  Let ex := rtrunc x2.
  Let n := longer (ey - sy) (ex - sx).

  Lemma cuts : (IZR sy <= y1 < IZR sy + 1 /\ IZR sx <= x1 < IZR sx + 1 /\ IZR ey <= y2 < IZR ey + 1 /\ IZR ex <= x2 < IZR ex + 1)%R.
  Proof. pose proof start_inside. pose proof stop_bounds. repeat split; apply rtrunc_pos; lra. Qed.
  Lemma ranges : 0 <= sy < ht /\ 0 <= sx < wd /\ 0 <= ey <= ht /\ 0 <= ex <= wd.
  Proof.
    pose proof start_inside. pose proof stop_bounds. pose proof cuts.
    assert (low : forall v : Z, (-1 < IZR v)%R -> 0 <= v) by (intros v Hv; apply (lt_IZR (-1)) in Hv; lia).
    assert (high : forall v w : Z, (IZR v < IZR w)%R -> v < w) by (intros v w Hv; apply lt_IZR in Hv; exact Hv).
    assert (high1 : forall v w : Z, (IZR v < IZR w + 1)%R -> v <= w) by (intros v w Hv; rewrite <- plus_IZR in Hv; apply lt_IZR in Hv; lia).
    repeat split; first [apply low; lra | apply high; lra | apply high1; lra].
  Qed.
  Lemma L_square : (L * L = (y2 - y1) * (y2 - y1) + (x2 - x1) * (x2 - x1))%R.
  Proof.
    unfold y2, x2, y1, x1, L. pose proof (sin2_cos2 rad) as E. unfold Rsqr in E.
    transitivity ((INR K - INR k0) * (INR K - INR k0) * (sin rad * sin rad + cos rad * cos rad))%R; [rewrite E; ring|ring].
  Qed.
  Lemma L_2 : (2 <= L)%R.
  Proof. unfold L. assert (H : (INR (k0 + 2) <= INR K)%R) by (apply le_INR; exact HK). rewrite plus_INR in H. change (INR 2) with 2%R in H. lra. Qed.

  Lemma steps_pos : 0 < n.
  Proof.
    unfold n, longer. assert (~ (ey = sy /\ ex = sx)); [|lia]. intros [E1 E2].
    pose proof cuts as (A & B0 & C & D). rewrite E1 in C. rewrite E2 in D. pose proof L_square as Q. pose proof L_2.
    assert (Sq : forall v, (-1 < v < 1 -> v * v < 1)%R) by (intros v Hv; nra).
    pose proof (Sq (y2 - y1)%R ltac:(lra)). pose proof (Sq (x2 - x1)%R ltac:(lra)). nra.
  Qed.
  Lemma L_le : (L <= 2 * IZR n)%R.
  Proof.
    pose proof steps_pos as Hn. pose proof cuts as (A & B0 & C & D).
    assert (Ny : (Rabs (IZR ey - IZR sy) <= IZR n)%R).
    { rewrite <- minus_IZR, <- abs_IZR. apply IZR_le. unfold n, longer. lia. }
    assert (Nx : (Rabs (IZR ex - IZR sx) <= IZR n)%R).
    { rewrite <- minus_IZR, <- abs_IZR. apply IZR_le. unfold n, longer. lia. }
    assert (tri : forall v m, (Rabs v <= m -> - m <= v <= m)%R) by (intros v m Hv; unfold Rabs in Hv; destruct (Rcase_abs v); lra).
    apply tri in Ny. apply tri in Nx.
    pose proof (IZR_le 1 n ltac:(lia)) as N1. pose proof L_square as Q.
    assert (Sq : forall v m, (- m < v < m -> v * v < m * m)%R) by (intros v m Hv; nra).
    pose proof (Sq (y2 - y1)%R (IZR n + 1)%R ltac:(lra)) as Qy. pose proof (Sq (x2 - x1)%R (IZR n + 1)%R ltac:(lra)) as Qx.
    unfold L in *. rewrite !INR_IZR_INZ in *. rewrite <- minus_IZR in *. set (k := Z.of_nat K - Z.of_nat k0) in *.
    assert (QZ : k * k < 2 * ((n + 1) * (n + 1))).
    { apply lt_IZR. rewrite !mult_IZR, plus_IZR. lra. }
    rewrite <- mult_IZR. apply IZR_le. assert (0 <= k) by (unfold k; lia). nia.
  Qed.

  Definition stays (m : Z) : Prop :=
    (m = n \/ m = n + 2) /\
    forall k, 0 <= k < m -> 0 <= along sy (ey - sy) n k < ht /\ 0 <= along sx (ex - sx) n k < wd.

  Lemma inside_before j : 0 <= j ->
    0 <= along sy (ey - sy) n j < ht -> 0 <= along sx (ex - sx) n j < wd ->
    forall k, 0 <= k <= j -> 0 <= along sy (ey - sy) n k < ht /\ 0 <= along sx (ex - sx) n k < wd.
  Proof.
    intros Hj Hy Hx k Hk. pose proof steps_pos as Hn. pose proof ranges as (Ry & Rx & _).
    pose proof (along_0 sy (ey - sy) n Hn) as Ey. pose proof (along_0 sx (ex - sx) n Hn) as Ex.
    pose proof (along_mono sy (ey - sy) n 0 k Hn ltac:(lia)) as M1.
    pose proof (along_mono sy (ey - sy) n k j Hn ltac:(lia)) as M2.
    pose proof (along_mono sx (ex - sx) n 0 k Hn ltac:(lia)) as M3.
    pose proof (along_mono sx (ex - sx) n k j Hn ltac:(lia)) as M4. lia.
  Qed.
  Lemma inside_end : 0 <= along sy (ey - sy) n (n - 1) < ht /\ 0 <= along sx (ex - sx) n (n - 1) < wd.
  Proof.
    pose proof steps_pos as Hn. pose proof ranges as (Ry & Rx & Sy & Sx).
    assert (G : forall c e h, 0 <= c < h -> 0 <= e <= h -> Z.abs (e - c) <= n -> 0 <= along c (e - c) n (n - 1) < h).
    { intros c e h Hc He Hd. pose proof (along_0 c (e - c) n Hn) as E0. pose proof (along_n c (e - c) n Hn) as En.
      pose proof (along_mono c (e - c) n 0 (n - 1) Hn ltac:(lia)) as M1.
      pose proof (along_mono c (e - c) n (n - 1) n Hn ltac:(lia)) as M2.
      destruct (Z.eq_dec e h) as [->|]; [|lia].
      assert (along c (h - c) n (n - 1) < h); [|lia].
      unfold along. apply Z.quot_lt_upper_bound; [nia|lia|]. nia. }
    split; apply G; try assumption; unfold n, longer; lia.
  Qed.
  Lemma inner_trimmed : exists m, stays m /\ forall fuel, (0 < fuel)%nat ->
    trim fuel ht wd (map (along sy (ey - sy) n) (zrange (n + 2))) (map (along sx (ex - sx) n) (zrange (n + 2))) =
      Ok (map (along sy (ey - sy) n) (zrange m), map (along sx (ex - sx) n) (zrange m)).
  Proof.
    pose proof steps_pos as Hn.
    destruct (outside ht wd (along sy (ey - sy) n (n + 1)) (along sx (ex - sx) n (n + 1))) eqn:E.
    - exists n. destruct inside_end as [Hy Hx]. split.
      + split; [left; reflexivity|]. intros k Hk. apply (inside_before (n - 1)); auto; lia.
      + intros [|f] Hf'; [lia|]. cbn [trim].
        replace (n + 2) with (n + 1 + 1) by lia. rewrite !rev_map_zrange by lia. rewrite E.
        replace (n + 1 + 1) with (n + 2) by lia. rewrite !but_two_map by lia.
        destruct f; cbn [trim]; replace (zrange n) with (zrange (n - 1 + 1)) by (f_equal; lia);
          rewrite !rev_map_zrange by lia; rewrite outside_false by assumption; reflexivity.
    - exists (n + 2). apply outside_inv in E. destruct E as [Hy Hx]. split.
      + split; [right; reflexivity|]. intros k Hk. apply (inside_before (n + 1)); auto; lia.
      + intros [|f] Hf'; [lia|]. cbn [trim].
        replace (n + 2) with (n + 1 + 1) by lia. rewrite !rev_map_zrange by lia.
        rewrite outside_false by assumption. reflexivity.
  Qed.

  Definition sampled (k : Z) : R := (INR k0 + IZR k / IZR n * L)%R.

  Lemma inner_near k : 0 <= k <= n + 1 ->
    near_ray cy cx theta (sampled k) 3 (along sy (ey - sy) n k) (along sx (ex - sx) n k) /\ (INR k0 <= sampled k < lim + 3)%R.
  Proof.
    intros Hk. pose proof steps_pos as Hn. pose proof (IZR_le 1 n ltac:(lia)) as N1.
    set (u := (IZR k / IZR n)%R). assert (Hu : (0 <= u /\ (u - 1) * IZR n <= 1)%R).
    { split.
      - unfold u. apply Rmult_le_pos; [apply (IZR_le 0); lia|]. apply Rlt_le, Rinv_0_lt_compat. lra.
      - unfold u. replace ((IZR k / IZR n - 1) * IZR n)%R with (IZR k - IZR n)%R by (field; lra).
        rewrite <- minus_IZR. apply IZR_le. lia. }
    assert (Hu2 : (u <= 2)%R) by nra.
    pose proof cuts as (By1 & Bx1 & By & Bx).
    pose proof (along_close sy (ey - sy) n k Hn) as Cy. pose proof (along_close sx (ex - sx) n k Hn) as Cx.
    fold u in Cy, Cx. rewrite minus_IZR in Cy, Cx. apply Rabs_def2 in Cy. apply Rabs_def2 in Cx.
    unfold near_ray, ray_row, ray_col, sampled. fold u. fold rad.
    assert (mix : forall s e a b : R, (s <= a < s + 1 -> e <= b < e + 1 -> -2 <= (s + u * (e - s)) - (a + u * (b - a)) <= 2)%R).
    { intros s e a b Ha Hb. replace ((s + u * (e - s)) - (a + u * (b - a)))%R with (- ((1 - u) * (a - s)) - u * (b - e))%R by ring.
      assert (P : (0 <= u * (b - e) <= u)%R) by (split; nra). destruct (Rle_lt_dec u 1) as [L1|L1].
      - assert (0 <= (1 - u) * (a - s) <= 1 - u)%R by (split; nra). lra.
      - assert (- (u - 1) <= (1 - u) * (a - s) <= 0)%R by (split; nra). lra. }
    pose proof (mix _ _ _ _ By1 By) as Py. pose proof (mix _ _ _ _ Bx1 Bx) as Px.
    assert (Ey : (IZR cy - (INR k0 + u * L) * sin rad = y1 + u * (y2 - y1))%R) by (unfold y1, y2, L; ring).
    assert (Ex : (IZR cx + (INR k0 + u * L) * cos rad = x1 + u * (x2 - x1))%R) by (unfold x1, x2, L; ring).
    rewrite Ey, Ex. split; [split; apply Rabs_def1; lra|].
    pose proof stop_bounds as (_ & _ & HKl). pose proof L_le as KL. pose proof L_2. split; [nra|].
    assert (EL : (INR K = INR k0 + L)%R) by (unfold L; ring).
    destruct (Rle_lt_dec u 1) as [L1|L1]; [nra|].
    assert ((u - 1) * L <= (u - 1) * (2 * IZR n))%R by (apply Rmult_le_compat_l; lra). lra.
  Qed.

  Lemma inner_last m : stays m -> 0 < m ->
    at_border ht wd 2 (along sy (ey - sy) n (m - 1)) (along sx (ex - sx) n (m - 1)) \/ (lim - 2 <= sampled (m - 1))%R.
  Proof.
    intros [Hm _] H0. pose proof steps_pos as Hn. pose proof cuts as (_ & _ & By & Bx). pose proof ranges as (_ & _ & Ry & Rx).
    assert (S : forall c e, Z.abs (e - c) <= n -> Z.abs (along c (e - c) n (m - 1) - e) <= 1).
    { intros c e Hd. pose proof (along_n c (e - c) n Hn) as En.
      destruct Hm as [-> | ->].
      - pose proof (along_step c (e - c) n (n - 1) Hn Hd) as St. replace (n - 1 + 1) with n in St by lia. lia.
      - pose proof (along_step c (e - c) n n Hn Hd) as St. replace (n + 2 - 1) with (n + 1) by lia. lia. }
    pose proof (S sy ey ltac:(unfold n, longer; lia)) as Sy. pose proof (S sx ex ltac:(unfold n, longer; lia)) as Sx.
    unfold at_border. destruct stop_reached as [R|[R|[R|[R|R]]]].
    - left. assert (H : (IZR ht < IZR (ey + 1))%R) by (rewrite plus_IZR; lra). apply lt_IZR in H. lia.
    - left. assert (H : (IZR ey <= IZR 1)%R) by lra. apply le_IZR in H. lia.
    - left. assert (H : (IZR wd < IZR (ex + 1))%R) by (rewrite plus_IZR; lra). apply lt_IZR in H. lia.
    - left. assert (H : (IZR ex <= IZR 1)%R) by lra. apply le_IZR in H. lia.
    - right. pose proof L_le as KL. pose proof (IZR_le 1 n ltac:(lia)) as N1. pose proof L_2.
      assert (EL : (INR K = INR k0 + L)%R) by (unfold L; ring).
      assert (T : ((IZR n - 1) / IZR n * L <= IZR (m - 1) / IZR n * L)%R).
      { apply Rmult_le_compat_r; [lra|]. apply Rmult_le_compat_r; [apply Rlt_le, Rinv_0_lt_compat; lra|].
        destruct Hm as [-> | ->]; rewrite ?minus_IZR, ?plus_IZR; lra. }
      assert (T2 : (L - 2 <= (IZR n - 1) / IZR n * L)%R).
      { apply (Rmult_le_reg_r (IZR n)); [lra|]. replace ((IZR n - 1) / IZR n * L * IZR n)%R with ((IZR n - 1) * L)%R by (field; lra). nra. }
      unfold sampled. lra.
  Qed.

  Lemma inner_run (rin : R) : (rin <= INR k0)%R -> (forall j, (j < k0)%nat -> (INR j < rin)%R) -> exists m, stays m /\ 0 < m /\
    forall rout, lim = (rout - 1)%R -> forall fuel, (K <= fuel)%nat ->
    linear_roi_from_polar fuel data (IZR cy) (IZR cx) theta (Some (rin, rout)) =
      Ok (map (fun k => cell data (along sy (ey - sy) n k) (along sx (ex - sx) n k)) (zrange m),
          map (along sy (ey - sy) n) (zrange m), map (along sx (ex - sx) n) (zrange m),
          (sqrt (IZR ((ex - sx) * (ex - sx) + (ey - sy) * (ey - sy))) / IZR (n + 2))%R).
  Proof.
    intros R1 R2. pose proof steps_pos as Hn. destruct inner_trimmed as (m & Hm & Ht). exists m. split; [exact Hm|].
    split; [destruct Hm as [[-> | ->] _]; lia|].
    intros rout Hrout fuel Hf. unfold linear_roi_from_polar. fold rad ht wd.
    pose proof (while_seq (fun '(y, x) => Rltb (distance (IZR cy) (IZR cx) y x) rin) (march rad)
      (pos (IZR cy) (IZR cx) rad) (march_pos _ _ _) k0 0) as W0. rewrite pos_0 in W0. cbn [Nat.add] in W0.
    rewrite W0; [| | |lia].
    - cbn [bind]. rewrite <- Hrout. rewrite (outer_loop ht wd (IZR cy) (IZR cx) lim rad K Hgo Hstop fuel Hf). cbn [bind]. unfold pos.
      fold y1 x1 y2 x2. fold sy sx ey ex. rewrite dda_points by exact Hn. fold n. cbn [bind].
      rewrite Ht by lia. cbn [bind]. rewrite values_cells; [reflexivity|].
      intros k Hk. apply in_zrange in Hk. apply Hm. exact Hk.
    - intros j Hj. unfold pos. rewrite distance_pos. unfold Rltb. destruct (Rlt_dec _ _) as [|N]; [reflexivity|exfalso]. apply N, R2. lia.
    - unfold pos. rewrite distance_pos. unfold Rltb. destruct (Rlt_dec _ _); [exfalso; lra|reflexivity].
  Qed.
End Inner.

Lemma first_step (rin : R) : (0 < rin)%R -> exists k0, (rin <= INR k0 < rin + 1)%R /\ forall j, (j < k0)%nat -> (INR j < rin)%R.
Proof.
  intros H. destruct (first_false (fun k => Rltb (INR k) rin) (Z.to_nat (up rin))) as (k & _ & E & Hb).
  - destruct (archimed rin) as [Hu _]. unfold Rltb. destruct (Rlt_dec _ _) as [C|]; [exfalso|reflexivity].
    assert (0 <= up rin) by (apply le_IZR; lra). rewrite INR_IZR_INZ, Z2Nat.id in C by assumption. lra.
  - assert (Hb' : forall j, (j < k)%nat -> (INR j < rin)%R).
    { intros j Hj. specialize (Hb j Hj). unfold Rltb in Hb. destruct (Rlt_dec _ _); [assumption|discriminate]. }
    exists k. split; [|exact Hb']. unfold Rltb in E. destruct (Rlt_dec _ _) as [|N]; [discriminate|]. split; [lra|].
    destruct k as [|k]; [change (INR 0) with 0%R; lra|]. specialize (Hb' k ltac:(lia)). rewrite S_INR. lra.
Qed.

Lemma c80_inner {B} (data : arr B) cy cx theta rin rout :
  2 <= cy < rows data -> 2 <= cx < cols data -> (0 < rin)%R -> (rin + 4 <= rout)%R ->
  (1 < ray_row (IZR cy) theta (rin + 3) < IZR (rows data))%R -> (1 < ray_col (IZR cx) theta (rin + 3) < IZR (cols data))%R ->
  exists vals ys xs density m,
    evaluates (fun fuel => linear_roi_from_polar fuel data (IZR cy) (IZR cx) theta (Some (rin, rout))) (vals, ys, xs, density) /\
    0 < m /\ length vals = Z.to_nat m /\ length ys = Z.to_nat m /\ length xs = Z.to_nat m /\
    (forall y x, item ys 0 y -> item xs 0 x -> exists t, (rin <= t < rin + 1)%R /\ on_pixel cy cx theta t y x) /\
    (forall k y x, item ys k y -> item xs k x ->
       0 <= y < rows data /\ 0 <= x < cols data /\
       nth_error vals (Z.to_nat k) = Some (cell data y x) /\
       exists t, (rin <= t < rout + 2)%R /\ near_ray cy cx theta t 3 y x) /\
    (forall k y x y' x', item ys k y -> item xs k x -> item ys (k + 1) y' -> item xs (k + 1) x' ->
       Z.abs (y' - y) <= 1 /\ Z.abs (x' - x) <= 1 /\ (y', x') <> (y, x)) /\
    (forall y x, item ys (m - 1) y -> item xs (m - 1) x ->
       at_border (rows data) (cols data) 2 y x \/
       exists t, (rout - 3 <= t)%R /\ near_ray cy cx theta t 3 y x).
Proof.
  intros Hcy Hcx Hin Hout Fy Fx. destruct (first_step rin Hin) as (k0 & Rk & Rj).
  destruct (going_stops (rows data) (cols data) (IZR cy) (IZR cx) (rout - 1) (theta * PI / 180)) as (K & Hstop & Hgo).
  assert (HK : (k0 + 2 <= K)%nat).
  { destruct (le_lt_dec (k0 + 2) K) as [|C]; [assumption|exfalso].
    assert (G : going (rows data) (cols data) (IZR cy) (IZR cx) (rout - 1) (pos (IZR cy) (IZR cx) (theta * PI / 180) K) = true); [|congruence].
    assert (KR : (INR K <= rin + 2)%R).
    { assert (H : (INR K <= INR (k0 + 1))%R) by (apply le_INR; lia). rewrite plus_INR in H. change (INR 1) with 1%R in H. lra. }
    pose proof (pos_INR K) as K0. apply going_spec. unfold ray_row, ray_col in *.
    assert (1 < IZR cy < IZR (rows data))%R by (split; apply IZR_lt; lia). assert (1 < IZR cx < IZR (cols data))%R by (split; apply IZR_lt; lia).
    set (s := sin (theta * PI / 180)) in *. set (c := cos (theta * PI / 180)) in *.
    assert (conv : forall a d lo hi : R, (lo < a < hi -> lo < a + (rin + 3) * d < hi -> lo < a + INR K * d < hi)%R).
    { intros a d lo hi Ha Hd. destruct (Rle_lt_dec 0 d) as [D|D].
      - assert (0 <= INR K * d <= (rin + 3) * d)%R by (split; nra). lra.
      - assert ((rin + 3) * d <= INR K * d <= 0)%R by (split; nra). lra. }
    pose proof (conv (IZR cy) (- s)%R 1%R (IZR (rows data)) ltac:(lra) ltac:(lra)). pose proof (conv (IZR cx) c 1%R (IZR (cols data)) ltac:(lra) ltac:(lra)).
    repeat split; lra. }
  destruct (inner_run data cy cx theta (rout - 1) k0 K HK Hstop Hgo rin ltac:(lra) Rj) as (m & Hkept & Hm & E).
  pose proof (inner_near data cy cx theta (rout - 1) k0 K HK Hgo) as Near.
  pose proof (inner_last data cy cx theta (rout - 1) k0 K HK Hstop Hgo m Hkept Hm) as Last.
  pose proof (steps_pos data cy cx theta (rout - 1) k0 K HK Hgo) as Hn.
  pose proof (cuts data cy cx theta (rout - 1) k0 K HK Hgo) as (Cy & Cx & _).
  destruct Hkept as [Hmn Hins].
  set (sy := rtrunc (IZR cy - INR k0 * sin (theta * PI / 180))) in *.
  set (sx := rtrunc (IZR cx + INR k0 * cos (theta * PI / 180))) in *.
  set (ey := rtrunc (IZR cy - INR K * sin (theta * PI / 180))) in *.
  set (ex := rtrunc (IZR cx + INR K * cos (theta * PI / 180))) in *.
  set (n := longer (ey - sy) (ex - sx)) in *.
  eexists _, _, _, _, m. split; [|split; [exact Hm|]].
  { exists K. intros fuel Hf. apply (E rout eq_refl fuel Hf). }
  rewrite !map_length, !length_zrange. do 3 (split; [reflexivity|]). split; [|split; [|split]].
  - intros y x Hy Hx. apply item_map_inv in Hy. apply item_map_inv in Hx. destruct Hy as [_ ->]. destruct Hx as [_ ->].
    rewrite !along_0 by exact Hn. exists (INR k0). split; [exact Rk|]. split; [exact Cy|exact Cx].
  - intros k y x Hy Hx. apply item_map_inv in Hy. apply item_map_inv in Hx.
    destruct Hy as [Hk ->]. destruct Hx as [_ ->]. destruct (Hins k Hk) as [Iy Ix].
    split; [exact Iy|]. split; [exact Ix|]. split.
    + rewrite nth_error_map, nth_error_zrange by exact Hk. reflexivity.
    + destruct (Near k ltac:(lia)) as [N1 N2]. eexists. split; [|exact N1]. lra.
  - intros k y x y' x' Hy Hx Hy' Hx'. apply item_map_inv in Hy, Hx, Hy', Hx'.
    destruct Hy as [Hk ->]. destruct Hx as [_ ->]. destruct Hy' as [Hk' ->]. destruct Hx' as [_ ->].
    split; [apply along_step; [exact Hn|unfold n, longer; lia]|]. split; [apply along_step; [exact Hn|unfold n, longer; lia]|].
    intros Eq. injection Eq as E1 E2.
    destruct (Z_le_gt_dec (Z.abs (ey - sy)) (Z.abs (ex - sx))) as [Le|Le].
    + assert (Z.abs (ex - sx) = n) by (unfold n, longer; lia). rewrite !(along_major sx) in E2 by lia. nia.
    + assert (Z.abs (ey - sy) = n) by (unfold n, longer; lia). rewrite !(along_major sy) in E1 by lia. nia.
  - intros y x Hy Hx. apply item_map_inv in Hy. apply item_map_inv in Hx.
    destruct Hy as [Hk ->]. destruct Hx as [_ ->]. destruct Last as [Lb|Lt]; [left; exact Lb|right].
    destruct (Near (m - 1) ltac:(lia)) as [N1 N2]. eexists. split; [|exact N1]. lra.
Qed.
