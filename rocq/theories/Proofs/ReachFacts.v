(** Which pixels the radial filter reaches (C130). *)
From Coq Require Import Reals Lra Lia.
From Verif Require Import Base.Base Base.Num Model.Roi Model.Nrgf Spec.RoiSpec Spec.SumSpec Spec.CodecSpec
  Proofs.PolFacts Proofs.RoiFacts Proofs.NrgfFacts.
Local Open Scope R_scope.

Lemma ring_index (rho_min step : Z) d (N : Z) : (0 < step)%Z -> IZR rho_min < d <= IZR N ->
  exists k, (0 <= k)%Z /\ (rho_min + k * step < N)%Z /\ IZR (rho_min + k * step) < d <= IZR (rho_min + (k + 1) * step).
Proof.
  intros Hs [H1 H2].
  (* the first integer not below d *)
  pose proof (archimed (- d)) as [A1 A2]. set (c := (1 - up (- d))%Z).
  assert (C1 : d <= IZR c) by (unfold c; rewrite minus_IZR; lra). assert (C2 : IZR c - 1 < d) by (unfold c; rewrite minus_IZR; lra).
  assert (C3 : (rho_min < c)%Z) by (apply lt_IZR; lra).
  assert (C4 : (c <= N)%Z) by (assert (c - 1 < N)%Z by (apply lt_IZR; rewrite minus_IZR; lra); lia).
  exists ((c - 1 - rho_min) / step)%Z. set (k := ((c - 1 - rho_min) / step)%Z).
  pose proof (Z.mul_div_le (c - 1 - rho_min) step Hs) as D1. pose proof (Z.mul_succ_div_gt (c - 1 - rho_min) step Hs) as D2. fold k in D1, D2.
  assert (K0 : (0 <= k)%Z) by (apply Z.div_pos; lia).
  split; [exact K0|]. split; [lia|]. split.
  - apply Rle_lt_trans with (IZR (c - 1)); [apply IZR_le; lia|rewrite minus_IZR; lra].
  - apply Rle_trans with (IZR c); [exact C1|apply IZR_le; lia].
Qed.

Lemma c130_value data y0 x0 cy cx rho_min step tm t1 t2 out y x N :
  truncated y0 cy -> truncated x0 cx -> (0 < step)%Z ->
  nrgf data y0 x0 rho_min step tm (t1, t2) = Ok out ->
  (0 <= y < rows data)%Z -> (0 <= x < cols data)%Z ->
  (exists y' x', (0 <= y' < rows data)%Z /\ (0 <= x' < cols data)%Z /\ IZR N <= dist y' x' cy cx) ->
  IZR rho_min < dist y x cy cx <= IZR N ->
  in_sector (IZR y - IZR cy) (IZR x - IZR cx) (IZR rho_min) (IZR N) t1 t2 ->
  exists k, (0 <= k)%Z /\ IZR (rho_min + k * step) < dist y x cy cx <= IZR (rho_min + (k + 1) * step) /\
    forall P, ring_mask cy cx (rho_min + k * step) step (fst tm) (snd tm) P ->
      let n := rsum_over (rows data) (cols data) P (fun _ _ => 1) in
      let m := rsum_over (rows data) (cols data) P (cell data) / n in
      let v := rsum_over (rows data) (cols data) P (fun y x => Rsqr (cell data y x - m)) / n in
      (0 < n -> 0 < v -> cell out y x = (cell data y x - m) / sqrt v) /\
      (n = 0 \/ v = 0 -> cell out y x = 0).
Proof.
  intros Hcy Hcx Hs E Hy Hx Hfar Hd Hsec.
  destruct (nrgf_spec _ _ _ _ _ _ _ _ _ _ Hcy Hcx Hs E) as (rmax & Hrm & Ro & Co & V).
  destruct (ring_index rho_min step _ N Hs Hd) as (k & Hk & HkN & Hk').
  assert (Hlt : (rho_min + k * step < rmax)%Z).
  { apply Hrm. destruct Hfar as (y' & x' & Hy' & Hx' & Hd'). exists y', x'. rewrite rho_at_Z. split; [exact Hy'|]. split; [exact Hx'|].
    assert (IZR (rho_min + k * step + 1) <= IZR N) by (apply IZR_le; lia). lra. }
  exists k. split; [exact Hk|]. split; [exact Hk'|]. intros P HP.
  assert (Hr : ringb (IZR cy) (IZR cx) (rho_min + k * step) step (t1, t2) y x = true).
  { apply ringb_mask. destruct Hsec as (rho & phi & Hp & _ & Ht). exists rho, phi. split; [exact Hp|]. split; [|exact Ht].
    assert (R : rho = dist y x cy cx).
    { destruct Hp as (R0 & _ & Ex & Ey & _). unfold dist.
      replace (IZR ((y - cy) * (y - cy) + (x - cx) * (x - cx))) with (rho * rho * (Rsqr (sin (phi / 180 * PI)) + Rsqr (cos (phi / 180 * PI)))).
      - rewrite sin2_cos2, Rmult_1_r. symmetry. apply sqrt_square, R0.
      - rewrite plus_IZR, !mult_IZR, !minus_IZR, Ex, Ey. unfold Rsqr. ring. }
    rewrite R. replace (rho_min + k * step + step)%Z with (rho_min + (k + 1) * step)%Z by ring. exact Hk'. }
  destruct (V y x Hy Hx) as [V1 _]. specialize (V1 k Hk Hlt Hr). rewrite V1.
  destruct tm as [a b]. cbn [fst snd] in HP.
  pose proof (mask_unique _ _ _ _ _ _ _ _ HP (ringb_mask cy cx (rho_min + k * step) step a b)) as EP.
  cbv zeta. unfold ring_value. change msum with rsum_over.
  set (h := rows data). set (w := cols data). set (Q := ringb (IZR cy) (IZR cx) (rho_min + k * step) step (a, b)) in *.
  assert (S : forall f g, (forall y x, f y x = g y x) -> rsum_over h w P f = rsum_over h w Q g).
  { intros f g Efg. change rsum_over with msum. apply msum_ext; intros; [apply EP|apply Efg]. }
  rewrite (S (fun _ _ => 1) (fun _ _ => 1)) by reflexivity. rewrite (S (cell data) (cell data)) by reflexivity.
  set (n := rsum_over h w Q (fun _ _ => 1)). set (m := rsum_over h w Q (cell data) / n).
  rewrite (S (fun y x => Rsqr (cell data y x - m)) (fun y x => (cell data y x - m) * (cell data y x - m))) by reflexivity.
  set (v := rsum_over h w Q (fun y x => (cell data y x - m) * (cell data y x - m)) / n).
  split.
  - intros Hn Hv. rewrite (proj2 (Reqb_false n 0)) by lra. rewrite (proj2 (Rltb_true 0 (sqrt v))) by (apply sqrt_lt_R0, Hv). reflexivity.
  - intros [Hn|Hv].
    + rewrite (proj2 (Reqb_true n 0)) by exact Hn. reflexivity.
    + rewrite Hv, sqrt_0. rewrite (proj2 (Rltb_false 0 0)) by lra. destruct (Reqb n 0); reflexivity.
Qed.

Lemma c130_missed data y0 x0 cy cx rho_min step tm to out y x N k :
  truncated y0 cy -> truncated x0 cx -> (0 < step)%Z ->
  nrgf data y0 x0 rho_min step tm to = Ok out ->
  (0 <= y < rows data)%Z -> (0 <= x < cols data)%Z ->
  (forall y' x', (0 <= y' < rows data)%Z -> (0 <= x' < cols data)%Z -> dist y' x' cy cx < IZR (N + 1)) ->
  (N <= rho_min + k * step)%Z -> IZR (rho_min + k * step) < dist y x cy cx ->
  cell out y x = 0.
Proof.
  intros Hcy Hcx Hs E Hy Hx Hall HN Hd.
  destruct (nrgf_spec _ _ _ _ _ _ _ _ _ _ Hcy Hcx Hs E) as (rmax & Hrm & _ & _ & V).
  destruct (V y x Hy Hx) as [_ V2]. apply V2. intros j Hj Hlt.
  destruct (ringb (IZR cy) (IZR cx) (rho_min + j * step) step to y x) eqn:Er; [exfalso|reflexivity].
  apply Hrm in Hlt as (y' & x' & Hy' & Hx' & Hge). rewrite rho_at_Z in Hge. specialize (Hall y' x' Hy' Hx').
  assert (J : (rho_min + j * step + 1 < N + 1)%Z) by (apply lt_IZR; lra).
  unfold ringb in Er. rewrite !andb_true_iff, Rleb_true in Er. destruct Er as [[_ Er] _]. rewrite rho_at_Z in Er.
  assert (L : IZR (rho_min + k * step) < IZR (rho_min + j * step + step)) by lra. apply lt_IZR in L.
  assert (j * step < k * step)%Z by lia. assert (j < k)%Z by nia. nia.
Qed.

Lemma dist_lt y x cy cx n : (0 <= n)%Z -> ((y - cy) * (y - cy) + (x - cx) * (x - cx) < n * n)%Z -> dist y x cy cx < IZR n.
Proof.
  intros Hn H. unfold dist. rewrite <- (sqrt_square (IZR n)) by (apply IZR_le in Hn; exact Hn). apply sqrt_lt_1_alt. split.
  - apply IZR_le. pose proof (Z.square_nonneg (y - cy)). pose proof (Z.square_nonneg (x - cx)). lia.
  - rewrite <- mult_IZR. apply IZR_lt, H.
Qed.
Lemma lt_dist y x cy cx n : (0 <= n)%Z -> (n * n < (y - cy) * (y - cy) + (x - cx) * (x - cx))%Z -> IZR n < dist y x cy cx.
Proof.
  intros Hn H. unfold dist. rewrite <- (sqrt_square (IZR n)) by (apply IZR_le in Hn; exact Hn). apply sqrt_lt_1_alt. split.
  - apply IZR_le in Hn. apply Rmult_le_pos; assumption.
  - rewrite <- mult_IZR. apply IZR_lt, H.
Qed.
Lemma small_range z n : (0 <= z < n)%Z -> (n <= 5)%Z -> (z = 0 \/ z = 1 \/ z = 2 \/ z = 3 \/ z = 4)%Z.
Proof. lia. Qed.

Lemma c130_corners data tm to : rows data = 4%Z -> cols data = 4%Z ->
  exists out, nrgf data 2 2 0 1 tm to = Ok out /\ cell out 0 0 = 0 /\ cell out 0 1 = 0 /\ cell out 1 0 = 0 /\
    IZR 0 < dist 0 0 2 2 /\ IZR 0 < dist 0 1 2 2 /\ IZR 0 < dist 1 0 2 2.
Proof.
  intros Hr Hc. destruct (nrgf_total data 2 2 0 1 tm to) as (out & E); [lia..|]. exists out. split; [exact E|].
  assert (T : truncated 2 2) by (split; intros; lra).
  assert (A : forall y' x', (0 <= y' < rows data)%Z -> (0 <= x' < cols data)%Z -> dist y' x' 2 2 < IZR (2 + 1)).
  { intros y' x' Hy Hx. apply dist_lt; [lia|]. rewrite Hr in Hy. rewrite Hc in Hx.
    destruct (small_range y' 4 Hy ltac:(lia)) as [-> |[-> |[-> |[-> | ->]]]], (small_range x' 4 Hx ltac:(lia)) as [-> |[-> |[-> |[-> | ->]]]]; lia. }
  assert (M : forall y x, (0 <= y < 4)%Z -> (0 <= x < 4)%Z -> (4 < (y - 2) * (y - 2) + (x - 2) * (x - 2))%Z -> cell out y x = 0).
  { intros y x Hy Hx Hd. apply (c130_missed data 2 2 2 2 0 1 tm to out y x 2 2 T T); [lia|exact E|lia|lia|exact A|lia|]. apply lt_dist; lia. }
  repeat split; try (apply M; lia); apply lt_dist; lia.
Qed.

Lemma c130_case : let data := mkarr 5 5 (fun y x => IZR (y + x)) in
  truncated 2 2 /\ (exists out, nrgf data 2 2 1 1 (0, 360) (0, 360) = Ok out) /\
  (exists y' x', (0 <= y' < rows data)%Z /\ (0 <= x' < cols data)%Z /\ IZR 2 <= dist y' x' 2 2) /\
  IZR 1 < dist 1 1 2 2 <= IZR 2 /\ in_sector (IZR 1 - IZR 2) (IZR 1 - IZR 2) (IZR 1) (IZR 2) 0 360 /\
  (forall y' x', (0 <= y' < rows data)%Z -> (0 <= x' < cols data)%Z -> dist y' x' 2 2 < IZR (2 + 1)) /\
  (2 <= 1 + 1 * 1)%Z /\ IZR (1 + 1 * 1) < dist 0 0 2 2.
Proof.
  intros data. assert (D : IZR 1 < dist 1 1 2 2 <= IZR 2) by (split; [apply lt_dist|apply Rlt_le, dist_lt]; lia).
  split; [split; intros; lra|]. split; [apply nrgf_total; cbn; lia|].
  split; [exists 0%Z, 0%Z; cbn; split; [lia|]; split; [lia|]; apply Rlt_le, lt_dist; lia|].
  split; [exact D|]. split; [apply sector_full; rewrite rho_at_Z; exact D|]. split; [|split; [lia|apply lt_dist; lia]].
  intros y' x' Hy Hx. cbn in Hy, Hx. apply dist_lt; [lia|].
  destruct (small_range y' 5 Hy ltac:(lia)) as [-> |[-> |[-> |[-> | ->]]]], (small_range x' 5 Hx ltac:(lia)) as [-> |[-> |[-> |[-> | ->]]]]; lia.
Qed.
