(** The radial filter removes any radial profile, and changes nothing the second time. *)
From Coq Require Import Reals Lra Lia.
From Verif Require Import Base.Base Base.Num Model.Roi Model.Codec Model.Nrgf Spec.SumSpec Spec.RoiSpec Spec.CodecSpec
  Base.BaseFacts Proofs.PolFacts Proofs.RawFacts Proofs.SumFacts Proofs.RoiFacts Proofs.NrgfFacts.
From Coq Require Import ZifyBool.
Local Open Scope R_scope.

(** The statistics of a ring depend on its own pixels only. *)
Lemma ring_value_local d d' yc xc r step tm y x :
  rows d' = rows d -> cols d' = cols d -> (0 <= y < rows d)%Z -> (0 <= x < cols d)%Z ->
  (forall j i, (0 <= j < rows d)%Z -> (0 <= i < cols d)%Z -> ringb yc xc r step tm j i = true -> cell d' j i = cell d j i) ->
  cell d' y x = cell d y x ->
  ring_value d' yc xc r step tm y x = ring_value d yc xc r step tm y x.
Proof.
  intros Er Ec Hy Hx H E. unfold ring_value. rewrite Er, Ec, E.
  set (P := ringb yc xc r step tm). set (n := msum _ _ P (fun _ _ => 1)).
  rewrite (msum_ext (rows d) (cols d) P P (cell d') (cell d)) by (intros; auto).
  set (m := msum _ _ P (cell d) / n).
  rewrite (msum_ext (rows d) (cols d) P P (fun y x => (cell d' y x - m) * (cell d' y x - m))
             (fun y x => (cell d y x - m) * (cell d y x - m))); [reflexivity|reflexivity|].
  intros j i Hj Hi HP. rewrite H by assumption. reflexivity.
Qed.

(** Which ring a pixel is in, if any. *)
Lemma which_ring yc xc rho_min step to y x (q : Z) : (0 <= q)%Z ->
  (exists k, (0 <= k < q)%Z /\ ringb yc xc (rho_min + k * step) step to y x = true) \/
  (forall k, (0 <= k < q)%Z -> ringb yc xc (rho_min + k * step) step to y x = false).
Proof.
  intros Hq. pattern q. apply zpos_ind; [right; intros; lia| |exact Hq].
  intros n Hn [(k & Hk & Ek)|Hall]; [left; exists k; split; [lia|exact Ek]|].
  destruct (ringb yc xc (rho_min + n * step) step to y x) eqn:En.
  - left. exists n. split; [lia|exact En].
  - right. intros k Hk. destruct (Z.eq_dec k n) as [->|]; [exact En|apply Hall; lia].
Qed.

Lemma rmax_unique (F : Z -> Prop) r r' : (forall k, (k < r)%Z <-> F k) -> (forall k, (k < r')%Z <-> F k) -> r' = r.
Proof.
  intros H H'. destruct (Z.lt_trichotomy r r') as [L|[->|L]]; [|reflexivity|].
  - apply H', H in L. lia.
  - apply H, H' in L. lia.
Qed.

Lemma nrgf_nonempty data y0 x0 rho_min step tm to out :
  nrgf data y0 x0 rho_min step tm to = Ok out -> (0 < rows data)%Z /\ (0 < cols data)%Z.
Proof.
  unfold nrgf, nrgf_from, map_polar_coordinates.
  destruct (amax_spec (mkarr (rows data) (cols data) (rho_at (IZR (rtrunc y0)) (IZR (rtrunc x0))))) as [Hem _].
  cbn [rows cols] in Hem. intros E.
  destruct (Z_le_gt_dec (rows data) 0) as [Hr|Hr]; [rewrite Hem in E by lia; discriminate|].
  destruct (Z_le_gt_dec (cols data) 0) as [Hc|Hc]; [rewrite Hem in E by lia; discriminate|]. lia.
Qed.

(** Two images of one shape whose ring values agree give the same output. *)
Lemma nrgf_same d d' y0 x0 rho_min step tm to out :
  rows d' = rows d -> cols d' = cols d -> (0 < step)%Z ->
  nrgf d y0 x0 rho_min step tm to = Ok out ->
  (forall k y x, (0 <= k)%Z -> (0 <= y < rows d)%Z -> (0 <= x < cols d)%Z ->
     ringb (IZR (rtrunc y0)) (IZR (rtrunc x0)) (rho_min + k * step) step to y x = true ->
     ring_value d' (IZR (rtrunc y0)) (IZR (rtrunc x0)) (rho_min + k * step) step tm y x =
     ring_value d (IZR (rtrunc y0)) (IZR (rtrunc x0)) (rho_min + k * step) step tm y x) ->
  exists out', nrgf d' y0 x0 rho_min step tm to = Ok out' /\ out' =a= out.
Proof.
  intros Er Ec Hs E H. destruct (nrgf_nonempty _ _ _ _ _ _ _ _ E) as (Hr & Hc).
  destruct (nrgf_total d' y0 x0 rho_min step tm to) as (out' & E'); [lia|lia|exact Hs|].
  exists out'. split; [exact E'|].
  destruct (nrgf_spec _ _ _ _ _ _ _ _ _ _ (rtrunc_spec y0) (rtrunc_spec x0) Hs E) as (rmax & Hrm & Ro & Co & V).
  destruct (nrgf_spec _ _ _ _ _ _ _ _ _ _ (rtrunc_spec y0) (rtrunc_spec x0) Hs E') as (rmax' & Hrm' & Ro' & Co' & V').
  rewrite Er in Hrm', Ro', V'. rewrite Ec in Hrm', Co', V'.
  pose proof (rmax_unique _ _ _ Hrm Hrm') as ->. clear Hrm Hrm'.
  split; [congruence|]. split; [congruence|]. rewrite Ro', Co'.
  intros y x Hy Hx. destruct (V y x Hy Hx) as [V1 V2]. destruct (V' y x Hy Hx) as [V1' V2'].
  destruct (which_ring (IZR (rtrunc y0)) (IZR (rtrunc x0)) rho_min step to y x (range_len rho_min rmax step)) as [(k & Hk & Ek)|Hall].
  - unfold range_len. lia.
  - assert (Hl : (rho_min + k * step < rmax)%Z) by (apply range_len_lt; [exact Hs|lia|lia]).
    rewrite (V1 k), (V1' k) by (try assumption; lia). apply H; try assumption; lia.
  - rewrite V2, V2'; [reflexivity| |]; intros k Hk Hl; apply Hall; (split; [exact Hk|]); apply range_len_lt; assumption.
Qed.

Lemma c108_profile d d' y0 x0 cy cx rho_min step tm to g o out :
  truncated y0 cy -> truncated x0 cx -> (0 < step)%Z ->
  rows d' = rows d -> cols d' = cols d -> (forall k, 0 < g k) ->
  (forall k y x, (0 <= k)%Z -> (0 <= y < rows d)%Z -> (0 <= x < cols d)%Z ->
     IZR (rho_min + k * step) < dist y x cy cx <= IZR (rho_min + (k + 1) * step) ->
     cell d' y x = g k * cell d y x + o k) ->
  nrgf d y0 x0 rho_min step tm to = Ok out ->
  exists out', nrgf d' y0 x0 rho_min step tm to = Ok out' /\ out' =a= out.
Proof.
  intros Hcy Hcx Hs Er Ec Hg H E.
  pose proof (truncated_unique _ _ _ (rtrunc_spec y0) Hcy) as Ey. pose proof (truncated_unique _ _ _ (rtrunc_spec x0) Hcx) as Ex.
  apply (nrgf_same d d'); try assumption. rewrite Ey, Ex. intros k y x Hk Hy Hx Hr.
  assert (Ring : forall t j i, ringb (IZR cy) (IZR cx) (rho_min + k * step) step t j i = true ->
    IZR (rho_min + k * step) < dist j i cy cx <= IZR (rho_min + (k + 1) * step)).
  { intros t j i Hb. unfold ringb in Hb. rewrite !andb_true_iff, Rltb_true, Rleb_true, rho_at_Z in Hb.
    replace (rho_min + (k + 1) * step)%Z with (rho_min + k * step + step)%Z by ring. tauto. }
  rewrite <- (ring_value_affine d (IZR cy) (IZR cx) (rho_min + k * step) step tm y x (g k) (o k) (Hg k) Hy Hx).
  apply ring_value_local; cbn [amap rows cols cell]; try assumption.
  - intros j i Hj Hi Hb. apply H; try assumption. eapply Ring, Hb.
  - apply H; try assumption. eapply Ring, Hr.
Qed.

(** A normalised ring has mean 0 and deviation 1, or is 0. *)
Lemma ring_value_twice d out yc xc r step t y x :
  rows out = rows d -> cols out = cols d -> (0 <= y < rows d)%Z -> (0 <= x < cols d)%Z ->
  (forall j i, (0 <= j < rows d)%Z -> (0 <= i < cols d)%Z -> ringb yc xc r step t j i = true ->
     cell out j i = ring_value d yc xc r step t j i) ->
  ringb yc xc r step t y x = true ->
  ring_value out yc xc r step t y x = cell out y x.
Proof.
  intros Er Ec Hy Hx H Hr. unfold ring_value in *. rewrite Er, Ec.
  set (P := ringb yc xc r step t) in *. set (h := rows d) in *. set (w := cols d) in *.
  set (n := msum h w P (fun _ _ => 1)) in *.
  assert (Hn : 0 < n) by (apply (count_pos h w P y x); assumption).
  rewrite (proj2 (Reqb_false n 0)) in * by lra.
  set (m := msum h w P (cell d) / n) in *.
  set (v := msum h w P (fun y x => (cell d y x - m) * (cell d y x - m))) in *.
  destruct (Rltb 0 (sqrt (v / n))) eqn:E1.
  - apply Rltb_true in E1. set (sd := sqrt (v / n)) in *.
    assert (Hv : 0 < v).
    { assert (V0 : 0 <= v) by apply var_nonneg. destruct V0 as [V0|V0]; [exact V0|]. exfalso. unfold sd in E1.
      rewrite <- V0 in E1. unfold Rdiv in E1. rewrite Rmult_0_l, sqrt_0 in E1. lra. }
    assert (Hss : sd * sd = v / n) by (apply sqrt_sqrt; left; apply Rdiv_lt_0_compat; assumption).
    assert (M0 : msum h w P (cell out) = 0).
    { rewrite (msum_ext h w P P (cell out) (fun y x => / sd * (cell d y x - m))); [|reflexivity|].
      - rewrite msum_scal. rewrite dev_sum by (fold n; lra). ring.
      - intros j i Hj Hi Hp. rewrite H by assumption. unfold Rdiv. ring. }
    rewrite M0. replace (0 / n) with 0 by (field; lra).
    assert (V1 : msum h w P (fun y x => (cell out y x - 0) * (cell out y x - 0)) = n).
    { rewrite (msum_ext h w P P _ (fun y x => (n / v) * ((cell d y x - m) * (cell d y x - m)))); [|reflexivity|].
      - rewrite msum_scal. fold v. field. lra.
      - intros j i Hj Hi Hp. rewrite H by assumption. rewrite Rminus_0_r.
        replace ((cell d j i - m) / sd * ((cell d j i - m) / sd)) with ((cell d j i - m) * (cell d j i - m) / (sd * sd)) by (field; lra).
        rewrite Hss. field. split; lra. }
    rewrite V1. replace (n / n) with 1 by (field; lra). rewrite sqrt_1.
    rewrite (proj2 (Rltb_true 0 1)) by lra. field.
  - assert (Z0 : forall j i, (0 <= j < h)%Z -> (0 <= i < w)%Z -> P j i = true -> cell out j i = 0) by exact H.
    destruct (const_mean h w P (cell out) 0) as [Em Ev]; [fold n; lra|exact Z0|]. fold n in Em, Ev. rewrite Em in *.
    rewrite Ev. replace (0 / n) with 0 by (field; lra). rewrite sqrt_0.
    rewrite (proj2 (Rltb_false 0 0)) by lra. rewrite Z0 by assumption. reflexivity.
Qed.

Lemma c108_twice d y0 x0 rho_min step t out :
  (0 < step)%Z -> nrgf d y0 x0 rho_min step t t = Ok out ->
  exists out', nrgf out y0 x0 rho_min step t t = Ok out' /\ out' =a= out.
Proof.
  intros Hs E. destruct (nrgf_nonempty _ _ _ _ _ _ _ _ E) as (Hr & Hc).
  destruct (nrgf_spec _ _ _ _ _ _ _ _ _ _ (rtrunc_spec y0) (rtrunc_spec x0) Hs E) as (rmax & Hrm & Ro & Co & V).
  destruct (nrgf_total out y0 x0 rho_min step t t) as (out' & E'); [lia|lia|exact Hs|].
  exists out'. split; [exact E'|].
  destruct (nrgf_spec _ _ _ _ _ _ _ _ _ _ (rtrunc_spec y0) (rtrunc_spec x0) Hs E') as (rmax' & Hrm' & Ro' & Co' & V').
  rewrite Ro in Hrm', Ro', V'. rewrite Co in Hrm', Co', V'. pose proof (rmax_unique _ _ _ Hrm Hrm') as ->. clear Hrm Hrm'.
  split; [congruence|]. split; [congruence|]. rewrite Ro', Co'.
  intros y x Hy Hx. destruct (V y x Hy Hx) as [V1 V2]. destruct (V' y x Hy Hx) as [V1' V2'].
  destruct (which_ring (IZR (rtrunc y0)) (IZR (rtrunc x0)) rho_min step t y x (range_len rho_min rmax step)) as [(k & Hk & Ek)|Hall].
  - unfold range_len. lia.
  - assert (Hl : (rho_min + k * step < rmax)%Z) by (apply range_len_lt; [exact Hs|lia|lia]).
    rewrite (V1' k) by (try assumption; lia).
    apply (ring_value_twice d out); try assumption. intros j i Hj Hi Hb. apply (proj1 (V j i Hj Hi) k); try assumption; lia.
  - rewrite V2, V2'; [reflexivity| |]; intros k Hk Hl; apply Hall; (split; [exact Hk|]); apply range_len_lt; assumption.
Qed.
