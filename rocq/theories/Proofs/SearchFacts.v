(** Proofs for C90, C91 and C92. *)
From Coq Require Import Reals Lra.
From Verif Require Import Base.Base Base.BaseFacts Base.Num Model.Codec Model.Nrgf Model.OcculterSearch
  Spec.Terminates Spec.SumSpec Spec.CodecSpec Spec.RoiSpec Spec.OcculterSpec Spec.SearchSpec Proofs.RawFacts Proofs.NrgfFacts.
Local Open Scope Z_scope.

(** ** Circles *)
Lemma several_true a : several a <-> more_than_one a = true.
Proof.
  unfold several, more_than_one. split.
  - intros (c & c' & l & ->). reflexivity.
  - destruct a as [[|c [|c' l]]|]; try discriminate. intros _. exists c, c', l. reflexivity.
Qed.

Lemma hough_loop (f : Z -> option (list (R * R * R))) n k fuel :
  (forall j, (k <= j < k + n)%nat -> more_than_one (f (threshold j)) = true) ->
  more_than_one (f (threshold (k + n))) = false -> (n <= fuel)%nat ->
  while_loop fuel (fun s => more_than_one (fst s)) (retry f) (f (threshold k), threshold k)
  = Ok (f (threshold (k + n)), threshold (k + n)).
Proof.
  revert k fuel. induction n as [|n IH]; intros k fuel Hs He Hf.
  - replace (k + 0)%nat with k in * by lia. destruct fuel; cbn [while_loop fst]; rewrite He; reflexivity.
  - destruct fuel as [|fuel]; [lia|]. cbn [while_loop fst]. rewrite (Hs k) by lia.
    unfold retry at 2. cbn [snd]. replace (threshold k + 5) with (threshold (S k)) by (unfold threshold; lia).
    replace (k + S n)%nat with (S k + n)%nat in * by lia.
    apply IH; [|exact He|lia]. intros j Hj. apply Hs. lia.
Qed.

Lemma hough_forever (f : Z -> option (list (R * R * R))) k fuel :
  (forall j, more_than_one (f (threshold j)) = true) ->
  while_loop fuel (fun s => more_than_one (fst s)) (retry f) (f (threshold k), threshold k) = NoFuel.
Proof.
  intros Hs. revert k. induction fuel as [|fuel IH]; intros k; cbn [while_loop fst]; rewrite (Hs k); [reflexivity|].
  unfold retry at 2. cbn [snd]. replace (threshold k + 5) with (threshold (S k)) by (unfold threshold; lia). apply IH.
Qed.

Lemma fold_max_in l : forall v, (fold_left Rmax l v = v \/ In (fold_left Rmax l v) l) /\ (v <= fold_left Rmax l v)%R /\
  (forall u, In u l -> (u <= fold_left Rmax l v)%R).
Proof.
  induction l as [|a l IH]; intro v; cbn [fold_left].
  - split; [left; reflexivity|]. split; [lra|intros u []].
  - destruct (IH (Rmax v a)) as (I & G & L). assert (M1 := Rmax_l v a). assert (M2 := Rmax_r v a). split; [|split].
    + destruct I as [I|I]; [|right; right; exact I]. rewrite I. destruct (Rle_dec v a) as [Ha|Ha].
      * rewrite Rmax_right by exact Ha. right. left. reflexivity.
      * rewrite Rmax_left by lra. left. reflexivity.
    + lra.
    + intros u [<-|Hu]; [lra|apply L; exact Hu].
Qed.

Lemma in_values {A} (d : arr A) v :
  In v (concat (to_list d)) <-> exists y x, 0 <= y < rows d /\ 0 <= x < cols d /\ cell d y x = v.
Proof.
  unfold to_list. rewrite in_concat. split.
  - intros (row & Hr & Hv). apply in_map_iff in Hr. destruct Hr as (y & <- & Hy). apply in_map_iff in Hv.
    destruct Hv as (x & E & Hx). apply in_zrange in Hy. apply in_zrange in Hx. exists y, x. auto.
  - intros (y & x & Hy & Hx & E). exists (map (fun x => cell d y x) (zrange (cols d))). split.
    + apply in_map_iff. exists y. split; [reflexivity|]. apply in_zrange. exact Hy.
    + apply in_map_iff. exists x. split; [exact E|]. apply in_zrange. exact Hx.
Qed.

Lemma amax_brightest d m : brightest d m -> amax d = Ok m.
Proof.
  intros ((y & x & Hy & Hx & E) & G). unfold amax.
  assert (In m (concat (to_list d))) by (apply in_values; exists y, x; auto).
  assert (G' : forall u, In u (concat (to_list d)) -> (u <= m)%R).
  { intros u Hu. apply in_values in Hu. destruct Hu as (y' & x' & Hy' & Hx' & <-). apply G; assumption. }
  destruct (concat (to_list d)) as [|v l]; [contradiction|]. f_equal.
  destruct (fold_max_in l v) as (I & L & U). 
  assert (fold_left Rmax l v <= m)%R by (apply G'; destruct I as [-> | I]; [left; reflexivity|right; exact I]).
  assert (m <= fold_left Rmax l v)%R by (destruct H as [<-|Hm]; [exact L|apply U; exact Hm]).
  lra.
Qed.

Lemma hough_found {B} (cv : opencv B) data minr maxr m n a :
  brightest data m ->
  let side := Z.max (rows data) (cols data) in
  let answer := answers cv (amap (fun v => 255 * v / m)%R data) side minr (match maxr with None => IZR side | Some r => r end) in
  (forall j, (j < n)%nat -> several (answer j)) -> ~ several (answer n) -> answer n = a ->
  exists N, forall fuel, (N <= fuel)%nat -> find_occulter_hough cv fuel data minr maxr =
    match a with Some ((x, y, r) :: _) => Ok (y, x, r) | Some [] => Raise IndexError | None => Raise TypeError end.
Proof.
  intros Hm side answer Hs He Ha. exists n. intros fuel Hf. unfold find_occulter_hough.
  rewrite (amax_brightest _ _ Hm). cbn [bind]. cbv zeta. fold side.
  set (f := fun acc => circles_of cv (blur cv (amap (fun v => (255 * v / m)%R) data)) side acc minr _).
  match goal with |- context [while_loop fuel ?c ?b ?s] => change s with (f (threshold 0), threshold 0) end.
  rewrite (hough_loop f n 0 fuel).
  - cbn [bind fst Nat.add]. change (f (threshold n)) with (answer n). rewrite Ha.
    unfold first_circle. destruct a as [[|[[x y] r] l]|]; reflexivity.
  - intros j Hj. apply several_true. apply Hs. lia.
  - destruct (more_than_one (f (threshold (0 + n)))) eqn:E; [|reflexivity]. exfalso. apply He. apply several_true. exact E.
  - exact Hf.
Qed.

Lemma hough_never {B} (cv : opencv B) data minr maxr m :
  brightest data m ->
  let side := Z.max (rows data) (cols data) in
  (forall j, several (answers cv (amap (fun v => 255 * v / m)%R data) side minr
                        (match maxr with None => IZR side | Some r => r end) j)) ->
  never_returns (fun fuel => find_occulter_hough cv fuel data minr maxr).
Proof.
  intros Hm side Hs fuel. unfold find_occulter_hough.
  rewrite (amax_brightest _ _ Hm). cbn [bind]. cbv zeta. fold side.
  set (f := fun acc => circles_of cv (blur cv (amap (fun v => (255 * v / m)%R) data)) side acc minr _).
  match goal with |- context [while_loop fuel ?c ?b ?s] => change s with (f (threshold 0), threshold 0) end. rewrite (hough_forever f 0 fuel); [reflexivity|].
  intros j. apply several_true. apply Hs.
Qed.

Lemma hough_gain {B} (cv : opencv B) fuel data minr maxr g m :
  (0 < g)%R -> brightest data m -> m <> 0%R ->
  (forall a b, a =a= b -> blur cv a = blur cv b) ->
  find_occulter_hough cv fuel (amap (fun v => g * v)%R data) minr maxr = find_occulter_hough cv fuel data minr maxr.
Proof.
  intros Hg Hm Hm0 Hb.
  assert (Hm' : brightest (amap (fun v => g * v)%R data) (g * m)%R).
  { destruct Hm as ((y & x & Hy & Hx & E) & G). split.
    - exists y, x. cbn. rewrite E. auto.
    - intros y' x' Hy' Hx'. cbn in *. apply Rmult_le_compat_l; [lra|]. apply G; assumption. }
  unfold find_occulter_hough. rewrite (amax_brightest _ _ Hm), (amax_brightest _ _ Hm'). cbn [bind amap rows cols].
  rewrite (Hb _ (amap (fun v => (255 * v / m)%R) data)); [reflexivity|].
  split; [reflexivity|]. split; [reflexivity|]. intros y x Hy Hx. cbn. field. split; [exact Hm0|lra].
Qed.

(** ** Fits *)
Lemma fit_edge_ok fit l p :
  l <> [] -> (forall start, exists a b c, fit l start = Ok (a, b, c, p)) -> fit_edge fit l = Ok p.
Proof.
  intros Hl Hf. unfold fit_edge. destruct l as [|v l]; [contradiction|]. cbn [lmax lmin bind].
  match goal with |- context [fit _ ?s] => destruct (Hf s) as (a & b & c & ->) end. reflexivity.
Qed.

Lemma rev_zrange_map {A} (f : Z -> A) n : rev (map f (zrange n)) = map (fun i => f (n - 1 - i)) (zrange n).
Proof.
  destruct (Z_le_gt_dec n 0) as [Hn|Hn]; [rewrite zrange_neg by lia; reflexivity|].
  assert (E : forall m, 0 <= m -> rev (map f (zrange m)) = map (fun i => f (m - 1 - i)) (zrange m)).
  { intros m Hm. apply (natlike_ind (fun m => rev (map f (zrange m)) = map (fun i => f (m - 1 - i)) (zrange m))).
    - reflexivity.
    - intros k Hk IH. replace (Z.succ k) with (k + 1) by lia. rewrite zrange_succ at 1 by lia.
      rewrite map_app, rev_app_distr. cbn [map rev app]. rewrite IH.
      assert (Z0 : zrange (k + 1) = 0 :: map (fun i => i + 1) (zrange k)).
      { unfold zrange. replace (Z.to_nat (k + 1)) with (S (Z.to_nat k)) by lia. cbn [seq map]. f_equal.
        rewrite <- seq_shift, !map_map. apply map_ext. intros i. lia. }
      rewrite Z0. cbn [map]. f_equal; [f_equal; lia|]. rewrite map_map. apply map_ext. intros i. f_equal. lia.
    - exact Hm. }
  apply E. lia.
Qed.

Lemma samples_nonempty p n : 0 < n -> samples p n <> [].
Proof.
  intros Hn E. assert (L := f_equal (@length R) E). unfold samples in L. rewrite map_length, length_zrange in L. cbn in L. lia.
Qed.

Section Sigmoid.
  Variables (fit : sigmoid_fit) (d : arr R).
  Let hy := rows d / 2.
  Let hx := cols d / 2.

  Lemma sigmoid_found up down left right y x r :
    2 <= rows d -> 2 <= cols d ->
    edge_at fit (upwards d hy hx) hy up -> edge_at fit (downwards d hy hx) (rows d - hy) down ->
    edge_at fit (leftwards d hy hx) hx left -> edge_at fit (rightwards d hy hx) (cols d - hx) right ->
    truncated (IZR hy + (down - up) / 2) y -> truncated (IZR hx + (right - left) / 2) x ->
    truncated ((Rabs (up + down) + Rabs (left + right)) / 4) r ->
    find_occulter_sigmoid fit d = Ok (y, x, r).
  Proof.
    intros Hr Hc Eu Ed El Er Ty Tx Tr. unfold find_occulter_sigmoid.
    rewrite !Z.quot_div_nonneg by lia. fold hy hx.
    replace (negb (0 <? rows d) || negb (0 <? cols d)) with false by lia.
    assert (Hy : 1 <= hy) by (unfold hy; apply Z.div_le_lower_bound; lia).
    assert (Hx : 1 <= hx) by (unfold hx; apply Z.div_le_lower_bound; lia).
    assert (Hy' : hy < rows d) by (unfold hy; apply Z.div_lt; lia).
    assert (Hx' : hx < cols d) by (unfold hx; apply Z.div_lt; lia).
    assert (S0 : rev (col_values d hx 0 hy) = samples (upwards d hy hx) hy).
    { unfold col_values, samples, upwards. rewrite rev_zrange_map. apply map_ext. intros i. f_equal; lia. }
    assert (S2 : rev (row_values d hy 0 hx) = samples (leftwards d hy hx) hx).
    { unfold row_values, samples, leftwards. rewrite rev_zrange_map. apply map_ext. intros i. f_equal; lia. }
    rewrite S0, S2.
    change (col_values d hx hy (rows d - hy)) with (samples (downwards d hy hx) (rows d - hy)).
    change (row_values d hy hx (cols d - hx)) with (samples (rightwards d hy hx) (cols d - hx)).
    rewrite (fit_edge_ok fit _ up (samples_nonempty (upwards d hy hx) hy ltac:(lia)) Eu). cbn [bind].
    rewrite (fit_edge_ok fit _ down (samples_nonempty (downwards d hy hx) (rows d - hy) ltac:(lia)) Ed). cbn [bind].
    rewrite (fit_edge_ok fit _ left (samples_nonempty (leftwards d hy hx) hx ltac:(lia)) El). cbn [bind].
    rewrite (fit_edge_ok fit _ right (samples_nonempty (rightwards d hy hx) (cols d - hx) ltac:(lia)) Er). cbn [bind].
    unfold centre_and_radius. f_equal. f_equal; [f_equal|].
    - apply (truncated_unique (IZR hy + (down - up) / 2)%R); [|exact Ty].
      replace (IZR hy + (down - up) / 2)%R with ((IZR hy - up + (IZR hy + down)) / 2)%R by lra. apply rtrunc_spec.
    - apply (truncated_unique (IZR hx + (right - left) / 2)%R); [|exact Tx].
      replace (IZR hx + (right - left) / 2)%R with ((IZR hx - left + (IZR hx + right)) / 2)%R by lra. apply rtrunc_spec.
    - apply (truncated_unique ((Rabs (up + down) + Rabs (left + right)) / 4)%R); [|exact Tr].
      replace (IZR hy + down - (IZR hy - up))%R with (up + down)%R by lra.
      replace (IZR hx + right - (IZR hx - left))%R with (left + right)%R by lra.
      replace ((Rabs (up + down) + Rabs (left + right)) / 4)%R with
        ((Rabs (up + down) / 2 + Rabs (left + right) / 2) / 2)%R by lra. apply rtrunc_spec.
  Qed.

  (** Edges at pixel positions: sample [i] of the upward profile is row [hy - 1 - i]. *)
  Lemma sigmoid_rows e0 e1 e2 e3 y x r :
    2 <= rows d -> 2 <= cols d ->
    edge_at fit (upwards d hy hx) hy (IZR (hy - 1) - e0) -> edge_at fit (downwards d hy hx) (rows d - hy) (e1 - IZR hy) ->
    edge_at fit (leftwards d hy hx) hx (IZR (hx - 1) - e2) -> edge_at fit (rightwards d hy hx) (cols d - hx) (e3 - IZR hx) ->
    truncated ((e0 + e1) / 2 + 1 / 2) y -> truncated ((e2 + e3) / 2 + 1 / 2) x ->
    truncated ((Rabs (e1 - e0 - 1) + Rabs (e3 - e2 - 1)) / 4) r ->
    find_occulter_sigmoid fit d = Ok (y, x, r).
  Proof.
    intros Hr Hc Eu Ed El Er Ty Tx Tr.
    apply (sigmoid_found _ _ _ _ y x r Hr Hc Eu Ed El Er); rewrite !minus_IZR.
    - replace (IZR hy + (e1 - IZR hy - (IZR hy - 1 - e0)) / 2)%R with ((e0 + e1) / 2 + 1 / 2)%R by lra. exact Ty.
    - replace (IZR hx + (e3 - IZR hx - (IZR hx - 1 - e2)) / 2)%R with ((e2 + e3) / 2 + 1 / 2)%R by lra. exact Tx.
    - replace (IZR hy - 1 - e0 + (e1 - IZR hy))%R with (e1 - e0 - 1)%R by lra.
      replace (IZR hx - 1 - e2 + (e3 - IZR hx))%R with (e3 - e2 - 1)%R by lra. exact Tr.
  Qed.

  Lemma sigmoid_one_row : rows d = 1 -> 0 < cols d -> find_occulter_sigmoid fit d = Raise ValueError.
  Proof.
    intros H1 Hc. unfold find_occulter_sigmoid. rewrite H1.
    replace (negb (0 <? 1) || negb (0 <? cols d)) with false by lia. reflexivity.
  Qed.

  Lemma sigmoid_fails e :
    2 <= rows d -> 2 <= cols d ->
    (forall start, fit (samples (upwards d hy hx) hy) start = Raise e) -> find_occulter_sigmoid fit d = Raise e.
  Proof.
    intros Hr Hc He. unfold find_occulter_sigmoid. rewrite !Z.quot_div_nonneg by lia. fold hy hx.
    replace (negb (0 <? rows d) || negb (0 <? cols d)) with false by lia.
    assert (Hy : 1 <= hy) by (unfold hy; apply Z.div_le_lower_bound; lia).
    assert (S0 : rev (col_values d hx 0 hy) = samples (upwards d hy hx) hy).
    { unfold col_values, samples, upwards. rewrite rev_zrange_map. apply map_ext. intros i. f_equal; lia. }
    rewrite S0. assert (N := samples_nonempty (upwards d hy hx) hy ltac:(lia)).
    assert (E : fit_edge fit (samples (upwards d hy hx) hy) = Raise e).
    { unfold fit_edge. destruct (samples (upwards d hy hx) hy) as [|v l]; [contradiction|]. cbn [lmax lmin bind].
      rewrite He. reflexivity. }
    rewrite E. reflexivity.
  Qed.
End Sigmoid.

(** ** The radial filter *)
Lemma nrgf_given fit fit' data y x r step tm to :
  nrgf_call fit data (Some y) (Some x) (Some r) step tm to = nrgf_call fit' data (Some y) (Some x) (Some r) step tm to.
Proof. reflexivity. Qed.

Lemma nrgf_ignored fit data y x r step tm to :
  y = None \/ x = None \/ r = None ->
  nrgf_call fit data y x r step tm to = nrgf_call fit data None None None step tm to.
Proof. unfold nrgf_call. destruct y, x, r; intros [E|[E|E]]; try discriminate E; reflexivity. Qed.

Lemma nrgf_fit_fails fit data y x r step tm to e :
  y = None \/ x = None \/ r = None -> 2 <= rows data -> 2 <= cols data ->
  (forall start, fit (samples (upwards data (rows data / 2) (cols data / 2)) (rows data / 2)) start = Raise e) ->
  nrgf_call fit data y x r step tm to = Raise e.
Proof.
  intros Hn Hr Hc He. rewrite (nrgf_ignored _ _ _ _ _ _ _ _ Hn). unfold nrgf_call.
  rewrite (sigmoid_fails fit data e Hr Hc He). reflexivity.
Qed.

Lemma nrgf_uses fit data step tm to y x r :
  find_occulter_sigmoid fit data = Ok (y, x, r) ->
  nrgf_call fit data None None None step tm to =
  nrgf_call fit data (Some (IZR y)) (Some (IZR x)) (Some r) step tm to.
Proof. intros E. unfold nrgf_call. rewrite E. reflexivity. Qed.

Local Open Scope R_scope.
Lemma nrgf_witness :
  let data := mkarr 5 5 (fun y x => IZR (y + x)) in
  let fit : sigmoid_fit := fun _ _ => Ok (1, 0, 1, 100) in
  exists out out' P,
    nrgf_call fit data (Some 2) (Some 2) None 1 (0, 360) (0, 360) = Ok out /\
    nrgf_call fit data (Some 2) (Some 2) (Some 0%Z) 1 (0, 360) (0, 360) = Ok out' /\
    (forall y x, (0 <= y < 5)%Z -> (0 <= x < 5)%Z -> cell out y x = 0) /\
    P 1%Z 1%Z = true /\
    rsum_over 5 5 P (fun y x => cell out' y x * cell out' y x) = rsum_over 5 5 P (fun _ _ => 1).
Proof.
  intros data fit.
  assert (E : find_occulter_sigmoid fit data = Ok (2, 2, 100)%Z).
  { apply (sigmoid_found fit data 100 100 100 100); try (cbn; lia);
      try (intro start; exists 1, 0, 1; reflexivity).
    - change (rows data / 2)%Z with 2%Z. split; intros; lra.
    - change (cols data / 2)%Z with 2%Z. split; intros; lra.
    - rewrite !Rabs_pos_eq by lra. split; intros; lra. }
  destruct c39_case as (T & _ & (y0 & x0 & Hy0 & Hx0 & D0) & (P & M & P1 & P3 & Ne)).
  destruct (nrgf_total data 2 2 100 1 (0, 360) (0, 360) ltac:(cbn; lia) ltac:(cbn; lia) ltac:(lia)) as (out & Eo).
  destruct (nrgf_total data 2 2 0 1 (0, 360) (0, 360) ltac:(cbn; lia) ltac:(cbn; lia) ltac:(lia)) as (out' & Eo').
  exists out, out', P. split; [|split; [exact Eo'|split; [|split; [exact P1|]]]].
  - rewrite nrgf_ignored by (right; right; reflexivity). rewrite (nrgf_uses _ _ _ _ _ _ _ _ E). exact Eo.
  - intros y x Hy Hx. apply (c39_zero data 2 2 2 2 100 1 (0, 360) 0 360 out y x T T); [lia|exact Eo|exact Hy|exact Hx|].
    left. unfold dist. rewrite <- (sqrt_square (IZR 100)) by lra. rewrite <- mult_IZR. apply sqrt_le_1_alt. apply IZR_le. nia.
  - destruct (c39_ring data 2 2 2 2 0 1 0 360 out' 1 P T T ltac:(lia) Eo' ltac:(lia)) as (Q & _).
    + exists y0, x0. split; [exact Hy0|]. split; [exact Hx0|]. exact D0.
    + exact M.
    + apply Q. exists 1%Z, 1%Z, 3%Z, 3%Z. cbn [rows cols data]. repeat split; try lia; assumption.
Qed.

Lemma hough_found' {B} (cv : opencv B) data minr maxr m n a :
  brightest data m -> m <> 0 ->
  let side := Z.max (rows data) (cols data) in
  let answer := answers cv (amap (fun v => 255 * v / m) data) side minr (match maxr with None => IZR side | Some r => r end) in
  (forall j, (j < n)%nat -> several (answer j)) -> ~ several (answer n) -> answer n = a ->
  exists N, forall fuel, (N <= fuel)%nat -> find_occulter_hough cv fuel data minr maxr =
    match a with Some ((x, y, r) :: _) => Ok (y, x, r) | Some [] => Raise IndexError | None => Raise TypeError end.
Proof. intros Hm _. exact (hough_found cv data minr maxr m n a Hm). Qed.
Lemma hough_never' {B} (cv : opencv B) data minr maxr m :
  brightest data m -> m <> 0 ->
  let side := Z.max (rows data) (cols data) in
  (forall j, several (answers cv (amap (fun v => 255 * v / m) data) side minr
                        (match maxr with None => IZR side | Some r => r end) j)) ->
  never_returns (fun fuel => find_occulter_hough cv fuel data minr maxr).
Proof. intros Hm _. exact (hough_never cv data minr maxr m Hm). Qed.

Lemma hough_empty {B} (cv : opencv B) fuel data minr maxr :
  rows data = 0%Z \/ cols data = 0%Z -> find_occulter_hough cv fuel data minr maxr = Raise ValueError.
Proof.
  intros He. unfold find_occulter_hough, amax.
  destruct (concat (to_list data)) as [|v l] eqn:E; [reflexivity|].
  assert (I : In v (concat (to_list data))) by (rewrite E; left; reflexivity).
  apply in_values in I. destruct I as (y & x & Hy & Hx & _). lia.
Qed.

Lemma search_case :
  let data := mkarr 3 4 (fun y x => IZR (y + x)) in
  let cv : opencv (arr R) := mkopencv (fun a => a) (fun _ _ acc _ _ => if (acc <? 20)%Z then Some [(1, 2, 3); (4, 5, 6)] else Some [(1, 2, 3)]) in
  brightest data 5 /\
  several (answers cv (amap (fun v => 255 * v / 5) data) 4 1 4 0) /\ several (answers cv (amap (fun v => 255 * v / 5) data) 4 1 4 1) /\
  answers cv (amap (fun v => 255 * v / 5) data) 4 1 4 2 = Some [(1, 2, 3)] /\
  find_occulter_hough cv 10 data 1 None = Ok (2, 1, 3).
Proof.
  intros data cv.
  assert (Bt : brightest data 5).
  { split; [exists 2%Z, 3%Z; cbn; repeat split; lia|]. intros y x Hy Hx. cbn in *. apply (IZR_le _ 5). lia. }
  assert (S1 : forall j, (j < 2)%nat -> several (answers cv (amap (fun v => 255 * v / 5) data) 4 1 4 j)).
  { intros j Hj. exists (1, 2, 3), (4, 5, 6), []. unfold answers. cbn.
    assert (J : j = 0%nat \/ j = 1%nat) by lia. destruct J as [-> | ->]; reflexivity. }
  split; [exact Bt|]. split; [apply S1; lia|]. split; [apply S1; lia|]. split; [reflexivity|].
  unfold find_occulter_hough. rewrite (amax_brightest _ _ Bt). reflexivity.
Qed.

Lemma sigmoid_off fit d a b c e :
  (2 <= rows d)%Z -> (2 <= cols d)%Z ->
  let hy := (rows d / 2)%Z in
  let hx := (cols d / 2)%Z in
  (0 <= a < hy)%Z -> (hy <= b)%Z -> (0 <= c < hx)%Z -> (hx <= e)%Z -> Z.odd (a + b) = true -> 
  edge_at fit (upwards d hy hx) hy (IZR (hy - 1) - IZR a) -> edge_at fit (downwards d hy hx) (rows d - hy) (IZR b - IZR hy) ->
  edge_at fit (leftwards d hy hx) hx (IZR (hx - 1) - IZR c) -> edge_at fit (rightwards d hy hx) (cols d - hx) (IZR e - IZR hx) ->
  exists x r, find_occulter_sigmoid fit d = Ok (((a + b) / 2 + 1)%Z, x, r).
Proof.
  intros Hr Hc hy hx Ha Hb Hcc He Ho Eu Ed El Er.
  exists (rtrunc ((IZR c + IZR e) / 2 + 1 / 2)), (rtrunc ((Rabs (IZR b - IZR a - 1) + Rabs (IZR e - IZR c - 1)) / 4)).
  apply (sigmoid_rows fit d (IZR a) (IZR b) (IZR c) (IZR e)); try assumption; try apply rtrunc_spec.
  apply Z.odd_spec in Ho. destruct Ho as (m & Hm).
  assert (Em : ((a + b) / 2 = m)%Z) by (rewrite Hm; symmetry; apply Z.div_unique with 1%Z; lia).
  rewrite Em. assert (Es : IZR a + IZR b = 2 * IZR m + 1) by (rewrite <- plus_IZR, Hm, plus_IZR, mult_IZR; reflexivity).
  assert (0 <= IZR m) by (apply (IZR_le 0); lia). rewrite Es. unfold truncated. rewrite plus_IZR. split; intros; lra.
Qed.
