(** Lines of pixels. *)
From Coq Require Import Reals Lra.
From Verif Require Import Base.Base Base.BaseFacts Base.Num Model.Codec Model.LinRoi Spec.CodecSpec Spec.LineSpec
  Proofs.RawFacts Proofs.LineCompare.

Lemma quot_bounds p n : 0 < n ->
  (0 <= p -> n * Z.quot p n <= p < n * Z.quot p n + n /\ 0 <= Z.quot p n) /\
  (p <= 0 -> n * Z.quot p n - n < p <= n * Z.quot p n /\ Z.quot p n <= 0).
Proof.
  intros Hn. pose proof (Z.quot_rem' p n) as E. split; intros Hp.
  - pose proof (Z.rem_bound_pos p n Hp Hn). pose proof (Z.quot_pos p n Hp Hn). lia.
  - assert (B : - n < Z.rem p n <= 0).
    { destruct (Z.eq_dec p 0) as [->|Hne]; [rewrite Z.rem_0_l by lia; lia|].
      pose proof (Z.rem_bound_pos (- p) n ltac:(lia) Hn) as B. rewrite Z.rem_opp_l in B by lia. lia. }
    assert (Z.quot p n <= 0).
    { pose proof (Z.quot_pos (- p) n ltac:(lia) Hn) as Q. rewrite Z.quot_opp_l in Q by lia. lia. }
    lia.
Qed.

Lemma rtrunc_quot p n : 0 < n -> rtrunc (IZR p / IZR n) = Z.quot p n.
Proof.
  intros Hn. apply (truncated_unique (IZR p / IZR n)%R); [apply rtrunc_spec|].
  assert (Hr : (0 < IZR n)%R) by (apply (IZR_lt 0); lia).
  destruct (quot_bounds p n Hn) as [Q1 Q2].
  assert (K : (IZR p / IZR n * IZR n = IZR p)%R) by (field; lra).
  split; intros Hp.
  - assert (0 <= p).
    { apply le_IZR. rewrite <- K. apply Rmult_le_pos; lra. }
    destruct Q1 as ((L & U) & _); [assumption|]. apply IZR_le in L. apply IZR_lt in U.
    rewrite plus_IZR in U. rewrite mult_IZR in L, U. split.
    + apply (Rmult_le_reg_r (IZR n)); [exact Hr|]. lra.
    + apply (Rmult_lt_reg_r (IZR n)); [exact Hr|]. lra.
  - assert (p <= 0).
    { apply le_IZR. rewrite <- K. assert (IZR p / IZR n * IZR n <= 0 * IZR n)%R by (apply Rmult_le_compat_r; lra). lra. }
    destruct Q2 as ((L & U) & _); [assumption|]. apply IZR_lt in L. apply IZR_le in U.
    rewrite minus_IZR in L. rewrite mult_IZR in L, U. split.
    + apply (Rmult_lt_reg_r (IZR n)); [exact Hr|]. lra.
    + apply (Rmult_le_reg_r (IZR n)); [exact Hr|]. lra.
Qed.

Lemma along_0 a d n : 0 < n -> along a d n 0 = a.
Proof. intros Hn. unfold along. replace (a * n + 0 * d) with (a * n) by lia. apply Z.quot_mul. lia. Qed.
Lemma along_n a d n : 0 < n -> along a d n n = a + d.
Proof. intros Hn. unfold along. replace (a * n + n * d) with ((a + d) * n) by lia. apply Z.quot_mul. lia. Qed.
Lemma along_major a d n k : 0 < n -> Z.abs d = n -> along a d n k = a + k * Z.sgn d.
Proof.
  intros Hn Hd. unfold along. replace (a * n + k * d) with ((a + k * Z.sgn d) * n) by lia. apply Z.quot_mul. lia.
Qed.
Lemma along_step a d n k : 0 < n -> Z.abs d <= n -> Z.abs (along a d n (k + 1) - along a d n k) <= 1.
Proof.
  intros Hn Hd. unfold along. replace (a * n + (k + 1) * d) with (a * n + k * d + d) by lia.
  set (p := a * n + k * d). clearbody p.
  destruct (quot_bounds p n Hn) as [P1 P2]. destruct (quot_bounds (p + d) n Hn) as [Q1 Q2].
  set (u := Z.quot p n) in *. set (v := Z.quot (p + d) n) in *. clearbody u v.
  destruct (Z_le_gt_dec 0 p) as [Hp|Hp], (Z_le_gt_dec 0 (p + d)) as [Hq|Hq];
    try specialize (P1 ltac:(lia)); try specialize (P2 ltac:(lia));
    try specialize (Q1 ltac:(lia)); try specialize (Q2 ltac:(lia)); nia.
Qed.
Lemma along_between a d n k : 0 < n -> 0 <= k <= n -> between a (a + d) (along a d n k).
Proof.
  intros Hn Hk. pose proof (along_0 a d n Hn) as E0. pose proof (along_n a d n Hn) as E1.
  unfold between. rewrite <- E1. assert (M : forall p q, p <= q -> Z.quot p n <= Z.quot q n).
  { intros p q Hpq. apply Z.quot_le_mono; lia. }
  destruct (Z_le_gt_dec 0 d); [left|right]; (split; [rewrite <- E0 at 1|]; unfold along; apply M; nia) ||
    (split; [|rewrite <- E0 at 2]; unfold along; apply M; nia).
Qed.

Lemma IZR_neq0 n : n <> 0 -> IZR n <> 0%R.
Proof. apply not_0_IZR. Qed.

Lemma dda_points y1 x1 y2 x2 :
  let dy := y2 - y1 in let dx := x2 - x1 in let n := longer dy dx in
  0 < n ->
  DDA (A := R) y1 x1 y2 x2 =
    Ok (map (along y1 dy n) (zrange (n + 2)), map (along x1 dx n) (zrange (n + 2)),
        (sqrt (IZR (dx * dx + dy * dy)) / IZR (n + 2))%R).
Proof.
  intros dy dx n Hn. unfold DDA. fold dy. fold dx.
  replace (if Z.abs dy <=? Z.abs dx then Z.abs dx else Z.abs dy) with n
    by (unfold n, longer; destruct (Z.leb_spec (Z.abs dy) (Z.abs dx)); lia).
  replace (n =? 0) with false by (symmetry; apply Z.eqb_neq; lia).
  pose proof (IZR_neq0 n ltac:(lia)) as Hr.
  cbv zeta.
  match goal with |- context [for_range 0 (n + 1) 1 ?body ?st] =>
    destruct (for_range_1 (fun k '(x, y, xs, ys) =>
       x = ((IZR (x1 * n + k * dx)) / IZR n)%R /\ y = ((IZR (y1 * n + k * dy)) / IZR n)%R /\
       xs = map (along x1 dx n) (zrange (k + 1)) /\ ys = map (along y1 dy n) (zrange (k + 1)))
      0 (n + 1) body st) as ([[[x y] xs] ys] & E & (_ & _ & Hx & Hy)) end.
  - lia.
  - repeat split.
    + cbn [nofZ Num_R]. rewrite plus_IZR, !mult_IZR. field. exact Hr.
    + cbn [nofZ Num_R]. rewrite plus_IZR, !mult_IZR. field. exact Hr.
    + change (zrange (0 + 1)) with [0]. cbn [map]. rewrite along_0 by exact Hn. reflexivity.
    + change (zrange (0 + 1)) with [0]. cbn [map]. rewrite along_0 by exact Hn. reflexivity.
  - intros k [[[x y] xs] ys] Hk (Ex & Ey & Hx & Hy). cbn beta iota.
    eexists; split; [reflexivity|]. cbn beta iota.
    assert (Fx : (x + IZR dx / IZR n = IZR (x1 * n + (k + 1) * dx) / IZR n)%R).
    { rewrite Ex. rewrite !plus_IZR, !mult_IZR, plus_IZR. field. exact Hr. }
    assert (Fy : (y + IZR dy / IZR n = IZR (y1 * n + (k + 1) * dy) / IZR n)%R).
    { rewrite Ey. rewrite !plus_IZR, !mult_IZR, plus_IZR. field. exact Hr. }
    cbn [nadd ndiv nofZ Num_R]. rewrite Fx, Fy. rewrite !rtrunc_quot by exact Hn.
    rewrite (zrange_succ (k + 1)) by lia. rewrite !map_app, <- Hx, <- Hy. repeat split.
  - rewrite E. cbn [bind]. replace (n + 2) with (n + 1 + 1) by lia. subst xs ys.
    rewrite map_length, length_zrange, Z2Nat.id by lia. reflexivity.
Qed.

Lemma item_map f m k : 0 <= k < m -> item (map f (zrange m)) k (f k).
Proof. intros Hk. split; [lia|]. rewrite nth_error_map, nth_error_zrange by lia. reflexivity. Qed.
Lemma item_map_inv f m k v : item (map f (zrange m)) k v -> 0 <= k < m /\ v = f k.
Proof.
  intros (H0 & H). assert (k < m).
  { assert (Z.to_nat k < length (map f (zrange m)))%nat by (apply nth_error_Some; congruence).
    rewrite map_length, length_zrange in *. lia. }
  split; [lia|]. rewrite nth_error_map, nth_error_zrange in H by lia. cbn in H. congruence.
Qed.

Lemma values_cells {B} (data : arr B) (fy fx : Z -> Z) (l : list Z) :
  (forall k, In k l -> 0 <= fy k < rows data /\ 0 <= fx k < cols data) ->
  values data (map fy l) (map fx l) = Ok (map (fun k => cell data (fy k) (fx k)) l).
Proof.
  induction l as [|k l IH]; intros Hb; [reflexivity|]. cbn [map values].
  destruct (Hb k (or_introl eq_refl)) as [Hy Hx]. unfold get, norm_idx.
  replace ((0 <=? fy k) && (fy k <? rows data)) with true
    by (symmetry; apply andb_true_intro; split; [apply Z.leb_le|apply Z.ltb_lt]; lia).
  replace ((0 <=? fx k) && (fx k <? cols data)) with true
    by (symmetry; apply andb_true_intro; split; [apply Z.leb_le|apply Z.ltb_lt]; lia).
  cbn [bind]. rewrite IH by (intros; apply Hb; right; assumption). reflexivity.
Qed.

Lemma values_app {B} (data : arr B) ys1 xs1 ys2 xs2 : length ys1 = length xs1 ->
  values data (ys1 ++ ys2) (xs1 ++ xs2) =
    bind (values data ys1 xs1) (fun a => bind (values data ys2 xs2) (fun b => Ok (a ++ b))).
Proof.
  revert xs1. induction ys1 as [|y ys1 IH]; intros [|x xs1] Hl; try discriminate Hl; cbn [app values].
  - cbn [bind]. destruct (values data ys2 xs2); reflexivity.
  - destruct (get data y x); cbn [bind]; try reflexivity. rewrite IH by (injection Hl; auto).
    destruct (values data ys1 xs1); cbn [bind]; try reflexivity. destruct (values data ys2 xs2); reflexivity.
Qed.

Lemma linear_roi_ok {B} (data : arr B) y1 x1 y2 x2 :
  let dy := y2 - y1 in let dx := x2 - x1 in let n := longer dy dx in
  0 < n ->
  (forall k, 0 <= k <= n + 1 -> 0 <= along y1 dy n k < rows data /\ 0 <= along x1 dx n k < cols data) ->
  linear_roi (A := R) data y1 x1 y2 x2 =
    Ok (map (along y1 dy n) (zrange (n + 2)), map (along x1 dx n) (zrange (n + 2)),
        map (fun k => cell data (along y1 dy n k) (along x1 dx n k)) (zrange (n + 2))).
Proof.
  intros dy dx n Hn Hb. unfold linear_roi. rewrite dda_points by exact Hn. fold dy dx n. cbn [bind].
  rewrite values_cells; [reflexivity|]. intros k Hk. apply in_zrange in Hk. apply Hb. lia.
Qed.

(** A start and an end inside the image, with one pixel to spare beyond the end. *)
Lemma linear_roi_inside {B} (data : arr B) y1 x1 y2 x2 :
  let dy := y2 - y1 in let dx := x2 - x1 in let n := longer dy dx in
  0 < n ->
  0 <= y1 < rows data -> 0 <= x1 < cols data -> 1 <= y2 < rows data - 1 -> 1 <= x2 < cols data - 1 ->
  linear_roi (A := R) data y1 x1 y2 x2 =
    Ok (map (along y1 dy n) (zrange (n + 2)), map (along x1 dx n) (zrange (n + 2)),
        map (fun k => cell data (along y1 dy n k) (along x1 dx n k)) (zrange (n + 2))).
Proof.
  intros dy dx n Hn Hy1 Hx1 Hy2 Hx2. apply linear_roi_ok; [exact Hn|]. fold dy dx n. intros k Hk.
  assert (G : forall a b h, n >= Z.abs (b - a) -> 0 <= a < h -> 1 <= b < h - 1 -> 0 <= along a (b - a) n k < h).
  { intros a b h Hab Ha Hb. destruct (Z.eq_dec k (n + 1)) as [->|Hne].
    - pose proof (along_step a (b - a) n n Hn ltac:(lia)). rewrite along_n in * by exact Hn. lia.
    - pose proof (along_between a (b - a) n k Hn ltac:(lia)) as C. unfold between in C. lia. }
  split; apply G; try lia; unfold n, longer; lia.
Qed.

Lemma linear_roi_far_edge {B} (data : arr B) y x1 :
  0 <= y < rows data -> 0 <= x1 < cols data - 1 ->
  linear_roi (A := R) data y x1 y (cols data - 1) = Raise IndexError.
Proof.
  intros Hy Hx. unfold linear_roi. rewrite dda_points by (unfold longer; lia). cbn [bind].
  set (n := longer (y - y) (cols data - 1 - x1)). assert (En : n = cols data - 1 - x1) by (unfold n, longer; lia).
  replace (n + 2) with (n + 1 + 1) by lia. rewrite zrange_succ by lia. rewrite !map_app. cbn [map].
  rewrite values_app by (rewrite !map_length; reflexivity).
  rewrite values_cells.
  - cbn [bind values].
    rewrite (along_major x1) by lia. replace (Z.sgn (cols data - 1 - x1)) with 1 by lia.
    unfold get, norm_idx. replace (x1 + (n + 1) * 1) with (cols data) by lia.
    replace (cols data <? cols data) with false by (symmetry; apply Z.ltb_irrefl). rewrite andb_false_r.
    replace (cols data <? 0) with false by (symmetry; apply Z.ltb_ge; lia). rewrite andb_false_r.
    destruct (if (0 <=? _) && _ then _ else _); reflexivity.
  - intros k Hk. apply in_zrange in Hk.
    pose proof (along_between y (y - y) n k ltac:(lia) ltac:(lia)) as C.
    pose proof (along_between x1 (cols data - 1 - x1) n k ltac:(lia) ltac:(lia)) as D. unfold between in *. lia.
Qed.

Lemma linear_roi_near_edge {B} (data : arr B) y x1 :
  0 <= y < rows data -> 0 < x1 < cols data ->
  exists ys xs vals, linear_roi (A := R) data y x1 y 0 = Ok (ys, xs, vals) /\
    item xs (x1 + 1) (-1) /\ nth_error vals (Z.to_nat (x1 + 1)) = Some (cell data y (cols data - 1)).
Proof.
  intros Hy Hx. unfold linear_roi. rewrite dda_points by (unfold longer; lia). cbn [bind].
  set (n := longer (y - y) (0 - x1)). assert (En : n = x1) by (unfold n, longer; lia).
  replace (n + 2) with (n + 1 + 1) by lia.
  assert (E1 : along x1 (0 - x1) n (n + 1) = -1) by (rewrite along_major by lia; lia).
  assert (E2 : along y (y - y) n (n + 1) = y).
  { unfold along. replace (y * n + (n + 1) * (y - y)) with (y * n) by lia. apply Z.quot_mul. lia. }
  rewrite zrange_succ by lia. rewrite !map_app. cbn [map].
  rewrite values_app by (rewrite !map_length; reflexivity).
  rewrite values_cells.
  - cbn [bind values]. rewrite E1, E2. unfold get, norm_idx.
    replace ((0 <=? y) && (y <? rows data)) with true
      by (symmetry; apply andb_true_intro; split; [apply Z.leb_le|apply Z.ltb_lt]; lia).
    replace ((0 <=? -1) && (-1 <? cols data)) with false by reflexivity.
    replace ((- cols data <=? -1) && (-1 <? 0)) with true
      by (symmetry; apply andb_true_intro; split; [apply Z.leb_le; lia|reflexivity]).
    cbn [bind]. eexists; eexists; eexists. split; [reflexivity|]. split.
    + split; [lia|]. rewrite nth_error_app2; rewrite map_length, length_zrange; [|lia].
      replace (Z.to_nat (x1 + 1) - Z.to_nat (n + 1))%nat with O by lia. reflexivity.
    + rewrite nth_error_app2; rewrite map_length, length_zrange; [|lia].
      replace (Z.to_nat (x1 + 1) - Z.to_nat (n + 1))%nat with O by lia. cbn.
      do 2 f_equal; lia.
  - intros k Hk. apply in_zrange in Hk.
    pose proof (along_between y (y - y) n k ltac:(lia) ltac:(lia)) as C.
    pose proof (along_between x1 (0 - x1) n k ltac:(lia) ltac:(lia)) as D. unfold between in *. lia.
Qed.

(** ** Bresenham *)

Lemma bresenham_flat y1 x1 y2 x2 :
  let dy := Z.abs (y2 - y1) in let dx := Z.abs (x2 - x1) in
  0 < dx <= 2 ^ 52 -> dy <= dx ->
  exists ys, bresenham y1 x1 y2 x2 = Ok (ys, map (fun k => x1 + k * Z.sgn (x2 - x1)) (zrange (dx + 1))) /\
    length ys = Z.to_nat (dx + 1) /\
    forall k, 0 <= k <= dx -> exists j, item ys k (y1 + j * Z.sgn (y2 - y1)) /\
      0 <= j <= dy /\ Z.abs (2 * dy * k - 2 * dx * j) <= dx.
Proof.
  intros dy dx Hdx Hle. unfold bresenham. fold dy dx.
  replace (dx =? 0) with false by (symmetry; apply Z.eqb_neq; lia).
  rewrite c64_comparison by lia. replace (dx <? dy) with false by (symmetry; apply Z.ltb_ge; lia).
  match goal with |- context [for_range 2 (dx + 2) 1 ?body ?st] =>
    destruct (for_range_1 (fun i '(x, y, p, xs, ys) =>
       let k := i - 2 in
       x = x1 + k * Z.sgn (x2 - x1) /\
       xs = map (fun k => x1 + k * Z.sgn (x2 - x1)) (zrange (k + 1)) /\
       length ys = Z.to_nat (k + 1) /\
       (exists j, y = y1 + j * Z.sgn (y2 - y1) /\ 0 <= j <= dy /\
          p = 2 * dy * (k + 1) - dx * (2 * j + 1) /\ Z.abs (2 * dy * k - 2 * dx * j) <= dx) /\
       forall k', 0 <= k' <= k -> exists j, item ys k' (y1 + j * Z.sgn (y2 - y1)) /\
          0 <= j <= dy /\ Z.abs (2 * dy * k' - 2 * dx * j) <= dx)
      2 (dx + 2) body st) as ([[[[x y] p] xs] ys] & E & (_ & Hxs & Hl & _ & Hys)) end.
  - lia.
  - cbv zeta. change (2 - 2) with 0. split; [lia|]. split; [change (zrange (0 + 1)) with [0]; cbn [map]; f_equal; lia|].
    split; [reflexivity|]. split; [exists 0; split; [lia|]; split; [lia|]; split; lia|].
    intros k' Hk'. exists 0. replace k' with 0 by lia. rewrite !Z.mul_0_l, !Z.mul_0_r, Z.add_0_r.
    split; [split; [lia|reflexivity]|]. split; lia.
  - intros i [[[[x y] p] xs] ys] Hi. cbv zeta. set (k := i - 2). replace (i + 1 - 2) with (k + 1) by lia.
    intros (Ex & Exs & Hl & (j & Ey & Hj & Ep & Hb) & Hys).
    assert (Fx : (if x <? x2 then x + 1 else x - 1) = x1 + (k + 1) * Z.sgn (x2 - x1)).
    { destruct (Z.ltb_spec x x2); lia. }
    assert (Q : exists j' y' p', (if 0 <? p then (if y <? y2 then y + 1 else y - 1, p + 2 * (dy - dx)) else (y, p + 2 * dy))
              = (y', p') /\ y' = y1 + j' * Z.sgn (y2 - y1) /\ 0 <= j' <= dy /\
              p' = 2 * dy * (k + 1 + 1) - dx * (2 * j' + 1) /\ Z.abs (2 * dy * (k + 1) - 2 * dx * j') <= dx).
    { destruct (Z.ltb_spec 0 p) as [Hp|Hp].
      - assert (Hjd : j < dy) by nia.
        exists (j + 1). eexists; eexists. split; [reflexivity|]. split; [|split; [lia|split; nia]].
        destruct (Z.ltb_spec y y2); nia.
      - exists j. eexists; eexists. split; [reflexivity|]. split; [exact Ey|]. split; [lia|]. split; nia. }
    destruct Q as (j' & y' & p' & Eq & Ey' & Hj' & Ep' & Hb'). cbn beta iota. rewrite Eq.
    eexists; split; [reflexivity|]. cbn beta iota. rewrite Fx. split; [reflexivity|].
    split. { rewrite (zrange_succ (k + 1)) by lia. rewrite map_app, <- Exs. reflexivity. }
    split. { rewrite app_length, Hl. cbn. lia. }
    split. { exists j'. repeat split; assumption || lia. }
    intros k' Hk'. destruct (Z.eq_dec k' (k + 1)) as [->|Hne].
    + exists j'. split; [|split; assumption]. split; [lia|].
      rewrite nth_error_app2 by lia. rewrite Hl, Nat.sub_diag. cbn. f_equal. exact Ey'.
    + destruct (Hys k' ltac:(lia)) as (j0 & (H0 & Hi0) & Hr). exists j0. split; [|exact Hr]. split; [lia|].
      rewrite nth_error_app1 by lia. exact Hi0.
  - rewrite E. cbn [bind]. replace (dx + 2 - 2) with dx in * by lia.
    exists ys. rewrite Hxs. split; [reflexivity|]. split; [exact Hl|exact Hys].
Qed.

Lemma bresenham_nearest y1 x1 y2 x2 : x1 <> x2 -> Z.abs (y2 - y1) <= Z.abs (x2 - x1) <= 2 ^ 52 ->
  exists ys xs, bresenham y1 x1 y2 x2 = Ok (ys, xs) /\
    Z.of_nat (length ys) = Z.abs (x2 - x1) + 1 /\ Z.of_nat (length xs) = Z.abs (x2 - x1) + 1 /\
    item ys 0 y1 /\ item xs 0 x1 /\ item ys (Z.abs (x2 - x1)) y2 /\ item xs (Z.abs (x2 - x1)) x2 /\
    forall k y x, item ys k y -> item xs k x ->
      x = x1 + k * Z.sgn (x2 - x1) /\ (Rabs (IZR y - ideal_row y1 x1 y2 x2 x) <= 1 / 2)%R.
Proof.
  intros Hne Hle. destruct (bresenham_flat y1 x1 y2 x2) as (ys & E & Hl & Hys); [lia|exact (proj1 Hle)|].
  set (dx := Z.abs (x2 - x1)) in *. set (dy := Z.abs (y2 - y1)) in *.
  exists ys; eexists. split; [exact E|]. split; [lia|]. split; [rewrite map_length, length_zrange; lia|].
  split.
  { destruct (Hys 0 ltac:(lia)) as (j & Hi & Hj & Hb). replace (y1 + j * Z.sgn (y2 - y1)) with y1 in Hi by nia. exact Hi. }
  split.
  { pose proof (item_map (fun k => x1 + k * Z.sgn (x2 - x1)) (dx + 1) 0 ltac:(lia)) as Hi. cbn beta in Hi.
    replace (x1 + 0 * Z.sgn (x2 - x1)) with x1 in Hi by lia. exact Hi. }
  split.
  { destruct (Hys dx ltac:(lia)) as (j & Hi & Hj & Hb). assert (j = dy) by nia. subst j.
    replace (y1 + dy * Z.sgn (y2 - y1)) with y2 in Hi by lia. exact Hi. }
  split.
  { pose proof (item_map (fun k => x1 + k * Z.sgn (x2 - x1)) (dx + 1) dx ltac:(lia)) as Hi. cbn beta in Hi.
    replace (x1 + dx * Z.sgn (x2 - x1)) with x2 in Hi by lia. exact Hi. }
  intros k y x Hy Hx. apply item_map_inv in Hx as (Hk & ->). split; [reflexivity|].
  destruct (Hys k ltac:(lia)) as (j & Hi & Hj & Hb).
  destruct Hi as (_ & Hi), Hy as (_ & Hy). rewrite Hi in Hy. injection Hy as <-.
  unfold ideal_row. replace (x1 + k * Z.sgn (x2 - x1) - x1) with (k * Z.sgn (x2 - x1)) by lia.
  assert (Hdx : (0 < IZR dx)%R) by (apply (IZR_lt 0); lia).
  assert (E1 : IZR (x2 - x1) = (IZR (Z.sgn (x2 - x1)) * IZR dx)%R) by (rewrite <- mult_IZR; f_equal; lia).
  assert (E2 : IZR (y2 - y1) = (IZR (Z.sgn (y2 - y1)) * IZR dy)%R) by (rewrite <- mult_IZR; f_equal; lia).
  assert (Hs : IZR (Z.sgn (x2 - x1)) <> 0%R) by (apply IZR_neq0; lia).
  rewrite E1, E2, plus_IZR, !mult_IZR.
  replace (IZR y1 + IZR j * IZR (Z.sgn (y2 - y1)) - (IZR y1 + IZR k * IZR (Z.sgn (x2 - x1)) *
            (IZR (Z.sgn (y2 - y1)) * IZR dy) / (IZR (Z.sgn (x2 - x1)) * IZR dx)))%R
    with (IZR (Z.sgn (y2 - y1)) * ((IZR (2 * dx * j - 2 * dy * k)) / (2 * IZR dx)))%R
    by (rewrite minus_IZR, !mult_IZR; field; split; [lra|exact Hs]).
  rewrite Rabs_mult, <- abs_IZR.
  assert (A : (0 <= IZR (Z.abs (Z.sgn (y2 - y1))) <= 1)%R) by (split; [apply (IZR_le 0)|apply (IZR_le _ 1)]; lia).
  assert (B : (0 <= Rabs (IZR (2 * dx * j - 2 * dy * k) / (2 * IZR dx)) <= 1 / 2)%R).
  { split; [apply Rabs_pos|]. unfold Rdiv at 1. rewrite Rabs_mult, <- abs_IZR, (Rabs_pos_eq (/ _)).
    2: left; apply Rinv_0_lt_compat; lra.
    apply (Rmult_le_reg_r (2 * IZR dx)); [lra|]. rewrite Rmult_assoc, Rinv_l by lra.
    assert (IZR (Z.abs (2 * dx * j - 2 * dy * k)) <= IZR dx)%R by (apply IZR_le; lia). lra. }
  assert (IZR (Z.abs (Z.sgn (y2 - y1))) * Rabs (IZR (2 * dx * j - 2 * dy * k) / (2 * IZR dx)) <= 1 * (1 / 2))%R.
  { apply Rmult_le_compat; lra. }
  lra.
Qed.

Lemma bresenham_steep y1 x1 y2 x2 : x1 <> x2 -> Z.abs (x2 - x1) < Z.abs (y2 - y1) <= 2 ^ 52 ->
  bresenham y1 x1 y2 x2 = bresenham x1 y1 x2 y2.
Proof.
  intros Hne Hlt. unfold bresenham.
  replace (Z.abs (x2 - x1) =? 0) with false by (symmetry; apply Z.eqb_neq; lia).
  replace (Z.abs (y2 - y1) =? 0) with false by (symmetry; apply Z.eqb_neq; lia).
  rewrite !c64_comparison by lia.
  replace (Z.abs (x2 - x1) <? Z.abs (y2 - y1)) with true by (symmetry; apply Z.ltb_lt; lia).
  replace (Z.abs (y2 - y1) <? Z.abs (x2 - x1)) with false by (symmetry; apply Z.ltb_ge; lia).
  reflexivity.
Qed.

Lemma dda_walk y1 x1 y2 x2 : (y1, x1) <> (y2, x2) ->
  let n := longer (y2 - y1) (x2 - x1) in
  exists ys xs density, DDA (A := R) y1 x1 y2 x2 = Ok (ys, xs, density) /\
    Z.of_nat (length ys) = n + 2 /\ Z.of_nat (length xs) = n + 2 /\
    item ys 0 y1 /\ item xs 0 x1 /\ item ys n y2 /\ item xs n x2 /\
    (forall k y y', item ys k y -> item ys (k + 1) y' -> Z.abs (y' - y) <= 1) /\
    (forall k x x', item xs k x -> item xs (k + 1) x' -> Z.abs (x' - x) <= 1) /\
    (forall k y, k <= n -> item ys k y -> between y1 y2 y) /\
    (forall k x, k <= n -> item xs k x -> between x1 x2 x).
Proof.
  intros Hne n. assert (Hn : 0 < n).
  { unfold n, longer. destruct (Z.eq_dec y1 y2) as [->|]; [|lia]. destruct (Z.eq_dec x1 x2) as [->|]; [congruence|lia]. }
  assert (Hy : Z.abs (y2 - y1) <= n) by (unfold n, longer; lia).
  assert (Hx : Z.abs (x2 - x1) <= n) by (unfold n, longer; lia).
  do 3 eexists. split; [apply (dda_points y1 x1 y2 x2 Hn)|]. fold n.
  rewrite !map_length, !length_zrange.
  assert (G : forall a b, Z.abs (b - a) <= n -> let l := map (along a (b - a) n) (zrange (n + 2)) in
     item l 0 a /\ item l n b /\ (forall k v v', item l k v -> item l (k + 1) v' -> Z.abs (v' - v) <= 1) /\
     (forall k v, k <= n -> item l k v -> between a b v)).
  { intros a b Hab l.
    split. { pose proof (item_map (along a (b - a) n) (n + 2) 0 ltac:(lia)) as Hi. rewrite along_0 in Hi by exact Hn. exact Hi. }
    split. { pose proof (item_map (along a (b - a) n) (n + 2) n ltac:(lia)) as Hi. rewrite along_n in Hi by exact Hn.
             replace (a + (b - a)) with b in Hi by lia. exact Hi. }
    split.
    - intros k v v' Hv Hv'. apply item_map_inv in Hv as (Hk & ->). apply item_map_inv in Hv' as (_ & ->).
      apply along_step; assumption.
    - intros k v Hk Hv. apply item_map_inv in Hv as (Hk' & ->).
      replace b with (a + (b - a)) at 1 by lia. apply along_between; lia. }
  destruct (G y1 y2 Hy) as (A1 & A2 & A3 & A4). destruct (G x1 x2 Hx) as (B1 & B2 & B3 & B4).
  split; [lia|]. split; [lia|]. tauto.
Qed.

Lemma dda_overshoot y1 x1 y2 x2 : x1 <> x2 -> Z.abs (y2 - y1) <= Z.abs (x2 - x1) ->
  exists ys xs density, DDA (A := R) y1 x1 y2 x2 = Ok (ys, xs, density) /\
    item xs (Z.abs (x2 - x1) + 1) (x2 + Z.sgn (x2 - x1)).
Proof.
  intros Hne Hle. set (n := longer (y2 - y1) (x2 - x1)). assert (En : n = Z.abs (x2 - x1)) by (unfold n, longer; lia).
  do 3 eexists. split; [apply (dda_points y1 x1 y2 x2); fold n; lia|]. fold n. rewrite <- En.
  replace (x2 + Z.sgn (x2 - x1)) with (along x1 (x2 - x1) n (n + 1)) by (rewrite along_major by lia; lia).
  apply item_map. lia.
Qed.

Lemma dda_same y x : DDA (A := R) y x y x = Raise ValueError /\ DDA (A := b64) y x y x = Raise ValueError.
Proof. unfold DDA. rewrite !Z.sub_diag. split; reflexivity. Qed.
