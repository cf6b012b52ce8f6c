(** Symmetries of lines of pixels (for C135). *)
From Coq Require Import Reals Lra Lia Floats.SpecFloat.
From Verif Require Import Base.Base Base.BaseFacts Base.Num Model.LinRoi Spec.LineSpec Spec.SymmetrySpec Spec.LineSymmetry
  Proofs.LineFacts Proofs.LineCompare Proofs.LineFloatFacts.

(** ** Rows and columns exchanged *)
Lemma iter_sim {S T} (f : S -> T) n lo step body body' s :
  (forall i s, body' i (f s) = on_ok f (body i s)) ->
  iter_range n lo step body' (f s) = on_ok f (iter_range n lo step body s).
Proof.
  intros H. revert lo s. induction n as [|n IH]; intros lo s; cbn [iter_range]; [reflexivity|].
  rewrite H. destruct (body lo s); cbn [on_ok bind]; [apply IH|reflexivity|reflexivity].
Qed.

Definition one_error {A} `{ToInt A} : Prop := forall v : A, match toint v with Ok _ => True | r => r = Raise ValueError end.
Lemma one_error_R : one_error (A := R). Proof. intros v. exact I. Qed.
Lemma one_error_b64 : one_error (A := b64). Proof. intros v. destruct v; cbn; reflexivity || exact I. Qed.

Lemma iter_keeps {S} (P : S -> Prop) n lo step body (s s' : S) :
  (forall i s s', P s -> body i s = Ok s' -> P s') -> P s -> iter_range n lo step body s = Ok s' -> P s'.
Proof.
  intros Hb. revert lo s. induction n as [|n IH]; intros lo s Hs; cbn [iter_range].
  - intros E. injection E as <-. exact Hs.
  - destruct (body lo s) as [t|e|] eqn:E; cbn [bind]; [|discriminate|discriminate]. apply IH. exact (Hb _ _ _ Hs E).
Qed.

Lemma dda_transposed {A} `{Num A} `{ToInt A} y1 x1 y2 x2 : one_error (A := A) ->
  DDA (A := A) x1 y1 x2 y2 = on_ok swap3 (DDA y1 x1 y2 x2).
Proof.
  intros He. unfold DDA.
  replace (if Z.abs (x2 - x1) <=? Z.abs (y2 - y1) then Z.abs (y2 - y1) else Z.abs (x2 - x1))
    with (if Z.abs (y2 - y1) <=? Z.abs (x2 - x1) then Z.abs (x2 - x1) else Z.abs (y2 - y1))
    by (destruct (Z.leb_spec (Z.abs (x2 - x1)) (Z.abs (y2 - y1))), (Z.leb_spec (Z.abs (y2 - y1)) (Z.abs (x2 - x1))); lia).
  set (n := if _ <=? _ then _ else _). destruct (n =? 0); [reflexivity|].
  pose (f := fun s : A * A * list Z * list Z => let '(x, y, xs, ys) := s in (y, x, ys, xs)).
  unfold for_range.
  change (nofZ y1, nofZ x1, [y1], [x1]) with (f (nofZ x1, nofZ y1, [x1], [y1])).
  match goal with |- context [iter_range ?m ?lo ?st ?b (nofZ x1, nofZ y1, [x1], [y1])] =>
    match goal with |- context [iter_range m lo st ?b' (f (nofZ x1, nofZ y1, [x1], [y1]))] =>
      rewrite (iter_sim f m lo st b b') end end.
  - destruct (iter_range _ _ _ _ _) as [[[[x y] xs] ys]|e|] eqn:E; cbn [on_ok bind]; [|reflexivity|reflexivity].
    cbn [f swap3 on_ok].
    assert (L : length ys = length xs).
    { assert (K : let '(_, _, xs, ys) := (x, y, xs, ys) in length ys = length xs); [|exact K].
      refine (iter_keeps (fun s : A * A * list Z * list Z => let '(_, _, xs, ys) := s in length ys = length xs) _ _ _ _ _ _ _ _ E); [|reflexivity].
      clear. intros i [[[x y] xs] ys] [[[x' y'] xs'] ys'] L. cbv zeta.
      destruct (toint (y +! _)); cbn [bind]; [|discriminate|discriminate].
      destruct (toint (x +! _)); cbn [bind]; [|discriminate|discriminate].
      intros E. injection E as <- <- <- <-. rewrite !app_length, L. reflexivity. }
    rewrite L. f_equal. f_equal. f_equal. f_equal. f_equal. lia.
  - intros i [[[x y] xs] ys]. cbn [f].
    pose proof (He (x +! (nofZ (x2 - x1) /! nofZ n))) as Ex. pose proof (He (y +! (nofZ (y2 - y1) /! nofZ n))) as Ey.
    cbv zeta. destruct (toint (x +! _)) as [ix|e|], (toint (y +! _)) as [iy|e'|]; cbn [bind on_ok f]; try congruence; reflexivity.
Qed.

Lemma get_transposed {B} (data : arr B) y x : get (transposed data) x y = get data y x.
Proof. unfold get, transposed. cbn [rows cols cell]. destruct (norm_idx (rows data) y), (norm_idx (cols data) x); reflexivity. Qed.

Lemma values_transposed {B} (data : arr B) ys xs : values (transposed data) xs ys = values data ys xs.
Proof.
  revert xs. induction ys as [|y ys IH]; intros [|x xs]; cbn [values]; try reflexivity.
  rewrite get_transposed, IH. reflexivity.
Qed.

Lemma c135_transposed {B} (data : arr B) y1 x1 y2 x2 :
  linear_roi (A := R) (transposed data) x1 y1 x2 y2 = on_ok swap3 (linear_roi (A := R) data y1 x1 y2 x2) /\
  linear_roi (A := b64) (transposed data) x1 y1 x2 y2 = on_ok swap3 (linear_roi (A := b64) data y1 x1 y2 x2).
Proof.
  unfold linear_roi. split.
  - rewrite (dda_transposed y1 x1 y2 x2 one_error_R). destruct (DDA y1 x1 y2 x2) as [[[ys xs] d]|e|]; cbn [on_ok bind swap3]; [|reflexivity|reflexivity].
    rewrite values_transposed. destruct (values data ys xs); reflexivity.
  - rewrite (dda_transposed y1 x1 y2 x2 one_error_b64). destruct (DDA y1 x1 y2 x2) as [[[ys xs] d]|e|]; cbn [on_ok bind swap3]; [|reflexivity|reflexivity].
    rewrite values_transposed. destruct (values data ys xs); reflexivity.
Qed.

(** ** Backwards, exactly *)
Lemma along_back a b n k : along b (a - b) n (n - k) = along a (b - a) n k.
Proof. unfold along. f_equal. ring. Qed.

Lemma nth_map_zrange (f : Z -> Z) m k : 0 <= k < m -> nth_error (map f (zrange m)) (Z.to_nat k) = Some (f k).
Proof. intros Hk. exact (proj2 (item_map f m k Hk)). Qed.

Lemma longer_sym a b c d : longer (a - b) (c - d) = longer (b - a) (d - c).
Proof. unfold longer. lia. Qed.

Lemma longer_pos y1 x1 y2 x2 : (y1, x1) <> (y2, x2) -> 0 < longer (y2 - y1) (x2 - x1).
Proof. intros Hne. unfold longer. destruct (Z.eq_dec y1 y2), (Z.eq_dec x1 x2); subst; [congruence|lia|lia|lia]. Qed.

Lemma c135_backwards y1 x1 y2 x2 : (y1, x1) <> (y2, x2) ->
  exists ys xs ys' xs' density,
    DDA (A := R) y1 x1 y2 x2 = Ok (ys, xs, density) /\ DDA (A := R) y2 x2 y1 x1 = Ok (ys', xs', density) /\
    backwards (longer (y2 - y1) (x2 - x1)) ys ys' /\ backwards (longer (y2 - y1) (x2 - x1)) xs xs'.
Proof.
  intros Hne. pose proof (longer_pos _ _ _ _ Hne) as Hn.
  pose proof (dda_points y1 x1 y2 x2 Hn) as E1.
  pose proof (dda_points y2 x2 y1 x1 ltac:(rewrite longer_sym; exact Hn)) as E2.
  rewrite (longer_sym y1 y2 x1 x2) in E2. set (n := longer (y2 - y1) (x2 - x1)) in *.
  replace ((x1 - x2) * (x1 - x2) + (y1 - y2) * (y1 - y2)) with ((x2 - x1) * (x2 - x1) + (y2 - y1) * (y2 - y1)) in E2 by ring.
  do 5 eexists. split; [exact E1|]. split; [exact E2|].
  split; intros k Hk; rewrite !nth_map_zrange by lia; rewrite along_back; reflexivity.
Qed.

(** ** Backwards, rounded *)
Lemma beside_twice a b n k v v' : 0 < n -> beside a (b - a) n k v -> beside b (a - b) n (n - k) v' ->
  Z.abs (v - v') <= 1 /\ (~ (n | k * (b - a)) -> v = v').
Proof.
  unfold beside. rewrite along_back. intros Hn H1 H2.
  assert (E : b * n + (n - k) * (a - b) = a * n + k * (b - a)) by ring.
  assert (M : forall m, a * n + k * (b - a) = m * n -> along a (b - a) n k = m /\ (n | k * (b - a))).
  { intros m Em. split; [unfold along; rewrite Em; apply Z.quot_mul; lia|]. exists (m - a). lia. }
  destruct H1 as [H1|(m & Em & H1)], H2 as [H2|(m' & Em' & H2)].
  - subst. split; [lia|reflexivity].
  - rewrite E in Em'. destruct (M m' Em') as [A D]. split; [rewrite H1, H2, A; lia|intros N; contradiction].
  - destruct (M m Em) as [A D]. split; [rewrite H1, H2, A; lia|intros N; contradiction].
  - rewrite E in Em'. destruct (M m Em) as [A D]. destruct (M m' Em') as [A' _]. assert (m = m') by congruence. subst m'. split; [lia|intros; lia].
Qed.

Lemma c135_backwards_float y1 x1 y2 x2 :
  Z.abs y1 <= 65536 -> Z.abs x1 <= 65536 -> Z.abs y2 <= 65536 -> Z.abs x2 <= 65536 -> (y1, x1) <> (y2, x2) ->
  let n := longer (y2 - y1) (x2 - x1) in
  exists ys xs d ys' xs' d', DDA (A := b64) y1 x1 y2 x2 = Ok (ys, xs, d) /\ DDA (A := b64) y2 x2 y1 x1 = Ok (ys', xs', d') /\
    forall k y x y' x', item ys k y -> item xs k x -> item ys' (n - k) y' -> item xs' (n - k) x' ->
      Z.abs (y - y') <= 1 /\ Z.abs (x - x') <= 1 /\
      (~ (n | k * (y2 - y1)) -> y = y') /\ (~ (n | k * (x2 - x1)) -> x = x').
Proof.
  intros H1 H2 H3 H4 Hne n. pose proof (longer_pos _ _ _ _ Hne) as Hn. fold n in Hn.
  destruct (c63_float y1 x1 y2 x2 H1 H2 H3 H4 Hne) as (ys & xs & d & E & _ & _ & Y & X & _). fold n in Y, X.
  destruct (c63_float y2 x2 y1 x1 H3 H4 H1 H2 ltac:(congruence)) as (ys' & xs' & d' & E' & _ & _ & Y' & X' & _).
  rewrite (longer_sym y1 y2 x1 x2) in Y', X'. fold n in Y', X'.
  exists ys, xs, d, ys', xs', d'. split; [exact E|]. split; [exact E'|].
  intros k y x y' x' I1 I2 I3 I4.
  destruct (beside_twice y1 y2 n k y y' Hn (Y _ _ I1) (Y' _ _ I3)) as [A1 A2].
  destruct (beside_twice x1 x2 n k x x' Hn (X _ _ I2) (X' _ _ I4)) as [B1 B2]. auto.
Qed.

(** ** Moved and mirrored, exactly *)
Lemma along_num a d n k : 0 < n -> 0 <= k <= n -> 0 <= a -> 0 <= a + d -> 0 <= a * n + k * d.
Proof. intros. replace (a * n + k * d) with (a * (n - k) + k * (a + d)) by ring. nia. Qed.

Lemma along_moved a d n k c : 0 < n -> 0 <= k <= n -> 0 <= a -> 0 <= a + d -> 0 <= a + c -> 0 <= a + c + d ->
  along (a + c) d n k = along a d n k + c.
Proof.
  intros Hn Hk A1 A2 A3 A4. pose proof (along_num a d n k Hn Hk A1 A2) as P.
  pose proof (along_num (a + c) d n k Hn Hk A3 ltac:(lia)) as P'. unfold along.
  rewrite !Z.quot_div_nonneg by lia. replace ((a + c) * n + k * d) with (a * n + k * d + c * n) by ring. apply Z.div_add. lia.
Qed.

Lemma along_mirrored a d n k c : 0 < n -> 0 <= k <= n -> 0 <= a -> 0 <= a + d -> a <= c -> a + d <= c ->
  along (c - a) (- d) n k = c - along a d n k - (if (k * d) mod n =? 0 then 0 else 1).
Proof.
  intros Hn Hk A1 A2 A3 A4. pose proof (along_num a d n k Hn Hk A1 A2) as P.
  pose proof (along_num (c - a) (- d) n k Hn Hk ltac:(lia) ltac:(lia)) as P'. unfold along.
  rewrite !Z.quot_div_nonneg by lia. replace ((c - a) * n + k * - d) with (- (k * d) + (c - a) * n) by ring.
  replace (a * n + k * d) with (k * d + a * n) by ring. rewrite !Z.div_add by lia.
  destruct (Z.eqb_spec ((k * d) mod n) 0) as [E|E].
  - rewrite Z.div_opp_l_z by lia. lia.
  - rewrite Z.div_opp_l_nz by lia. lia.
Qed.

Lemma c135_moved y1 x1 y2 x2 cy cx : (y1, x1) <> (y2, x2) ->
  0 <= y1 -> 0 <= x1 -> 0 <= y2 -> 0 <= x2 -> 0 <= y1 + cy -> 0 <= x1 + cx -> 0 <= y2 + cy -> 0 <= x2 + cx ->
  exists ys xs ys' xs' density,
    DDA (A := R) y1 x1 y2 x2 = Ok (ys, xs, density) /\ DDA (A := R) (y1 + cy) (x1 + cx) (y2 + cy) (x2 + cx) = Ok (ys', xs', density) /\
    forall k, 0 <= k <= longer (y2 - y1) (x2 - x1) ->
      exists y x, item ys k y /\ item xs k x /\ item ys' k (y + cy) /\ item xs' k (x + cx).
Proof.
  intros Hne H1 H2 H3 H4 H5 H6 H7 H8. pose proof (longer_pos _ _ _ _ Hne) as Hn.
  pose proof (dda_points y1 x1 y2 x2 Hn) as E1.
  pose proof (dda_points (y1 + cy) (x1 + cx) (y2 + cy) (x2 + cx)) as E2.
  replace (y2 + cy - (y1 + cy)) with (y2 - y1) in E2 by ring. replace (x2 + cx - (x1 + cx)) with (x2 - x1) in E2 by ring.
  specialize (E2 Hn). cbv zeta in E1, E2. set (n := longer (y2 - y1) (x2 - x1)) in *.
  do 5 eexists. split; [exact E1|]. split; [exact E2|]. intros k Hk.
  exists (along y1 (y2 - y1) n k), (along x1 (x2 - x1) n k).
  split; [apply item_map; lia|]. split; [apply item_map; lia|].
  rewrite <- (along_moved y1 (y2 - y1) n k cy), <- (along_moved x1 (x2 - x1) n k cx) by lia.
  split; apply (item_map _ (n + 2)); lia.
Qed.

Lemma c135_mirrored y1 x1 y2 x2 c : (y1, x1) <> (y2, x2) -> 0 <= y1 <= c -> 0 <= y2 <= c ->
  exists ys xs ys' density,
    DDA (A := R) y1 x1 y2 x2 = Ok (ys, xs, density) /\ DDA (A := R) (c - y1) x1 (c - y2) x2 = Ok (ys', xs, density) /\
    let n := longer (y2 - y1) (x2 - x1) in
    forall k, 0 <= k <= n -> exists y, item ys k y /\
      item ys' k (c - y - (if (k * (y2 - y1)) mod n =? 0 then 0 else 1)).
Proof.
  intros Hne H1 H2. pose proof (longer_pos _ _ _ _ Hne) as Hn.
  pose proof (dda_points y1 x1 y2 x2 Hn) as E1.
  pose proof (dda_points (c - y1) x1 (c - y2) x2) as E2. cbv zeta in E2.
  replace (c - y2 - (c - y1)) with (- (y2 - y1)) in E2 by ring.
  assert (L : longer (- (y2 - y1)) (x2 - x1) = longer (y2 - y1) (x2 - x1)) by (unfold longer; lia).
  rewrite L in E2. specialize (E2 Hn). cbv zeta in E1, E2. set (n := longer (y2 - y1) (x2 - x1)) in *.
  replace (- (y2 - y1) * - (y2 - y1)) with ((y2 - y1) * (y2 - y1)) in E2 by ring.
  do 4 eexists. split; [exact E1|]. split; [exact E2|]. cbv zeta. intros k Hk.
  exists (along y1 (y2 - y1) n k). split; [apply item_map; lia|].
  rewrite <- (along_mirrored y1 (y2 - y1) n k c) by lia. apply (item_map _ (n + 2)); lia.
Qed.

(** ** Bresenham: the exact pixels *)
Lemma half_down_unique dy dx k j : 0 < dx -> - dx < 2 * dy * k - 2 * dx * j <= dx -> j = half_down dy dx k.
Proof. intros Hdx Hj. unfold half_down. apply Z.div_unique with (2 * dy * k + dx - 1 - 2 * dx * j); lia. Qed.
Lemma half_down_spec dy dx k : 0 < dx -> - dx < 2 * dy * k - 2 * dx * half_down dy dx k <= dx.
Proof.
  intros Hdx. unfold half_down. pose proof (Z.div_mod (2 * dy * k + dx - 1) (2 * dx) ltac:(lia)) as E.
  pose proof (Z.mod_pos_bound (2 * dy * k + dx - 1) (2 * dx) ltac:(lia)) as B. lia.
Qed.

Lemma bresenham_exact y1 x1 y2 x2 :
  let dy := Z.abs (y2 - y1) in let dx := Z.abs (x2 - x1) in
  0 < dx <= 2 ^ 52 -> dy <= dx ->
  bresenham y1 x1 y2 x2 =
    Ok (map (fun k => y1 + half_down dy dx k * Z.sgn (y2 - y1)) (zrange (dx + 1)),
        map (fun k => x1 + k * Z.sgn (x2 - x1)) (zrange (dx + 1))).
Proof.
  intros dy dx Hdx Hle. unfold bresenham. fold dy dx.
  replace (dx =? 0) with false by (symmetry; apply Z.eqb_neq; lia).
  rewrite c64_comparison by lia. replace (dx <? dy) with false by (symmetry; apply Z.ltb_ge; lia).
  match goal with |- context [for_range 2 (dx + 2) 1 ?body ?st] =>
    destruct (for_range_1 (fun i '(x, y, p, xs, ys) =>
       let k := i - 2 in
       x = x1 + k * Z.sgn (x2 - x1) /\
       xs = map (fun k => x1 + k * Z.sgn (x2 - x1)) (zrange (k + 1)) /\
       ys = map (fun k => y1 + half_down dy dx k * Z.sgn (y2 - y1)) (zrange (k + 1)) /\
       exists j, y = y1 + j * Z.sgn (y2 - y1) /\ 0 <= j <= dy /\
          p = 2 * dy * (k + 1) - dx * (2 * j + 1) /\ - dx < 2 * dy * k - 2 * dx * j <= dx)
      2 (dx + 2) body st) as ([[[[x y] p] xs] ys] & E & (_ & Hxs & Hys & _)) end.
  - lia.
  - cbv zeta. change (2 - 2) with 0. split; [lia|]. change (zrange (0 + 1)) with [0]. cbn [map].
    rewrite <- (half_down_unique dy dx 0 0) by lia.
    split; [f_equal; lia|]. split; [f_equal; lia|]. exists 0. split; [lia|]. split; [lia|]. split; lia.
  - intros i [[[[x y] p] xs] ys] Hi. cbv zeta. set (k := i - 2). replace (i + 1 - 2) with (k + 1) by lia.
    intros (Ex & Exs & Eys & (j & Ey & Hj & Ep & Hb)).
    assert (Fx : (if x <? x2 then x + 1 else x - 1) = x1 + (k + 1) * Z.sgn (x2 - x1)).
    { destruct (Z.ltb_spec x x2); lia. }
    assert (Q : exists j' y' p', (if 0 <? p then (if y <? y2 then y + 1 else y - 1, p + 2 * (dy - dx)) else (y, p + 2 * dy))
              = (y', p') /\ y' = y1 + j' * Z.sgn (y2 - y1) /\ 0 <= j' <= dy /\
              p' = 2 * dy * (k + 1 + 1) - dx * (2 * j' + 1) /\ - dx < 2 * dy * (k + 1) - 2 * dx * j' <= dx).
    { destruct (Z.ltb_spec 0 p) as [Hp|Hp].
      - assert (Hjd : j < dy) by nia.
        exists (j + 1). eexists; eexists. split; [reflexivity|]. split; [|split; [lia|split; nia]].
        destruct (Z.ltb_spec y y2); nia.
      - exists j. eexists; eexists. split; [reflexivity|]. split; [exact Ey|]. split; [lia|]. split; nia. }
    destruct Q as (j' & y' & p' & Eq & Ey' & Hj' & Ep' & Hb'). cbn beta iota. rewrite Eq.
    eexists; split; [reflexivity|]. cbn beta iota. rewrite Fx. split; [reflexivity|].
    rewrite (zrange_succ (k + 1)) by lia. rewrite !map_app, <- Exs, <- Eys. cbn [map].
    split; [reflexivity|]. split; [rewrite <- (half_down_unique dy dx (k + 1) j') by lia; rewrite <- Ey'; reflexivity|].
    exists j'. auto.
  - rewrite E. cbn [bind]. replace (dx + 2 - 2) with dx in * by lia. rewrite Hxs, Hys. reflexivity.
Qed.

Lemma c135_bresenham y1 x1 y2 x2 s t cy cx ys xs :
  x1 <> x2 -> Z.abs (y2 - y1) <= Z.abs (x2 - x1) <= 2 ^ 52 -> s = 1 \/ s = -1 -> t = 1 \/ t = -1 ->
  bresenham y1 x1 y2 x2 = Ok (ys, xs) ->
  bresenham (cy + s * y1) (cx + t * x1) (cy + s * y2) (cx + t * x2) = Ok (map (fun y => cy + s * y) ys, map (fun x => cx + t * x) xs).
Proof.
  intros Hne Hd Hs Ht. rewrite bresenham_exact by lia. intros E. injection E as <- <-.
  assert (Ay : Z.abs (cy + s * y2 - (cy + s * y1)) = Z.abs (y2 - y1)) by (destruct Hs as [->| ->]; lia).
  assert (Ax : Z.abs (cx + t * x2 - (cx + t * x1)) = Z.abs (x2 - x1)) by (destruct Ht as [->| ->]; lia).
  assert (Sy : Z.sgn (cy + s * y2 - (cy + s * y1)) = s * Z.sgn (y2 - y1)) by (destruct Hs as [->| ->]; lia).
  assert (Sx : Z.sgn (cx + t * x2 - (cx + t * x1)) = t * Z.sgn (x2 - x1)) by (destruct Ht as [->| ->]; lia).
  rewrite bresenham_exact by (rewrite ?Ay, ?Ax; lia). rewrite Ay, Ax, Sy, Sx, !map_map.
  f_equal. f_equal; apply map_ext; intros k; ring.
Qed.

Lemma half_down_back dy dx k : Z.odd dx = true -> 0 < dx -> half_down dy dx (dx - k) = dy - half_down dy dx k.
Proof.
  intros Ho Hdx. pose proof (half_down_spec dy dx k Hdx) as S. symmetry. apply half_down_unique; [exact Hdx|].
  set (j := half_down dy dx k) in *. clearbody j.
  assert (N : 2 * dy * k - 2 * dx * j <> dx).
  { intros E. apply Z.odd_spec in Ho. destruct Ho as [m Hm]. lia. }
  replace (2 * dy * (dx - k) - 2 * dx * (dy - j)) with (- (2 * dy * k - 2 * dx * j)) by ring. lia.
Qed.

Lemma c135_bresenham_backwards y1 x1 y2 x2 :
  Z.odd (x2 - x1) = true -> Z.abs (y2 - y1) <= Z.abs (x2 - x1) <= 2 ^ 52 ->
  exists ys xs ys' xs', bresenham y1 x1 y2 x2 = Ok (ys, xs) /\ bresenham y2 x2 y1 x1 = Ok (ys', xs') /\
    backwards (Z.abs (x2 - x1)) ys ys' /\ backwards (Z.abs (x2 - x1)) xs xs'.
Proof.
  intros Ho Hd. assert (Ho' : Z.odd (Z.abs (x2 - x1)) = true).
  { destruct (Z.abs_spec (x2 - x1)) as [[_ E]|[_ E]]; rewrite E; [exact Ho|rewrite Z.odd_opp; exact Ho]. }
  assert (Hp : 0 < Z.abs (x2 - x1)). { destruct (Z.eq_dec (x2 - x1) 0) as [E|E]; [rewrite E in Ho; discriminate Ho|lia]. }
  pose proof (bresenham_exact y1 x1 y2 x2 ltac:(lia) ltac:(lia)) as E1.
  pose proof (bresenham_exact y2 x2 y1 x1 ltac:(lia) ltac:(lia)) as E2. cbv zeta in E1, E2.
  replace (Z.abs (x1 - x2)) with (Z.abs (x2 - x1)) in E2 by lia. replace (Z.abs (y1 - y2)) with (Z.abs (y2 - y1)) in E2 by lia.
  do 4 eexists. split; [exact E1|]. split; [exact E2|].
  split; intros k Hk; rewrite !nth_map_zrange by lia; f_equal.
  - rewrite half_down_back by assumption. lia.
  - lia.
Qed.
