From Coq Require Import Reals Lra.
From Verif Require Import Base.Base Base.BaseFacts Base.Num Base.Bcast Model.Demosaic Model.Stokes
  Model.Demodulate Spec.MosaicSpec Spec.StokesSpec Spec.DemodSpec
  Proofs.DemosaicFacts Proofs.MosaicFacts Proofs.StokesFacts Proofs.UtilFacts.

Lemma stokes_is_self {A} (s : stokes A) h w :
  rows (sI s) = h /\ cols (sI s) = w -> rows (sQ s) = h /\ cols (sQ s) = w ->
  rows (sU s) = h /\ cols (sU s) = w -> stokes_is s h w (cell (sI s)) (cell (sQ s)) (cell (sU s)).
Proof. intros H1 H2 H3. unfold stokes_is. repeat (split; [assumption|]). auto. Qed.

Section Generic.
  Context {A : Type} `{Num A}.

  Lemma demod_product_ok (m : tensor A) (q : quad A) h w :
    t_rows m = h -> t_cols m = w ->
    (forall k, 0 <= k < 4 -> rows (qnth q k) = h /\ cols (qnth q k) = w) ->
    exists s, demod_product m q = Ok s /\
      let f i y x := row_product (fun i j => t_cell m i j y x) (fun k => cell (qnth q k) y x) i in
      stokes_is s h w (f 0) (f 1) (f 2).
  Proof.
    intros Eh Ew Hq. unfold demod_product.
    destruct (Hq 0 ltac:(lia)) as [R0 C0]. rewrite qnth_0 in R0, C0.
    rewrite Eh, Ew, R0, C0, !bdim_same. eexists. split; [reflexivity|]. cbn zeta.
    unfold stokes_is. cbn [sI sQ sU rows cols cell]. repeat (split; [split; reflexivity|]).
    intros y x Hy Hx. unfold row_product.
    assert (B : forall i j, bcell (tslice m i j) y x = t_cell m i j y x).
    { intros i j. rewrite bcell_in; [reflexivity|unfold tslice; cbn; lia|unfold tslice; cbn; lia]. }
    assert (B' : forall k, 0 <= k < 4 -> bcell (qnth q k) y x = cell (qnth q k) y x).
    { intros k Hk. destruct (Hq k Hk). apply bcell_in; lia. }
    rewrite !B, !B' by lia. repeat split.
  Qed.

  Lemma where2_ok (c : arr bool) (a b : arr A) h w :
    rows c = h -> cols c = w -> rows a = h -> cols a = w -> rows b = h -> cols b = w ->
    exists o, where2 c a b = Ok o /\ rows o = h /\ cols o = w /\
      forall y x, 0 <= y < h -> 0 <= x < w ->
        cell o y x = if cell c y x then cell a y x else cell b y x.
  Proof.
    intros ? ? ? ? ? ?. unfold where2, bmap2.
    replace (rows a) with h. replace (cols a) with w. replace (rows b) with h. replace (cols b) with w.
    rewrite !bdim_same. cbn [bind rows cols]. replace (rows c) with h. replace (cols c) with w.
    rewrite !bdim_same. eexists; split; [reflexivity|]. cbn [rows cols cell].
    split; [reflexivity|]. split; [reflexivity|]. intros y x Hy Hx.
    rewrite (bcell_in c) by lia. rewrite bcell_in by (cbn; lia). cbn [cell fst snd].
    rewrite (bcell_in a), (bcell_in b) by lia. reflexivity.
  Qed.

  Lemma select_ok (f : arr A) S T h w fI fQ fU gI gQ gU :
    rows f = h -> cols f = w -> stokes_is S h w fI fQ fU -> stokes_is T h w gI gQ gU ->
    exists s, select_stokes (Some f) S T = Ok s /\
      stokes_is s h w
        (fun y x => if neqb (cell f y x) n1 then fI y x else gI y x)
        (fun y x => if neqb (cell f y x) n1 then fQ y x else gQ y x)
        (fun y x => if neqb (cell f y x) n1 then fU y x else gU y x).
  Proof.
    intros Rf Cf ([a1 a2] & [a3 a4] & [a5 a6] & HS) ([b1 b2] & [b3 b4] & [b5 b6] & HT).
    unfold select_stokes.
    set (g := amap (fun v => neqb v n1) f).
    assert (Rg : rows g = h) by exact Rf. assert (Cg : cols g = w) by exact Cf.
    destruct (where2_ok g (sI S) (sI T) h w) as (i & Ei & Ri & Ci & Hi); auto.
    destruct (where2_ok g (sQ S) (sQ T) h w) as (q & Eq & Rq & Cq & Hq); auto.
    destruct (where2_ok g (sU S) (sU T) h w) as (u & Eu & Ru & Cu & Hu); auto.
    rewrite Ei; cbn [bind]. rewrite Eq; cbn [bind]. rewrite Eu; cbn [bind].
    eexists; split; [reflexivity|]. unfold stokes_is; cbn [sI sQ sU].
    repeat (split; [split; assumption|]). intros y x Hy Hx.
    destruct (HS y x Hy Hx) as (h1 & h2 & h3). destruct (HT y x Hy Hx) as (k1 & k2 & k3).
    rewrite Hi, Hq, Hu by assumption.
    change (cell g y x) with (neqb (cell f y x) n1).
    destruct (neqb (cell f y x) n1); auto.
  Qed.

  (** ** C24 *)
  Lemma c24_product (d : demodulator A) (data : arr A) old h w :
    mosaic data -> h = rows data / 2 -> w = cols data / 2 ->
    t_rows (mij d) = h -> t_cols (mij d) = w ->
    (forall f, fit_found_flags d = Some f ->
       (rows f = h /\ cols f = w) /\ (rows (sI old) = h /\ cols (sI old) = w) /\
       (rows (sQ old) = h /\ cols (sQ old) = w) /\ (rows (sU old) = h /\ cols (sU old) = w)) ->
    exists s, demod_raw d data old = Ok s /\
      let found Y X := match fit_found_flags d with None => true | Some f => neqb (cell f Y X) n1 end in
      let product i Y X := row_product (fun i j => t_cell (mij d) i j Y X) (fun k => sample data k Y X) i in
      stokes_is s h w
        (fun Y X => if found Y X then product 0 Y X else cell (sI old) Y X)
        (fun Y X => if found Y X then product 1 Y X else cell (sQ old) Y X)
        (fun Y X => if found Y X then product 2 Y X else cell (sU old) Y X).
  Proof.
    intros (H1 & H2 & H3 & H4) Eh Ew Et1 Et2 Hf.
    destruct (split_spec data) as (q & Eq & Hq); [split; assumption|assumption|assumption|].
    destruct (demod_product_ok (mij d) q h w Et1 Et2) as (s & Es & Hs).
    { intros k Hk. destruct (Hq k Hk) as (? & ? & ?). subst h w. split; assumption. }
    unfold demod_raw. rewrite Eq; cbn [bind]. rewrite Es; cbn [bind].
    cbn zeta in Hs |- *. destruct Hs as (S1 & S2 & S3 & Hs).
    assert (Hs' : forall Y X i, 0 <= Y < h -> 0 <= X < w ->
       row_product (fun i j => t_cell (mij d) i j Y X) (fun k => cell (qnth q k) Y X) i =
       row_product (fun i j => t_cell (mij d) i j Y X) (fun k => sample data k Y X) i).
    { intros Y X i HY HX. unfold row_product.
      assert (B : forall k, 0 <= k < 4 -> cell (qnth q k) Y X = sample data k Y X).
      { intros k Hk. destruct (Hq k Hk) as (_ & _ & E). unfold sample. apply E. }
      rewrite !B by lia. reflexivity. }
    destruct (fit_found_flags d) as [f|] eqn:Ef.
    - destruct (Hf f eq_refl) as ([F1 F2] & O1 & O2 & O3).
      destruct (select_ok f s old h w
                  (cell (sI s)) (cell (sQ s)) (cell (sU s))
                  (cell (sI old)) (cell (sQ old)) (cell (sU old)) F1 F2) as (r & Er & T1 & T2 & T3 & Hr).
      { apply stokes_is_self; assumption. }
      { apply stokes_is_self; assumption. }
      exists r. split; [exact Er|]. unfold stokes_is. repeat (split; [assumption|]).
      intros Y X HY HX. destruct (Hs Y X HY HX) as (e1 & e2 & e3).
      destruct (Hr Y X HY HX) as (r1 & r2 & r3). rewrite r1, r2, r3, e1, e2, e3, !Hs' by assumption. auto.
    - exists s. split; [reflexivity|]. unfold stokes_is. repeat (split; [assumption|]).
      intros Y X HY HX. destruct (Hs Y X HY HX) as (e1 & e2 & e3).
      rewrite e1, e2, e3, !Hs' by assumption. auto.
  Qed.

  Lemma c24_shape (d : demodulator A) (data : arr A) old :
    mosaic data -> rows data <> 2 -> cols data <> 2 -> t_rows (mij d) <> 1 -> t_cols (mij d) <> 1 ->
    t_rows (mij d) <> rows data / 2 \/ t_cols (mij d) <> cols data / 2 ->
    demod_raw d data old = Raise ValueError.
  Proof.
    intros (H1 & H2 & H3 & H4) N1 N2 N3 N4 Hd.
    destruct (split_spec data) as (q & Eq & Hq); [split; assumption|assumption|assumption|].
    destruct (Hq 0 ltac:(lia)) as (R & C & _). rewrite qnth_0 in R, C.
    unfold demod_raw. rewrite Eq; cbn [bind]. unfold demod_product. rewrite R, C.
    assert (rows data / 2 <> 1) by (clear - H3 N1; pose proof (Z.div_mod (rows data) 2); lia).
    assert (cols data / 2 <> 1) by (clear - H4 N2; pose proof (Z.div_mod (cols data) 2); lia).
    unfold bdim.
    destruct (t_rows (mij d) =? rows data / 2) eqn:E1.
    - destruct (t_cols (mij d) =? cols data / 2) eqn:E2; [lia|].
      destruct (t_cols (mij d) =? 1) eqn:E3; [lia|].
      destruct (cols data / 2 =? 1) eqn:E4; [lia|]. reflexivity.
    - destruct (t_rows (mij d) =? 1) eqn:E3; [lia|].
      destruct (rows data / 2 =? 1) eqn:E4; [lia|]. reflexivity.
  Qed.

  (** A one-row tensor is silently stretched over the image. *)
  Lemma c24_shape_broadcast (d : demodulator A) (data : arr A) old :
    mosaic data -> t_rows (mij d) = 1 -> t_cols (mij d) = cols data / 2 -> fit_found_flags d = None ->
    exists s, demod_raw d data old = Ok s /\
      let product i Y X := row_product (fun i j => t_cell (mij d) i j 0 X) (fun k => sample data k Y X) i in
      stokes_is s (rows data / 2) (cols data / 2) (product 0) (product 1) (product 2).
  Proof.
    intros (H1 & H2 & H3 & H4) Er Ec Ef.
    destruct (split_spec data) as (q & Eq & Hq); [split; assumption|assumption|assumption|].
    destruct (Hq 0 ltac:(lia)) as (R & C & _). rewrite qnth_0 in R, C.
    unfold demod_raw. rewrite Eq; cbn [bind]. unfold demod_product. rewrite R, C, Er, Ec, bdim_same, Ef.
    replace (bdim 1 (rows data / 2)) with (Some (rows data / 2)).
    2: { unfold bdim. destruct (1 =? rows data / 2) eqn:E; [f_equal; lia|reflexivity]. }
    cbn [bind select_stokes]. eexists; split; [reflexivity|]. cbn zeta.
    unfold stokes_is; cbn [sI sQ sU rows cols cell]. repeat (split; [split; reflexivity|]).
    intros Y X HY HX.
    assert (B : forall i j, bcell (tslice (mij d) i j) Y X = t_cell (mij d) i j 0 X).
    { intros i j. unfold bcell, tslice. cbn [rows cols cell]. rewrite Er, Ec. cbn [Z.eqb Pos.eqb].
      destruct (cols data / 2 =? 1) eqn:E; [replace X with 0 by lia|]; reflexivity. }
    assert (B' : forall k, 0 <= k < 4 -> bcell (qnth q k) Y X = sample data k Y X).
    { intros k Hk. destruct (Hq k Hk) as (Rk & Ck & E). rewrite bcell_in by lia. unfold sample. apply E. }
    unfold row_product. rewrite !B, !B' by lia. repeat split.
  Qed.

  (** ** C26 *)
  Lemma merge_same_cell (a : arr A) y x :
    0 <= y -> 0 <= x -> cell (merge_same a) y x = cell a (y / 2) (x / 2).
  Proof.
    intros Hy Hx. unfold merge_same. rewrite merge_cell.
    pose proof (Z.mod_pos_bound y 2 ltac:(lia)). pose proof (Z.mod_pos_bound x 2 ltac:(lia)).
    unfold qnth; cbn [q0 q1 q2 q3].
    repeat match goal with |- context [if ?b then _ else _] => destruct b end; reflexivity.
  Qed.

  Lemma c26_demosaic dic a (d : demodulator A) (data : arr A) f h w :
    describes dic a -> mosaic data -> h = rows data / 2 -> w = cols data / 2 ->
    t_rows (mij d) = h -> t_cols (mij d) = w ->
    fit_found_flags d = Some f -> rows f = h -> cols f = w ->
    exists s, demod_with_demosaic dic d data = Ok s /\
      let found y x := neqb (cell f (y / 2) (x / 2)) n1 in
      let v k y x := interpolated data k y x in
      let product i y x :=
        row_product (fun i j => t_cell (mij d) i j (y / 2) (x / 2)) (fun k => v k y x) i in
      stokes_is s (rows data) (cols data)
        (fun y x => if found y x then product 0 y x
                    else nhalf *! (((v 0 y x +! v 1 y x) +! v 2 y x) +! v 3 y x))
        (fun y x => if found y x then product 1 y x else v (p0 a) y x -! v (p90 a) y x)
        (fun y x => if found y x then product 2 y x else v (p45 a) y x -! v (pm45 a) y x).
  Proof.
    intros Hd Hm Eh Ew Et1 Et2 Ef F1 F2.
    destruct (demosaic_adjacent_spec data Hm) as (q & Eq & Hq).
    pose proof Hm as (H1 & H2 & H3 & H4).
    assert (Hh : h * 2 = rows data) by (subst h; clear - H3; pose proof (Z.div_mod (rows data) 2); lia).
    assert (Hw : w * 2 = cols data) by (subst w; clear - H4; pose proof (Z.div_mod (cols data) 2); lia).
    destruct (theo_stokes_spec dic a q (rows data) (cols data) Hd) as (t & Et & T1 & T2 & T3 & Ht).
    { intros k Hk. destruct (Hq k Hk) as (? & ? & ?). auto. }
    unfold demod_with_demosaic. rewrite Eq; cbn [bind]. rewrite Et; cbn [bind].
    unfold demod_demosaiced. rewrite Ef.
    match goal with |- context [demod_product ?m q] =>
      destruct (demod_product_ok m q (rows data) (cols data)) as (s & Es & S1 & S2 & S3 & Hs) end.
    { cbn [t_rows]. rewrite Et1. exact Hh. }
    { cbn [t_cols]. rewrite Et2. exact Hw. }
    { intros k Hk. destruct (Hq k Hk) as (? & ? & ?). auto. }
    rewrite Es; cbn [bind].
    destruct (select_ok (merge_same f) s t (rows data) (cols data)
                (cell (sI s)) (cell (sQ s)) (cell (sU s))
                (cell (sI t)) (cell (sQ t)) (cell (sU t))) as (r & Er & U1 & U2 & U3 & Hr).
    { unfold merge_same. rewrite merge_rows. cbn [q0]. lia. }
    { unfold merge_same. rewrite merge_cols. cbn [q0]. lia. }
    { apply stokes_is_self; assumption. }
    { apply stokes_is_self; assumption. }
    exists r. split; [exact Er|]. cbn zeta. unfold stokes_is. repeat (split; [assumption|]).
    intros y x Hy Hx.
    destruct (Hs y x Hy Hx) as (e1 & e2 & e3). destruct (Ht y x Hy Hx) as (t1 & t2 & t3).
    destruct (Hr y x Hy Hx) as (r1 & r2 & r3).
    rewrite merge_same_cell in r1, r2, r3 by lia.
    assert (V : forall k, 0 <= k < 4 -> cell (qnth q k) y x = interpolated data k y x).
    { intros k Hk. destruct (Hq k Hk) as (_ & _ & E). apply E; assumption. }
    rewrite r1, r2, r3, e1, e2, e3, t1, t2, t3.
    destruct Hd as (Ha & _). destruct Ha as (A1 & A2 & A3 & A4 & _).
    rewrite !V by (assumption || lia).
    unfold row_product. cbn [t_cell]. rewrite !merge_same_cell by lia. rewrite !V by lia. auto.
  Qed.

  Lemma c26_no_flags dic a (d : demodulator A) (data : arr A) :
    describes dic a -> mosaic data -> fit_found_flags d = None ->
    demod_with_demosaic dic d data = Raise AttributeError.
  Proof.
    intros Hd Hm Ef. destruct (demosaic_adjacent_spec data Hm) as (q & Eq & Hq).
    destruct (theo_stokes_spec dic a q (rows data) (cols data) Hd) as (t & Et & _).
    { intros k Hk. destruct (Hq k Hk) as (? & ? & ?). auto. }
    unfold demod_with_demosaic. rewrite Eq; cbn [bind]. rewrite Et; cbn [bind].
    unfold demod_demosaiced. rewrite Ef. reflexivity.
  Qed.
End Generic.

(** ** C25 *)
Local Open Scope R_scope.

Lemma pinv_left_inverse M P v0 v1 v2 :
  pseudo_inverse M P -> rank3 M ->
  let y k := M k 0%Z * v0 + M k 1%Z * v1 + M k 2%Z * v2 in
  sum4 (fun k => P 0%Z k * y k) = v0 /\
  sum4 (fun k => P 1%Z k * y k) = v1 /\
  sum4 (fun k => P 2%Z k * y k) = v2.
Proof.
  intros (H1 & _ & _ & _) Hr. cbn zeta.
  set (w i := sum4 (fun k => P i k * (M k 0%Z * v0 + M k 1%Z * v1 + M k 2%Z * v2))).
  assert (Hz : forall k, (0 <= k < 4)%Z ->
    M k 0%Z * (w 0%Z - v0) + M k 1%Z * (w 1%Z - v1) + M k 2%Z * (w 2%Z - v2) = 0).
  { intros k Hk.
    pose proof (H1 k 0%Z Hk ltac:(lia)) as E0. pose proof (H1 k 1%Z Hk ltac:(lia)) as E1.
    pose proof (H1 k 2%Z Hk ltac:(lia)) as E2. unfold w. unfold sum4, sum3 in *.
    transitivity ((((M k 0%Z * P 0%Z 0%Z + M k 1%Z * P 1%Z 0%Z + M k 2%Z * P 2%Z 0%Z) * M 0%Z 0%Z +
      (M k 0%Z * P 0%Z 1%Z + M k 1%Z * P 1%Z 1%Z + M k 2%Z * P 2%Z 1%Z) * M 1%Z 0%Z +
      (M k 0%Z * P 0%Z 2%Z + M k 1%Z * P 1%Z 2%Z + M k 2%Z * P 2%Z 2%Z) * M 2%Z 0%Z +
      (M k 0%Z * P 0%Z 3%Z + M k 1%Z * P 1%Z 3%Z + M k 2%Z * P 2%Z 3%Z) * M 3%Z 0%Z) - M k 0%Z) * v0
     + (((M k 0%Z * P 0%Z 0%Z + M k 1%Z * P 1%Z 0%Z + M k 2%Z * P 2%Z 0%Z) * M 0%Z 1%Z +
      (M k 0%Z * P 0%Z 1%Z + M k 1%Z * P 1%Z 1%Z + M k 2%Z * P 2%Z 1%Z) * M 1%Z 1%Z +
      (M k 0%Z * P 0%Z 2%Z + M k 1%Z * P 1%Z 2%Z + M k 2%Z * P 2%Z 2%Z) * M 2%Z 1%Z +
      (M k 0%Z * P 0%Z 3%Z + M k 1%Z * P 1%Z 3%Z + M k 2%Z * P 2%Z 3%Z) * M 3%Z 1%Z) - M k 1%Z) * v1
     + (((M k 0%Z * P 0%Z 0%Z + M k 1%Z * P 1%Z 0%Z + M k 2%Z * P 2%Z 0%Z) * M 0%Z 2%Z +
      (M k 0%Z * P 0%Z 1%Z + M k 1%Z * P 1%Z 1%Z + M k 2%Z * P 2%Z 1%Z) * M 1%Z 2%Z +
      (M k 0%Z * P 0%Z 2%Z + M k 1%Z * P 1%Z 2%Z + M k 2%Z * P 2%Z 2%Z) * M 2%Z 2%Z +
      (M k 0%Z * P 0%Z 3%Z + M k 1%Z * P 1%Z 3%Z + M k 2%Z * P 2%Z 3%Z) * M 3%Z 2%Z) - M k 2%Z) * v2).
    - ring.
    - rewrite E0, E1, E2. ring. }
  destruct (Hr _ _ _ Hz) as (Z0 & Z1 & Z2). unfold w in *. lra.
Qed.
