(** Angle normalisation in exact arithmetic. *)
From Coq Require Import Reals Lra Lia ZifyBool.
From Verif Require Import Base.Base Base.Num Base.BaseFacts Model.Angles Spec.Terminates Spec.AngleSpec.
Local Open Scope R_scope.

Lemma Rltb_true x y : Rltb x y = true <-> x < y.
Proof. unfold Rltb. destruct (Rlt_dec x y); split; intros; [assumption|reflexivity|discriminate|lra]. Qed.
Lemma Rltb_false x y : Rltb x y = false <-> y <= x.
Proof. unfold Rltb. destruct (Rlt_dec x y); split; intros; [discriminate|lra|lra|reflexivity]. Qed.
Lemma Rleb_true x y : Rleb x y = true <-> x <= y.
Proof. unfold Rleb. destruct (Rle_dec x y); split; intros; [assumption|reflexivity|discriminate|lra]. Qed.
Lemma Rleb_false x y : Rleb x y = false <-> y < x.
Proof. unfold Rleb. destruct (Rle_dec x y); split; intros; [discriminate|lra|lra|reflexivity]. Qed.

Lemma reduced_unique p a b c : 0 < p -> reduced p a b -> reduced p a c -> b = c.
Proof.
  intros Hp [Hb [k Ek]] [Hc [j Ej]].
  assert (Hd : - p < b - c < p) by lra.
  assert (E : b - c = IZR (k - j) * p) by (rewrite minus_IZR; lra).
  assert (H1 : -1 < IZR (k - j) < 1).
  { rewrite E in Hd. split; apply (Rmult_lt_reg_r p); lra. }
  destruct H1 as [H1 H2]. apply lt_IZR in H1, H2.
  assert (k - j = 0)%Z by lia. rewrite H in E. lra.
Qed.

Lemma down_loop_R H P : 0 < P -> forall n a, a <= H + INR n * P ->
  exists b k, (forall fuel, (n <= fuel)%nat ->
      while_loop fuel (fun v => Rltb H v) (fun v => v - P) a = Ok b) /\
    b <= H /\ b = a - INR k * P /\ (a <= H -> b = a) /\ (H < a -> H - P < b).
Proof.
  intros HP. induction n as [|n IH]; intros a Ha.
  - exists a, 0%nat. cbn [INR] in *. assert (a <= H) by lra. split; [|repeat split; lra].
    intros fuel _. destruct fuel; cbn [while_loop]; replace (Rltb H a) with false by (symmetry; apply Rltb_false; lra); reflexivity.
  - destruct (Rle_lt_dec a H) as [Hle|Hlt].
    + exists a, 0%nat. cbn [INR]. split; [|repeat split; lra].
      intros fuel _. destruct fuel; cbn [while_loop]; replace (Rltb H a) with false by (symmetry; apply Rltb_false; lra); reflexivity.
    + rewrite S_INR in Ha. destruct (IH (a - P)) as (b & k & E & H1 & H2 & H3 & H4); [lra|].
      exists b, (S k). rewrite S_INR. split; [|split; [lra|split; [lra|split; [lra|]]]].
      * intros fuel Hf. destruct fuel as [|fuel]; [lia|]. cbn [while_loop].
        replace (Rltb H a) with true by (symmetry; apply Rltb_true; lra). apply E. lia.
      * intros _. destruct (Rle_lt_dec (a - P) H) as [Hx|Hx]; [rewrite H3 by lra; lra|lra].
Qed.

Lemma up_loop_R H P : 0 < P -> forall n a, H - INR n * P < a ->
  exists b k, (forall fuel, (n <= fuel)%nat ->
      while_loop fuel (fun v => Rleb v H) (fun v => v + P) a = Ok b) /\
    H < b /\ b = a + INR k * P /\ (H < a -> b = a) /\ (a <= H -> b <= H + P).
Proof.
  intros HP. induction n as [|n IH]; intros a Ha.
  - exists a, 0%nat. cbn [INR] in *. assert (H < a) by lra. split; [|repeat split; lra].
    intros fuel _. destruct fuel; cbn [while_loop]; replace (Rleb a H) with false by (symmetry; apply Rleb_false; lra); reflexivity.
  - destruct (Rle_lt_dec a H) as [Hle|Hlt].
    + rewrite S_INR in Ha. destruct (IH (a + P)) as (b & k & E & H1 & H2 & H3 & H4); [lra|].
      exists b, (S k). rewrite S_INR. split; [|split; [lra|split; [lra|split; [lra|]]]].
      * intros fuel Hf. destruct fuel as [|fuel]; [lia|]. cbn [while_loop].
        replace (Rleb a H) with true by (symmetry; apply Rleb_true; lra). apply E. lia.
      * intros _. destruct (Rle_lt_dec (a + P) H) as [Hx|Hx]; [lra|rewrite H3 by lra; lra].
    + exists a, 0%nat. cbn [INR]. split; [|repeat split; lra].
      intros fuel _. destruct fuel; cbn [while_loop]; replace (Rleb a H) with false by (symmetry; apply Rleb_false; lra); reflexivity.
Qed.

Lemma arch_bound r : exists n : nat, r <= INR n.
Proof.
  exists (Z.to_nat (up r)). destruct (archimed r) as [H _].
  destruct (Z_lt_le_dec (up r) 0) as [Hn|Hn].
  - apply IZR_lt in Hn. pose proof (pos_INR (Z.to_nat (up r))). lra.
  - rewrite INR_IZR_INZ, Z2Nat.id by exact Hn. lra.
Qed.

Lemma normalize_angle_R (a : R) :
  exists b n, reduced 180 a b /\
    forall fuel, (n <= fuel)%nat -> normalize_angle fuel a = Ok b.
Proof.
  destruct (arch_bound ((a - 90) / 180)) as [n1 Hn1].
  destruct (down_loop_R 90 180 ltac:(lra) n1 a) as (b & k & E1 & B1 & B2 & B3 & B4); [lra|].
  destruct (arch_bound ((-90 - b) / 180 + 1)) as [n2 Hn2].
  destruct (up_loop_R (-90) 180 ltac:(lra) n2 b) as (c & j & E2 & C1 & C2 & C3 & C4); [lra|].
  exists c, (Nat.max n1 n2). split.
  - split.
    + destruct (Rle_lt_dec b (-90)) as [Hb|Hb]; [specialize (C4 Hb); lra|specialize (C3 Hb); lra].
    + exists (Z.of_nat j - Z.of_nat k)%Z. rewrite minus_IZR, <- !INR_IZR_INZ. lra.
  - intros fuel Hf. unfold normalize_angle. cbn [nofZ nltb nleb nsub nadd Num_R].
    rewrite E1 by lia. cbn [bind]. change (IZR (-90)) with (-90). apply E2. lia.
Qed.

Lemma normalize_items_R (l : list R) : forall done,
  exists l' n, Forall2 (reduced 180) l l' /\
    forall fuel, (n <= fuel)%nat -> normalize_items fuel done l = Ok (done ++ l')%list.
Proof.
  induction l as [|a l IH]; intros done.
  - exists [], 0%nat. split; [constructor|]. intros. cbn. rewrite app_nil_r. reflexivity.
  - destruct (normalize_angle_R a) as (b & n1 & Hb & E1).
    destruct (IH (done ++ [b])%list) as (l' & n2 & Hl & E2).
    exists (b :: l'), (Nat.max n1 n2). split; [constructor; assumption|].
    intros fuel Hf. cbn [normalize_items]. rewrite E1 by lia. cbn [bind]. rewrite E2 by lia.
    rewrite <- app_assoc. reflexivity.
Qed.

Lemma c41_list (l : list R) :
  returns (fun fuel => normalize2pi fuel (AList l))
    (fun r => Forall2 (reduced 180) l (fst r) /\ snd r = AList (fst r)).
Proof.
  destruct (normalize_items_R l []) as (l' & n & Hl & E). exists (l', AList l').
  split; [split; [exact Hl|reflexivity]|]. exists n. intros fuel Hf. unfold normalize2pi.
  rewrite E by exact Hf. reflexivity.
Qed.

Lemma c41_scalar (a : R) :
  returns (fun fuel => normalize2pi fuel (AScalar a))
    (fun r => exists b, fst r = [b] /\ reduced 180 a b /\ snd r = AScalar a).
Proof.
  destruct (normalize_items_R [a] []) as (l' & n & Hl & E). exists (l', AScalar a). split.
  - inversion Hl as [|x b y l Hb Hn]; subst. inversion Hn; subst. exists b. auto.
  - exists n. intros fuel Hf. unfold normalize2pi. rewrite E by exact Hf. reflexivity.
Qed.

Lemma c41_idempotent (l : list R) : Forall (fun a => -90 < a <= 90) l ->
  evaluates (fun fuel => normalize2pi fuel (AList l)) (l, AList l).
Proof.
  intros Hl. destruct (c41_list l) as ([l' arg] & [HF Ha] & n & E). cbn [fst snd] in *.
  assert (El : l' = l).
  { clear - Hl HF. induction HF as [|a b l l' Hab HF IH]; [reflexivity|]. inversion Hl; subst.
    f_equal; [|apply IH; assumption]. apply (reduced_unique 180 a); [lra|exact Hab|].
    split; [lra|]. exists 0%Z. lra. }
  subst. exists n. exact E.
Qed.

(** ** Arrays *)
Lemma aany_false {A} (p : A -> bool) a : aany p a = false <->
  forall y x, (0 <= y < rows a)%Z -> (0 <= x < cols a)%Z -> p (cell a y x) = false.
Proof.
  unfold aany. split.
  - intros H y x Hy Hx. destruct (p (cell a y x)) eqn:E; [|reflexivity].
    assert (existsb (fun y => existsb (fun x => p (cell a y x)) (zrange (cols a))) (zrange (rows a)) = true).
    { apply existsb_exists. exists y. split; [apply in_zrange, Hy|].
      apply existsb_exists. exists x. split; [apply in_zrange, Hx|exact E]. }
    congruence.
  - intros H. destruct (existsb _ (zrange (rows a))) eqn:E; [|reflexivity].
    apply existsb_exists in E. destruct E as (y & Hy & E). apply existsb_exists in E.
    destruct E as (x & Hx & E). apply in_zrange in Hy, Hx. rewrite H in E by assumption. discriminate.
Qed.

Lemma array_bound (f : R -> R) (a : arr R) : exists n : nat,
  forall y x, (0 <= y < rows a)%Z -> (0 <= x < cols a)%Z -> f (cell a y x) <= INR n.
Proof.
  assert (G : forall l : list (Z * Z), exists n : nat, forall p, In p l -> f (cell a (fst p) (snd p)) <= INR n).
  { induction l as [|p l [n Hn]]; [exists 0%nat; intros p []|].
    destruct (arch_bound (f (cell a (fst p) (snd p)))) as [m Hm]. exists (Nat.max n m).
    intros q [<-|Hq].
    - apply (Rle_trans _ _ _ Hm), le_INR. lia.
    - apply (Rle_trans _ _ _ (Hn q Hq)), le_INR. lia. }
  destruct (G (list_prod (zrange (rows a)) (zrange (cols a)))) as [n Hn]. exists n.
  intros y x Hy Hx. apply (Hn (y, x)). apply in_prod; apply in_zrange; assumption.
Qed.

Lemma down_array H P : 0 < P -> forall n (a : arr R),
  (forall y x, (0 <= y < rows a)%Z -> (0 <= x < cols a)%Z -> cell a y x <= H + INR n * P) ->
  exists b, (forall fuel, (n <= fuel)%nat ->
      while_loop fuel (aany (fun v => Rltb H v)) (amap (fun v => if Rltb H v then v - P else v)) a = Ok b) /\
    rows b = rows a /\ cols b = cols a /\
    forall y x, (0 <= y < rows a)%Z -> (0 <= x < cols a)%Z ->
      cell b y x <= H /\ (exists k : nat, cell b y x = cell a y x - INR k * P) /\
      (cell a y x <= H -> cell b y x = cell a y x) /\ (H < cell a y x -> H - P < cell b y x).
Proof.
  intros HP. induction n as [|n IH]; intros a Ha.
  - exists a. split; [|split; [reflexivity|split; [reflexivity|]]].
    + intros fuel _. assert (E : aany (fun v => Rltb H v) a = false).
      { apply aany_false. intros y x Hy Hx. apply Rltb_false. specialize (Ha y x Hy Hx). cbn [INR] in Ha. lra. }
      destruct fuel; cbn [while_loop]; rewrite E; reflexivity.
    + intros y x Hy Hx. specialize (Ha y x Hy Hx). cbn [INR] in Ha. repeat split; try lra.
      exists 0%nat. cbn [INR]. lra.
  - destruct (aany (fun v => Rltb H v) a) eqn:Ea.
    + set (a' := amap (fun v => if Rltb H v then v - P else v) a).
      destruct (IH a') as (b & E & Rb & Cb & V).
      { intros y x Hy Hx. specialize (Ha y x Hy Hx). rewrite S_INR in Ha. unfold a'. cbn [amap cell].
        destruct (Rltb H (cell a y x)) eqn:El; [lra|]. apply Rltb_false in El.
        pose proof (pos_INR n). pose proof (Rmult_le_pos (INR n) P ltac:(lra) ltac:(lra)). lra. }
      exists b. split; [|split; [exact Rb|split; [exact Cb|]]].
      * intros fuel Hf. destruct fuel as [|fuel]; [lia|]. cbn [while_loop]. rewrite Ea. apply E. lia.
      * intros y x Hy Hx. destruct (V y x Hy Hx) as (V1 & [k V2] & V3 & V4).
        unfold a' in *. cbn [amap cell] in *. destruct (Rltb H (cell a y x)) eqn:El.
        -- apply Rltb_true in El. split; [exact V1|]. split; [exists (S k); rewrite S_INR; lra|].
           split; [lra|]. intros _. destruct (Rle_lt_dec (cell a y x - P) H) as [Hx'|Hx']; [rewrite V3 by lra; lra|lra].
        -- apply Rltb_false in El. split; [exact V1|]. split; [exists k; exact V2|]. split; [exact V3|lra].
    + exists a. split; [|split; [reflexivity|split; [reflexivity|]]].
      * intros fuel _. destruct fuel; cbn [while_loop]; rewrite Ea; reflexivity.
      * intros y x Hy Hx. pose proof (proj1 (aany_false _ _) Ea y x Hy Hx) as E. apply Rltb_false in E.
        repeat split; try lra. exists 0%nat. cbn [INR]. lra.
Qed.

Lemma up_array H P : 0 < P -> forall n (a : arr R),
  (forall y x, (0 <= y < rows a)%Z -> (0 <= x < cols a)%Z -> H - INR n * P < cell a y x) ->
  exists b, (forall fuel, (n <= fuel)%nat ->
      while_loop fuel (aany (fun v => Rleb v H)) (amap (fun v => if Rleb v H then v + P else v)) a = Ok b) /\
    rows b = rows a /\ cols b = cols a /\
    forall y x, (0 <= y < rows a)%Z -> (0 <= x < cols a)%Z ->
      H < cell b y x /\ (exists k : nat, cell b y x = cell a y x + INR k * P) /\
      (H < cell a y x -> cell b y x = cell a y x) /\ (cell a y x <= H -> cell b y x <= H + P).
Proof.
  intros HP. induction n as [|n IH]; intros a Ha.
  - exists a. split; [|split; [reflexivity|split; [reflexivity|]]].
    + intros fuel _. assert (E : aany (fun v => Rleb v H) a = false).
      { apply aany_false. intros y x Hy Hx. apply Rleb_false. specialize (Ha y x Hy Hx). cbn [INR] in Ha. lra. }
      destruct fuel; cbn [while_loop]; rewrite E; reflexivity.
    + intros y x Hy Hx. specialize (Ha y x Hy Hx). cbn [INR] in Ha. repeat split; try lra.
      exists 0%nat. cbn [INR]. lra.
  - destruct (aany (fun v => Rleb v H) a) eqn:Ea.
    + set (a' := amap (fun v => if Rleb v H then v + P else v) a).
      destruct (IH a') as (b & E & Rb & Cb & V).
      { intros y x Hy Hx. specialize (Ha y x Hy Hx). rewrite S_INR in Ha. unfold a'. cbn [amap cell].
        destruct (Rleb (cell a y x) H) eqn:El; [lra|]. apply Rleb_false in El.
        pose proof (pos_INR n). pose proof (Rmult_le_pos (INR n) P ltac:(lra) ltac:(lra)). lra. }
      exists b. split; [|split; [exact Rb|split; [exact Cb|]]].
      * intros fuel Hf. destruct fuel as [|fuel]; [lia|]. cbn [while_loop]. rewrite Ea. apply E. lia.
      * intros y x Hy Hx. destruct (V y x Hy Hx) as (V1 & [k V2] & V3 & V4).
        unfold a' in *. cbn [amap cell] in *. destruct (Rleb (cell a y x) H) eqn:El.
        -- apply Rleb_true in El. split; [exact V1|]. split; [exists (S k); rewrite S_INR; lra|].
           split; [lra|]. intros _. destruct (Rle_lt_dec (cell a y x + P) H) as [Hx'|Hx']; [lra|rewrite V3 by lra; lra].
        -- apply Rleb_false in El. split; [exact V1|]. split; [exists k; exact V2|]. split; [exact V3|lra].
    + exists a. split; [|split; [reflexivity|split; [reflexivity|]]].
      * intros fuel _. destruct fuel; cbn [while_loop]; rewrite Ea; reflexivity.
      * intros y x Hy Hx. pose proof (proj1 (aany_false _ _) Ea y x Hy Hx) as E. apply Rleb_false in E.
        repeat split; try lra. exists 0%nat. cbn [INR]. lra.
Qed.

Lemma c43_array (data : arr R) :
  returns (fun fuel => normalize2piarray fuel data)
    (fun r => rows r = rows data /\ cols r = cols data /\
       forall y x, (0 <= y < rows data)%Z -> (0 <= x < cols data)%Z ->
         reduced PI (cell data y x) (cell r y x)).
Proof.
  pose proof PI_RGT_0 as HPI.
  destruct (array_bound (fun v => (v - PI / 2) / PI) data) as [n1 Hn1].
  destruct (down_array (PI / 2) PI HPI n1 data) as (b & E1 & Rb & Cb & Vb).
  { intros y x Hy Hx. specialize (Hn1 y x Hy Hx). cbv beta in Hn1.
    apply (Rmult_le_compat_r PI) in Hn1; [|lra]. unfold Rdiv in Hn1.
    rewrite Rmult_assoc, Rinv_l, Rmult_1_r in Hn1 by lra. lra. }
  destruct (array_bound (fun v => (- PI / 2 - v) / PI + 1) b) as [n2 Hn2].
  destruct (up_array (- PI / 2) PI HPI n2 b) as (c & E2 & Rc & Cc & Vc).
  { intros y x Hy Hx. specialize (Hn2 y x Hy Hx). cbv beta in Hn2.
    apply (Rmult_le_compat_r PI) in Hn2; [|lra]. unfold Rdiv in Hn2.
    rewrite Rmult_plus_distr_r, Rmult_assoc, Rinv_l, Rmult_1_r in Hn2 by lra. lra. }
  exists c. split.
  - split; [congruence|split; [congruence|]]. intros y x Hy Hx.
    destruct (Vb y x Hy Hx) as (B1 & [k B2] & B3 & B4).
    destruct (Vc y x ltac:(lia) ltac:(lia)) as (C1 & [j C2] & C3 & C4).
    split.
    + destruct (Rle_lt_dec (cell b y x) (- PI / 2)) as [Hb|Hb]; [specialize (C4 Hb); lra|specialize (C3 Hb); lra].
    + exists (Z.of_nat j - Z.of_nat k)%Z. rewrite minus_IZR, <- !INR_IZR_INZ. lra.
  - exists (Nat.max n1 n2). intros fuel Hf. unfold normalize2piarray. rewrite E1 by lia. cbn [bind]. apply E2. lia.
Qed.
