(** C31, C32: pixel families from fitted phases. *)
From Coq Require Import Reals Lra.
From Verif Require Import Base.Base Base.BaseFacts Base.Num Model.Stokes Model.DemodLoad Model.Angles
  Spec.LoadSpec Spec.AngleSpec Spec.Terminates Spec.SumSpec Spec.MosaicSpec Proofs.AngleFacts.
Local Open Scope R_scope.

Lemma Forall2_length [A B] [P : A -> B -> Prop] [l l'] : Forall2 P l l' -> length l = length l'.
Proof. induction 1; cbn [length]; congruence. Qed.

Lemma min_by_spec key : forall l best,
  In (min_by key best l) (best :: l) /\ forall x, In x (best :: l) -> key (min_by key best l) <= key x.
Proof.
  induction l as [|x l IH]; intros best; cbn [min_by].
  - split; [left; reflexivity|]. intros y [->|[]]. lra.
  - destruct (IH (if Rltb (key x) (key best) then x else best)) as [Hin Hle].
    unfold Rltb in *. destruct (Rlt_dec (key x) (key best)) as [Hlt|Hge].
    + split; [destruct Hin as [<-|Hin]; [right; left; reflexivity|right; right; exact Hin]|].
      intros y [<-|[<-|Hy]].
      * apply Rle_trans with (key x); [apply Hle; left; reflexivity|lra].
      * apply Hle. left. reflexivity.
      * apply Hle. right. exact Hy.
    + split; [destruct Hin as [<-|Hin]; [left; reflexivity|right; right; exact Hin]|].
      intros y [<-|[<-|Hy]].
      * apply Hle. left. reflexivity.
      * apply Rle_trans with (key best); [apply Hle; left; reflexivity|lra].
      * apply Hle. right. exact Hy.
Qed.

Lemma index_of_spec v : forall l, In v l -> exists k, index_of v l = Ok k /\ item l k v.
Proof.
  induction l as [|x l IH]; intros Hin; [destruct Hin|]. cbn [index_of]. unfold Reqb.
  destruct (Req_EM_T x v) as [->|Hn].
  - exists 0%Z. split; [reflexivity|]. split; [lia|reflexivity].
  - destruct Hin as [E|Hin]; [contradiction|]. destruct (IH Hin) as (k & E & Hk & Hn'). rewrite E. cbn [bind].
    exists (k + 1)%Z. split; [reflexivity|]. split; [lia|].
    replace (Z.to_nat (k + 1)) with (S (Z.to_nat k)) by lia. exact Hn'.
Qed.

Lemma nearest_spec l i : l <> [] ->
  exists k v, nearest l i = Ok k /\ item l k v /\
    forall k' v', item l k' v' -> Rabs (v - IZR i) <= Rabs (v' - IZR i).
Proof.
  intros Hl. destruct l as [|x l]; [contradiction|]. unfold nearest.
  destruct (min_by_spec (fun v => Rabs (v - IZR i)) l x) as [Hin Hle].
  destruct (index_of_spec _ _ Hin) as (k & E & Hk). do 2 eexists. split; [exact E|]. split; [exact Hk|].
  intros k' v' (_ & Hn). apply Hle. apply nth_error_In in Hn. exact Hn.
Qed.

Lemma nearest_unique l i k v : item l k v ->
  (forall k' v', item l k' v' -> k' <> k -> Rabs (v - IZR i) < Rabs (v' - IZR i)) ->
  nearest l i = Ok k.
Proof.
  intros Hk Hlt. destruct (nearest_spec l i) as (k1 & v1 & E & H1 & Hle).
  { intros ->. destruct Hk as [_ Hn]. destruct (Z.to_nat k); discriminate. }
  rewrite E. f_equal. destruct (Z.eq_dec k1 k) as [|Hne]; [assumption|exfalso].
  specialize (Hlt k1 v1 H1 Hne). specialize (Hle k v Hk). lra.
Qed.

Lemma item_inj l k v v' : item l k v -> item l k v' -> v = v'.
Proof. intros [_ E] [_ E']. congruence. Qed.

Lemma item_reduced l l' k m : Forall2 (reduced 180) l l' -> item l k m ->
  exists b, item l' k b /\ reduced 180 m b.
Proof.
  intros HF (Hk & E). assert (G : exists b, nth_error l' (Z.to_nat k) = Some b /\ reduced 180 m b).
  { revert E. generalize (Z.to_nat k). clear k Hk. induction HF as [|x y l l' Hxy HF IH]; intros n E.
    - destruct n; discriminate.
    - destruct n as [|n]; [injection E as <-; exists y; split; [reflexivity|exact Hxy]|]. apply IH. exact E. }
  destruct G as (b & Eb & Hb). exists b. split; [split; assumption|exact Hb].
Qed.

Lemma item_lt l k v : length l = 4%nat -> item l k v -> (0 <= k < 4)%Z.
Proof.
  intros Hl [Hk E]. split; [exact Hk|]. assert (Hn : (Z.to_nat k < length l)%nat) by (apply nth_error_Some; congruence).
  lia.
Qed.

Lemma close_reduced a m b : close_to a m -> reduced 180 m b ->
  exists n : Z, Rabs (b - a - 180 * IZR n) < 22.5.
Proof.
  intros (n & Hn) (_ & k & ->). exists (n + k)%Z. rewrite plus_IZR.
  replace (m + IZR k * 180 - a - 180 * (IZR n + IZR k)) with (m - a - 180 * IZR n) by ring. exact Hn.
Qed.

Lemma small_int n : -1 < IZR n < 1 -> n = 0%Z.
Proof. intros [H1 H2]. apply lt_IZR in H1, H2. lia. Qed.

Lemma close_0 m b : close_to 0 m -> reduced 180 m b -> -22.5 < b < 22.5.
Proof.
  intros Hc Hr. destruct (close_reduced _ _ _ Hc Hr) as (n & Hn). destruct Hr as [Hb _].
  apply Rabs_def2 in Hn. assert (n = 0%Z) by (apply small_int; lra). subst n. lra.
Qed.

Lemma close_45 m b : close_to 45 m -> reduced 180 m b -> 22.5 < b < 67.5.
Proof.
  intros Hc Hr. destruct (close_reduced _ _ _ Hc Hr) as (n & Hn). destruct Hr as [Hb _].
  apply Rabs_def2 in Hn. assert (n = 0%Z) by (apply small_int; lra). subst n. lra.
Qed.

Lemma close_m45 m b : close_to (-45) m -> reduced 180 m b -> -67.5 < b < -22.5.
Proof.
  intros Hc Hr. destruct (close_reduced _ _ _ Hc Hr) as (n & Hn). destruct Hr as [Hb _].
  apply Rabs_def2 in Hn. assert (n = 0%Z) by (apply small_int; lra). subst n. lra.
Qed.

Lemma close_90 m b : close_to 90 m -> reduced 180 m b -> 67.5 < b <= 90 \/ -90 < b < -67.5.
Proof.
  intros Hc Hr. destruct (close_reduced _ _ _ Hc Hr) as (n & Hn). destruct Hr as [Hb _].
  apply Rabs_def2 in Hn.
  assert (Hn' : (-2 < n < 1)%Z) by (split; apply lt_IZR; lra).
  assert (n = 0 \/ n = -1)%Z as [-> | ->] by lia; lra.
Qed.

Ltac dist := unfold Rabs; repeat match goal with
  | |- context [Rcase_abs ?e] => destruct (Rcase_abs e)
  end; lra.

Lemma c31_means l a m0 m45 mm45 m90 :
  length l = 4%nat -> arrangement_ok a ->
  item l (p0 a) m0 -> item l (p45 a) m45 -> item l (pm45 a) mm45 -> item l (p90 a) m90 ->
  close_to 0 m0 -> close_to 45 m45 -> close_to (-45) mm45 -> close_to 90 m90 ->
  evaluates (fun fuel => angle_dic_of fuel l)
    [(0, p0 a); (45, p45 a); (-45, pm45 a); (90, p90 a)]%Z.
Proof.
  intros Hl Ha I0 I45 Im45 I90 C0 C45 Cm45 C90.
  destruct (c41_list l) as ([l' arg] & [HF _] & n & E). cbn [fst] in HF.
  destruct (item_reduced _ _ _ _ HF I0) as (b0 & J0 & R0).
  destruct (item_reduced _ _ _ _ HF I45) as (b45 & J45 & R45).
  destruct (item_reduced _ _ _ _ HF Im45) as (bm45 & Jm45 & Rm45).
  destruct (item_reduced _ _ _ _ HF I90) as (b90 & J90 & R90).
  pose proof (close_0 _ _ C0 R0) as B0. pose proof (close_45 _ _ C45 R45) as B45.
  pose proof (close_m45 _ _ Cm45 Rm45) as Bm45. pose proof (close_90 _ _ C90 R90) as B90.
  assert (Hl' : length l' = 4%nat) by (rewrite <- Hl; symmetry; apply (Forall2_length HF)).
  destruct Ha as (A0 & A45 & Am45 & A90 & D1 & D2 & D3 & D4 & D5 & D6).
  assert (Hcase : forall k v, item l' k v ->
    (k = p0 a /\ v = b0) \/ (k = p45 a /\ v = b45) \/ (k = pm45 a /\ v = bm45) \/ (k = p90 a /\ v = b90)).
  { intros k v Hk. pose proof (item_lt _ _ _ Hl' Hk) as Bk.
    assert (k = p0 a \/ k = p45 a \/ k = pm45 a \/ k = p90 a)%Z as D by lia.
    destruct D as [-> | [-> | [-> | ->]]].
    - left. split; [reflexivity|]. exact (item_inj _ _ _ _ Hk J0).
    - right; left. split; [reflexivity|]. exact (item_inj _ _ _ _ Hk J45).
    - right; right; left. split; [reflexivity|]. exact (item_inj _ _ _ _ Hk Jm45).
    - right; right; right. split; [reflexivity|]. exact (item_inj _ _ _ _ Hk J90). }
  assert (N0 : nearest l' 0 = Ok (p0 a)).
  { apply (nearest_unique _ _ _ b0 J0). intros k v Hk Hne.
    destruct (Hcase k v Hk) as [(-> & ->)|[(-> & ->)|[(-> & ->)|(-> & ->)]]]; [congruence| | |];
      destruct B90; dist. }
  assert (N45 : nearest l' 45 = Ok (p45 a)).
  { apply (nearest_unique _ _ _ b45 J45). intros k v Hk Hne.
    destruct (Hcase k v Hk) as [(-> & ->)|[(-> & ->)|[(-> & ->)|(-> & ->)]]]; [|congruence| |];
      destruct B90; dist. }
  assert (Nm45 : nearest l' (-45) = Ok (pm45 a)).
  { apply (nearest_unique _ _ _ bm45 Jm45). intros k v Hk Hne.
    destruct (Hcase k v Hk) as [(-> & ->)|[(-> & ->)|[(-> & ->)|(-> & ->)]]]; [| |congruence|];
      destruct B90; dist. }
  exists n. intros fuel Hf. unfold angle_dic_of. rewrite (E fuel Hf). cbn [bind].
  rewrite N0. cbn [bind]. rewrite N45. cbn [bind]. rewrite Nm45. cbn [bind].
  destruct B90 as [B90|B90].
  - assert (N90 : nearest l' 90 = Ok (p90 a)).
    { apply (nearest_unique _ _ _ b90 J90). intros k v Hk Hne.
      destruct (Hcase k v Hk) as [(-> & ->)|[(-> & ->)|[(-> & ->)|(-> & ->)]]]; [| | |congruence]; dist. }
    rewrite N90. cbn [bind].
    assert (Hm : filter (fun k => negb (existsb (Z.eqb k) [p0 a; p45 a; pm45 a; p90 a])) [0; 1; 2; 3]%Z = []).
    { clear - A0 A45 Am45 A90 D1 D2 D3 D4 D5 D6.
      assert (G : forall k, (0 <= k < 4)%Z -> negb (existsb (Z.eqb k) [p0 a; p45 a; pm45 a; p90 a]) = false).
      { intros k Hk. cbn [existsb]. lia. }
      cbn [filter]. rewrite !G by lia. reflexivity. }
    rewrite Hm. reflexivity.
  - assert (N90 : nearest l' 90 = Ok (p45 a)).
    { apply (nearest_unique _ _ _ b45 J45). intros k v Hk Hne.
      destruct (Hcase k v Hk) as [(-> & ->)|[(-> & ->)|[(-> & ->)|(-> & ->)]]]; [|congruence| |]; dist. }
    rewrite N90. cbn [bind].
    assert (Hm : filter (fun k => negb (existsb (Z.eqb k) [p0 a; p45 a; pm45 a; p45 a])) [0; 1; 2; 3]%Z = [p90 a]).
    { clear - A0 A45 Am45 A90 D1 D2 D3 D4 D5 D6.
      assert (G : forall k, (0 <= k < 4)%Z ->
        negb (existsb (Z.eqb k) [p0 a; p45 a; pm45 a; p45 a]) = (k =? p90 a)%Z).
      { intros k Hk. cbn [existsb]. lia. }
      cbn [filter]. rewrite !G by lia.
      assert (p90 a = 0 \/ p90 a = 1 \/ p90 a = 2 \/ p90 a = 3)%Z as D by lia.
      destruct D as [-> | [-> | [-> | ->]]]; reflexivity. }
    rewrite Hm. reflexivity.
Qed.

Lemma family_mean_spec phi h w dy dx :
  rows phi = (2 * h)%Z -> cols phi = (2 * w)%Z -> (0 < h)%Z -> (0 < w)%Z ->
  (0 <= dy < 2)%Z -> (0 <= dx < 2)%Z ->
  family_mean phi dy dx = rsum2 h w (fun Y X => cell phi (dy + 2 * Y) (dx + 2 * X)) / IZR (h * w).
Proof.
  intros Hr Hc Hh Hw Hdy Hdx. unfold family_mean. rewrite Hr, Hc.
  assert (Q : forall n d, (0 < n)%Z -> (0 <= d < 2)%Z -> Z.max 0 ((2 * n - d + 1) / 2) = n).
  { clear. intros n d Hn Hd. replace ((2 * n - d + 1) / 2)%Z with n; [lia|].
    apply Z.div_unique with (1 - d)%Z; lia. }
  rewrite !Q by assumption. reflexivity.
Qed.

Lemma c31_families phi h w a :
  rows phi = (2 * h)%Z -> cols phi = (2 * w)%Z -> (0 < h)%Z -> (0 < w)%Z -> arrangement_ok a ->
  (let mean k := rsum2 h w (fun Y X => cell phi (k / 2 + 2 * Y) (k mod 2 + 2 * X)) / IZR (h * w) in
   close_to 0 (mean (p0 a)) /\ close_to 45 (mean (p45 a)) /\ close_to (-45) (mean (pm45 a)) /\
   close_to 90 (mean (p90 a))) ->
  evaluates (fun fuel => fitted_angle_dic fuel phi)
    [(0, p0 a); (45, p45 a); (-45, pm45 a); (90, p90 a)]%Z.
Proof.
  intros Hr Hc Hh Hw Ha (C0 & C45 & Cm45 & C90). unfold fitted_angle_dic.
  assert (Hitem : forall k, (0 <= k < 4)%Z ->
    item (four_means phi) k (rsum2 h w (fun Y X => cell phi (k / 2 + 2 * Y) (k mod 2 + 2 * X)) / IZR (h * w))).
  { intros k Hk. split; [lia|]. unfold four_means. rewrite !(family_mean_spec phi h w) by (assumption || lia).
    assert (k = 0 \/ k = 1 \/ k = 2 \/ k = 3)%Z as D by lia.
    destruct D as [-> | [-> | [-> | ->]]]; reflexivity. }
  pose proof Ha as (A0 & A45 & Am45 & A90 & _).
  apply (c31_means (four_means phi) a _ _ _ _ eq_refl Ha (Hitem _ A0) (Hitem _ A45) (Hitem _ Am45) (Hitem _ A90)
           C0 C45 Cm45 C90).
Qed.

(** ** C32 *)
Lemma c32_distinct l : length l = 4%nat ->
  returns (fun fuel => angle_dic_of fuel l)
    (fun dic => exists a b c d, dic = [(0, a); (45, b); (-45, c); (90, d)]%Z /\
       (0 <= a < 4 /\ 0 <= b < 4 /\ 0 <= c < 4 /\ 0 <= d < 4)%Z /\
       (exists l', Forall2 (reduced 180) l l' /\
          forall k i, In (i, k) [(0, a); (45, b); (-45, c)]%Z ->
            exists v, item l' k v /\ forall k' v', item l' k' v' -> Rabs (v - IZR i) <= Rabs (v' - IZR i)) /\
       (NoDup [a; b; c; d] <-> NoDup [a; b; c])).
Proof.
  intros Hl. destruct (c41_list l) as ([l' arg] & [HF _] & n & E). cbn [fst] in HF.
  assert (Hl' : length l' = 4%nat) by (rewrite <- Hl; symmetry; apply (Forall2_length HF)).
  assert (Hne : l' <> []) by (intros ->; discriminate).
  destruct (nearest_spec l' 0 Hne) as (a & va & Ea & Ia & La).
  destruct (nearest_spec l' 45 Hne) as (b & vb & Eb & Ib & Lb).
  destruct (nearest_spec l' (-45) Hne) as (c & vc & Ec & Ic & Lc).
  destruct (nearest_spec l' 90 Hne) as (d & vd & Ed & Id & Ld).
  pose proof (item_lt _ _ _ Hl' Ia) as Ba. pose proof (item_lt _ _ _ Hl' Ib) as Bb.
  pose proof (item_lt _ _ _ Hl' Ic) as Bc. pose proof (item_lt _ _ _ Hl' Id) as Bd.
  set (missing := filter (fun k => negb (existsb (Z.eqb k) [a; b; c; d])) [0; 1; 2; 3]%Z).
  set (d' := match missing with [] => d | k :: _ => k end).
  exists [(0, a); (45, b); (-45, c); (90, d')]%Z. split.
  - exists a, b, c, d'. split; [reflexivity|].
    assert (Hmiss : forall k, In k missing <-> (0 <= k < 4 /\ k <> a /\ k <> b /\ k <> c /\ k <> d)%Z).
    { intros k. unfold missing. rewrite filter_In. cbn [existsb In]. clear. split.
      - intros [Hin Hn]. assert (0 <= k < 4)%Z by lia. lia.
      - intros Hk. split; [lia|]. lia. }
    assert (Hd' : (0 <= d' < 4)%Z /\ (NoDup [a; b; c] -> d' <> a /\ d' <> b /\ d' <> c)%Z).
    { unfold d'. destruct missing as [|k rest] eqn:Em.
      - split; [exact Bd|]. intros Hnd.
        assert (a <> b /\ a <> c /\ b <> c)%Z as (n1 & n2 & n3).
        { inversion Hnd as [|? ? H1 H2]; subst. inversion H2 as [|? ? H3 H4]; subst. cbn [In] in H1, H3.
          repeat split; intros ->; tauto. }
        assert (Hall : forall k, (0 <= k < 4)%Z -> (k = a \/ k = b \/ k = c \/ k = d)%Z).
        { intros k Hk. destruct (Z.eq_dec k a); [tauto|]. destruct (Z.eq_dec k b); [tauto|].
          destruct (Z.eq_dec k c); [tauto|]. destruct (Z.eq_dec k d); [tauto|].
          exfalso. assert (Hin : In k []) by (apply Hmiss; auto). destruct Hin. }
        pose proof (Hall 0%Z ltac:(lia)). pose proof (Hall 1%Z ltac:(lia)). pose proof (Hall 2%Z ltac:(lia)).
        pose proof (Hall 3%Z ltac:(lia)). lia.
      - assert (Hk : In k (k :: rest)) by (left; reflexivity). apply Hmiss in Hk. split; [lia|]. intros _. lia. }
    destruct Hd' as (Bd' & Hnew).
    split; [repeat split; lia|]. split.
    + exists l'. split; [exact HF|]. intros k i [Eq|[Eq|[Eq|[]]]]; injection Eq as <- <-; eauto.
    + split; intros Hnd.
      * inversion Hnd as [|? ? H1 H2]; subst. inversion H2 as [|? ? H3 H4]; subst. cbn [In] in H1, H3.
        constructor; [cbn [In]; tauto|]. constructor; [cbn [In]; tauto|]. constructor; [intros []|constructor].
      * destruct (Hnew Hnd) as (m1 & m2 & m3).
        inversion Hnd as [|? ? H1 H2]; subst. inversion H2 as [|? ? H3 H4]; subst. cbn [In] in H1, H3.
        constructor; [cbn [In]; intros [->|[->|[->|[]]]]; tauto|].
        constructor; [cbn [In]; intros [->|[->|[]]]; tauto|].
        constructor; [cbn [In]; intros [->|[]]; tauto|]. constructor; [intros []|constructor].
  - exists n. intros fuel Hf. unfold angle_dic_of. rewrite (E fuel Hf). cbn [bind].
    rewrite Ea. cbn [bind]. rewrite Eb. cbn [bind]. rewrite Ec. cbn [bind]. rewrite Ed. reflexivity.
Qed.

Lemma c32_equal_phases :
  evaluates (fun fuel => angle_dic_of fuel [0; 0; 0; 0]) [(0, 0); (45, 0); (-45, 0); (90, 1)]%Z.
Proof.
  destruct (c41_idempotent [0; 0; 0; 0]) as (n & E); [repeat constructor; lra|].
  exists n. intros fuel Hf. unfold angle_dic_of. rewrite (E fuel Hf). cbn [bind].
  assert (N : forall i, nearest [0; 0; 0; 0] i = Ok 0%Z).
  { intros i. unfold nearest. destruct (min_by_spec (fun v => Rabs (v - IZR i)) [0; 0; 0] 0) as [Hin _].
    assert (H0 : min_by (fun v => Rabs (v - IZR i)) 0 [0; 0; 0] = 0).
    { destruct Hin as [<-|[<-|[<-|[<-|[]]]]]; reflexivity. }
    rewrite H0. cbn [index_of]. unfold Reqb. destruct (Req_EM_T 0 0); [reflexivity|contradiction]. }
  rewrite !N. reflexivity.
Qed.
