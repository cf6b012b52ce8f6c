(** C140: arithmetic expressions with images. *)
From Coq Require Import Reals Lra Lia.
From Verif Require Import Base.Base Base.Num Base.Bcast Base.BaseFacts Model.Utils Model.Stokes Model.ImageObj Model.Operators
  Spec.MosaicSpec Spec.PixelSpec Spec.OperatorSpec Proofs.UtilFacts Proofs.StokesFacts.

Section Operators.
  Variables (W : outside) (h w : Z).
  Hypotheses (Hh : 0 < h) (Hw : 0 < w) (Eh : h mod 2 = 0) (Ew : w mod 2 = 0).

  Definition reads (g : Z -> Z -> R) (v : value) : Prop :=
    sized h w v /\ forall y x, 0 <= y < h -> 0 <= x < w -> shown_at v y x = g y x.

  Lemma combine_arrays_ok f a b : rows a = h -> cols a = w -> rows b = h -> cols b = w ->
    (f = Div -> forall y x, 0 <= y < h -> 0 <= x < w -> cell b y x <> 0%R) ->
    exists d, combine_arrays W f a b = Ok d /\ rows d = h /\ cols d = w /\
      forall y x, 0 <= y < h -> 0 <= x < w -> cell d y x = calculate f (cell a y x) (cell b y x).
  Proof using.
    intros Ra Ca Rb Cb Hz.
    assert (S : same_shape a b) by (split; congruence).
    destruct f; cbn [combine_arrays calculate].
    1-3: match goal with |- exists d, bmap2 ?g _ _ = _ /\ _ => destruct (UtilFacts.bmap2_same g a b S) as (d & E & Rd & Cd & Hd) end;
      exists d; rewrite E; split; [reflexivity|]; split; [congruence|]; split; [congruence|];
      intros y x Hy Hx; rewrite Hd by (rewrite ?Ra, ?Ca; assumption); reflexivity.
    unfold divide_where. destruct (UtilFacts.bmap2_same (fun u v : R => (u, v)) a b S) as (d & E & Rd & Cd & Hd).
    rewrite E. cbn [bind]. eexists. split; [reflexivity|]. cbn [rows cols cell].
    split; [congruence|]. split; [congruence|]. intros y x Hy Hx. rewrite Hd by (rewrite ?Ra, ?Ca; assumption).
    specialize (Hz eq_refl y x Hy Hx). cbn [neqb Num_R]. unfold Reqb.
    destruct (Req_EM_T (cell b y x) _) as [Ez|_]; [contradiction|reflexivity].
  Qed.

  Lemma combine_number_ok f a s : rows a = h -> cols a = w -> (f = Div -> s <> 0%R) ->
    rows (combine_number W f a s) = h /\ cols (combine_number W f a s) = w /\
    forall y x, 0 <= y < h -> 0 <= x < w -> cell (combine_number W f a s) y x = calculate f (cell a y x) s.
  Proof using.
    intros Ra Ca Hz. destruct f; cbn [combine_number calculate]; try (repeat split; assumption).
    unfold divide_scalar. cbn [rows cols cell]. split; [assumption|]. split; [assumption|]. intros y x _ _.
    specialize (Hz eq_refl). cbn [neqb Num_R]. unfold Reqb.
    destruct (Req_EM_T s _) as [Ez|_]; [contradiction|reflexivity].
  Qed.

  Lemma array_op_calculate f u v : array_op f u v = calculate f u v.
  Proof using. destruct f; reflexivity. Qed.

  Lemma new_micropol_ok a dic : rows a = h -> cols a = w -> (exists p, describes dic p) -> new_micropol a dic = Ok (Micropol a dic).
  Proof using Hh Hw Eh Ew.
    intros Ra Ca (p & Hp). unfold new_micropol.
    destruct (data_stokes_spec dic p a Hp) as (s & E & _); [unfold mosaic; rewrite Ra, Ca; repeat split; try assumption; lia|].
    rewrite E. reflexivity.
  Qed.

  Lemma with_object_raises a : rows a = h -> cols a = w -> with_object a = Raise TypeError.
  Proof using Hh Hw.
    intros Ra Ca. unfold with_object. rewrite Ra, Ca.
    destruct (Z.leb_spec h 0); [lia|]. destruct (Z.leb_spec w 0); [lia|]. reflexivity.
  Qed.

  Definition dic_of (v : value) : option angle_dic := match v with Micropol _ dic => Some dic | _ => None end.

  (** One operator *)
  Lemma operate_ok f u v gu gv k : reads gu u -> reads gv v -> accepts (kind_of u) (kind_of v) k ->
    (f = Div -> forall y x, 0 <= y < h -> 0 <= x < w -> gv y x <> 0%R) ->
    exists r, operate W f u v = Ok r /\ kind_of r = k /\ reads (fun y x => calculate f (gu y x) (gv y x)) r /\
      (k = KMicropol -> dic_of r = dic_of u).
  Proof using Hh Hw Eh Ew.
    intros [Su Hu] [Sv Hv] Ha Hz.
    assert (Hz' : f = Div -> forall y x, 0 <= y < h -> 0 <= x < w -> shown_at v y x <> 0%R)
      by (intros Hf y x Hy Hx; rewrite Hv by assumption; apply Hz; assumption).
    assert (Hs : forall s, v = Number s -> f = Div -> s <> 0%R).
    { intros s -> Hf. exact (Hz' Hf 0 0 ltac:(lia) ltac:(lia)). }
    assert (G : forall r, (forall y x, 0 <= y < h -> 0 <= x < w -> shown_at r y x = calculate f (shown_at u y x) (shown_at v y x)) ->
      sized h w r -> reads (fun y x => calculate f (gu y x) (gv y x)) r).
    { intros r Hr Sr. split; [exact Sr|]. intros y x Hy Hx. rewrite Hr, Hu, Hv by assumption. reflexivity. }
    destruct u as [s|a|a|a dic], v as [t|b|b|b dic']; cbn [kind_of] in Ha; inversion Ha; subst;
      try (exfalso; repeat match goal with H : _ \/ _ |- _ => destruct H end; discriminate); cbn [operate with_other].
    - (* number, number *)
      exists (Number (calculate f s t)). split; [|split; [reflexivity|split; [apply G; [reflexivity|exact I]|discriminate]]].
      destruct f; try reflexivity. unfold number_op, Reqb. destruct (Req_EM_T t 0) as [E|_]; [|reflexivity].
      exfalso. exact (Hs t eq_refl eq_refl E).
    - (* number, array *)
      eexists. split; [reflexivity|]. split; [reflexivity|]. split; [|discriminate]. apply G; [|exact Sv].
      intros y x _ _. cbn. apply array_op_calculate.
    - (* array, number *)
      eexists. split; [reflexivity|]. split; [reflexivity|]. split; [|discriminate]. apply G; [|exact Su].
      intros y x _ _. cbn. apply array_op_calculate.
    - (* arrays *)
      destruct Su as [Ra Ca], Sv as [Rb Cb].
      destruct (UtilFacts.bmap2_same (array_op f) a b) as (d & E & Rd & Cd & Hd); [split; congruence|].
      rewrite E. cbn [bind]. eexists. split; [reflexivity|]. split; [reflexivity|]. split; [|discriminate].
      apply G; [|split; congruence]. intros y x Hy Hx. cbn. rewrite Hd by (rewrite ?Ra, ?Ca; assumption). apply array_op_calculate.
    - (* Image, number *)
      destruct Su as [Ra Ca]. destruct (combine_number_ok f a t Ra Ca (Hs t eq_refl)) as (Rd & Cd & Hd).
      cbn [bind]. eexists. split; [reflexivity|]. split; [reflexivity|]. split; [|discriminate].
      apply G; [exact Hd|split; assumption].
    - (* Image, array *)
      destruct Su as [Ra Ca], Sv as [Rb Cb]. destruct (combine_arrays_ok f a b Ra Ca Rb Cb Hz') as (d & E & Rd & Cd & Hd).
      rewrite E. cbn [bind]. eexists. split; [reflexivity|]. split; [reflexivity|]. split; [|discriminate].
      apply G; [exact Hd|split; assumption].
    - (* Images *)
      destruct Su as [Ra Ca], Sv as [Rb Cb]. destruct (combine_arrays_ok f a b Ra Ca Rb Cb Hz') as (d & E & Rd & Cd & Hd).
      rewrite E. cbn [bind]. eexists. split; [reflexivity|]. split; [reflexivity|]. split; [|discriminate].
      apply G; [exact Hd|split; assumption].
    - (* MicropolImage, number *)
      destruct Su as (Ra & Ca & Hp). destruct (combine_number_ok f a t Ra Ca (Hs t eq_refl)) as (Rd & Cd & Hd).
      cbn [bind]. rewrite new_micropol_ok by assumption. eexists. split; [reflexivity|]. split; [reflexivity|]. split; [|reflexivity].
      apply G; [exact Hd|repeat split; assumption].
    - (* MicropolImage, array *)
      destruct Su as (Ra & Ca & Hp), Sv as [Rb Cb]. destruct (combine_arrays_ok f a b Ra Ca Rb Cb Hz') as (d & E & Rd & Cd & Hd).
      rewrite E. cbn [bind]. rewrite new_micropol_ok by assumption. eexists. split; [reflexivity|]. split; [reflexivity|]. split; [|reflexivity].
      apply G; [exact Hd|repeat split; assumption].
    - (* MicropolImages *)
      destruct Su as (Ra & Ca & Hp), Sv as (Rb & Cb & _). destruct (combine_arrays_ok f a b Ra Ca Rb Cb Hz') as (d & E & Rd & Cd & Hd).
      rewrite E. cbn [bind]. rewrite new_micropol_ok by assumption. eexists. split; [reflexivity|]. split; [reflexivity|]. split; [|reflexivity].
      apply G; [exact Hd|repeat split; assumption].
  Qed.

  Lemma operate_refuses f u v : sized h w u -> sized h w v -> (forall k, ~ accepts (kind_of u) (kind_of v) k) ->
    operate W f u v = Raise TypeError.
  Proof using Hh Hw.
    intros Su Sv Ha.
    destruct u as [s|a|a|a dic], v as [t|b|b|b dic']; cbn [kind_of] in Ha; cbn [operate with_other];
      try (exfalso; eapply Ha; econstructor; tauto); try reflexivity;
      try (destruct Su as (Ra & Ca)); try (destruct Ca as (Ca & _)); rewrite with_object_raises by assumption; reflexivity.
  Qed.

  Lemma accepts_dec a b : (exists k, accepts a b k) \/ (forall k, ~ accepts a b k).
  Proof using.
    destruct a, b; try (left; eexists; econstructor; tauto);
      right; intros k Hk; inversion Hk; subst; repeat match goal with H : _ \/ _ |- _ => destruct H end; discriminate.
  Qed.

  Lemma accepts_same a b k1 k2 : accepts a b k1 -> accepts a b k2 -> k1 = k2.
  Proof using.
    intros A B. inversion A; inversion B; subst; try congruence;
      repeat match goal with H : _ \/ _ |- _ => destruct H end; congruence.
  Qed.
  Lemma makes_same e : forall k1 k2, makes e k1 -> makes e k2 -> k1 = k2.
  Proof using.
    induction e as [v|f l IHl r IHr]; intros k1 k2 M1 M2.
    - inversion M1; inversion M2; congruence.
    - inversion M1 as [|? ? ? a1 b1 ? L1 R1 A1]; inversion M2 as [|? ? ? a2 b2 ? L2 R2 A2]; subst.
      rewrite (IHl _ _ L1 L2), (IHr _ _ R1 R2) in A1. exact (accepts_same _ _ _ _ A1 A2).
  Qed.

  Lemma eval_ok e k : all_sized h w e -> no_zero_divisor h w e -> makes e k ->
    exists r, eval W e = Ok r /\ kind_of r = k /\ reads (meaning e) r /\ (k = KMicropol -> dic_of r = dic_of (leftmost e)).
  Proof using Hh Hw Eh Ew.
    revert k. induction e as [v|f l IHl r IHr]; intros k Hs Hz Hk.
    - inversion Hk; subst. exists v. split; [reflexivity|]. split; [reflexivity|]. split; [split; [exact Hs|reflexivity]|reflexivity].
    - inversion Hk as [|? ? ? a b ? Ml Mr Ha]; subst. destruct Hs as [Sl Sr], Hz as (Zl & Zr & Hz).
      destruct (IHl a Sl Zl Ml) as (u & Eu & Ku & Ru & Du). destruct (IHr b Sr Zr Mr) as (v & Ev & Kv & Rv & _).
      subst a b. destruct (operate_ok f u v _ _ k Ru Rv Ha Hz) as (x & Ex & Kx & Rx & Dx).
      exists x. cbn [eval]. rewrite Eu. cbn [bind]. rewrite Ev. cbn [bind]. split; [exact Ex|]. split; [exact Kx|]. split; [exact Rx|].
      intros Hkm. cbn [leftmost]. rewrite (Dx Hkm). apply Du.
      subst k. rewrite Hkm in Ha. inversion Ha; try congruence.
  Qed.

  Lemma eval_refuses e : all_sized h w e -> no_zero_divisor h w e -> (forall k, ~ makes e k) -> eval W e = Raise TypeError.
  Proof using Hh Hw Eh Ew.
    induction e as [v|f l IHl r IHr]; intros Hs Hz Hk; [exfalso; eapply Hk; constructor|].
    destruct Hs as [Sl Sr], Hz as (Zl & Zr & Hz). cbn [eval].
    assert (D : forall e, (exists k, makes e k) \/ (forall k, ~ makes e k)).
    { clear. induction e as [v|f l IHl r IHr]; [left; eexists; constructor|].
      destruct IHl as [(a & Ml)|N]; [|right; intros k Hk; inversion Hk; subst; eapply N; eassumption].
      destruct IHr as [(b & Mr)|N]; [|right; intros k Hk; inversion Hk; subst; eapply N; eassumption].
      destruct (accepts_dec a b) as [(k & Hk)|N]; [left; exists k; econstructor; eassumption|].
      right. intros k Hk. inversion Hk as [|? ? ? a' b' ? Ml' Mr' Ha]; subst.
      rewrite (makes_same _ _ _ Ml' Ml), (makes_same _ _ _ Mr' Mr) in Ha. exact (N _ Ha). }
    destruct (D l) as [(a & Ml)|N]; [|rewrite (IHl Sl Zl N); reflexivity].
    destruct (eval_ok l a Sl Zl Ml) as (u & Eu & Ku & (Su & _) & _). rewrite Eu. cbn [bind].
    destruct (D r) as [(b & Mr)|N]; [|rewrite (IHr Sr Zr N); reflexivity].
    destruct (eval_ok r b Sr Zr Mr) as (v & Ev & Kv & (Sv & _) & _). rewrite Ev. cbn [bind].
    apply operate_refuses; [assumption|assumption|]. intros k Ha. apply (Hk k).
    rewrite Ku, Kv in Ha. econstructor; eassumption.
  Qed.
End Operators.

(** ** Statements for C140 *)
Lemma dic_of_micropol u v : kind_of u = KMicropol -> dic_of u = dic_of v ->
  exists a b dic, u = Micropol a dic /\ v = Micropol b dic.
Proof. destruct u, v; cbn; try discriminate. intros _ E. injection E as <-. eauto. Qed.

Lemma c140_meaning W h w e k : 0 < h -> 0 < w -> h mod 2 = 0 -> w mod 2 = 0 ->
  all_sized h w e -> no_zero_divisor h w e -> makes e k ->
  exists r, eval W e = Ok r /\ kind_of r = k /\ sized h w r /\
    (forall y x, 0 <= y < h -> 0 <= x < w -> shown_at r y x = meaning e y x) /\
    (k = KMicropol -> exists a b dic, r = Micropol a dic /\ leftmost e = Micropol b dic).
Proof.
  intros Hh Hw Eh Ew Hs Hz Hk. destruct (eval_ok W h w Hh Hw Eh Ew e k Hs Hz Hk) as (r & E & K & (S & P) & D).
  exists r. repeat (split; [assumption|]). intros Hm. apply dic_of_micropol; [congruence|]. exact (D Hm).
Qed.

Lemma c140_refused W h w e : 0 < h -> 0 < w -> h mod 2 = 0 -> w mod 2 = 0 ->
  all_sized h w e -> no_zero_divisor h w e -> (forall k, ~ makes e k) -> eval W e = Raise TypeError.
Proof. intros Hh Hw Eh Ew. exact (eval_refuses W h w Hh Hw Eh Ew e). Qed.

Lemma c140_left W h w f l r a b : 0 < h -> 0 < w -> h mod 2 = 0 -> w mod 2 = 0 ->
  all_sized h w (Op f l r) -> no_zero_divisor h w (Op f l r) -> makes l a -> makes r b ->
  is_image b -> a <> b -> eval W (Op f l r) = Raise TypeError.
Proof.
  intros Hh Hw Eh Ew Hs Hz Ml Mr Hb Hab. apply (c140_refused W h w); try assumption.
  intros k Hk. inversion Hk as [|? ? ? a' b' ? Ml' Mr' Ha]; subst.
  rewrite (makes_same _ _ _ Ml' Ml), (makes_same _ _ _ Mr' Mr) in Ha.
  inversion Ha; subst; destruct Hb; subst;
    repeat match goal with H : _ \/ _ |- _ => destruct H end; congruence.
Qed.

Lemma c140_sum W v l : is_image (kind_of v) -> py_sum W (v :: l) = Raise TypeError.
Proof. intros [K|K]; destruct v; try discriminate; reflexivity. Qed.

Definition sum_expr (v : value) (l : list value) : expr := fold_left (fun e u => Op Add e (Leaf u)) l (Leaf v).

Lemma eval_fold W l : forall e v, eval W e = Ok v -> sum_from W v l = eval W (fold_left (fun e u => Op Add e (Leaf u)) l e).
Proof.
  induction l as [|u l IH]; intros e v E; cbn [sum_from fold_left]; [symmetry; exact E|].
  destruct (operate W Add v u) as [r|x|] eqn:Er; cbn [bind].
  - apply IH. cbn [eval]. rewrite E. exact Er.
  - assert (R : eval W (Op Add e (Leaf u)) = Raise x) by (cbn [eval]; rewrite E; exact Er).
    clear - R. revert R. generalize (Op Add e (Leaf u)). induction l as [|t l IH]; intros e' R; [symmetry; exact R|].
    cbn [fold_left]. apply IH. cbn [eval]. rewrite R. reflexivity.
  - assert (R : eval W (Op Add e (Leaf u)) = NoFuel) by (cbn [eval]; rewrite E; exact Er).
    clear - R. revert R. generalize (Op Add e (Leaf u)). induction l as [|t l IH]; intros e' R; [symmetry; exact R|].
    cbn [fold_left]. apply IH. cbn [eval]. rewrite R. reflexivity.
Qed.

Lemma c140_sum_start W h w k v l : 0 < h -> 0 < w -> h mod 2 = 0 -> w mod 2 = 0 -> is_image k ->
  Forall (fun u => sized h w u /\ kind_of u = k) (v :: l) ->
  exists r, sum_from W v l = Ok r /\ kind_of r = k /\ sized h w r /\
    forall y x, 0 <= y < h -> 0 <= x < w -> shown_at r y x = sum_at (v :: l) y x.
Proof.
  intros Hh Hw Eh Ew Hk Hall. inversion Hall as [|? ? [Sv Kv] Hl]; subst.
  rewrite (eval_fold W l (Leaf v) v eq_refl).
  assert (G : forall l e, all_sized h w e -> no_zero_divisor h w e -> makes e (kind_of v) ->
    Forall (fun u => sized h w u /\ kind_of u = kind_of v) l ->
    let e' := fold_left (fun e u => Op Add e (Leaf u)) l e in
    all_sized h w e' /\ no_zero_divisor h w e' /\ makes e' (kind_of v) /\
    forall y x, meaning e' y x = (meaning e y x + sum_at l y x)%R).
  { clear - Hk. induction l as [|u l IH]; intros e Se Ze Me Hl; cbn zeta; cbn [fold_left].
    - repeat (split; [assumption|]). intros y x. cbn. lra.
    - inversion Hl as [|? ? [Su Ku] Hl']; subst.
      destruct (IH (Op Add e (Leaf u))) as (S' & Z' & M' & E').
      + split; assumption.
      + split; [assumption|]. split; [exact I|discriminate].
      + eapply mk_op; [exact Me|apply mk_leaf|]. rewrite Ku. apply acc_image; [exact Hk|tauto].
      + exact Hl'.
      + repeat (split; [assumption|]). intros y x. rewrite E'. unfold sum_at. cbn [fold_right meaning calculate]. lra. }
  destruct (G l (Leaf v) Sv I (mk_leaf v) Hl) as (S' & Z' & M' & E').
  destruct (c140_meaning W h w _ _ Hh Hw Eh Ew S' Z' M') as (r & Er & Kr & Sr & Pr & _).
  exists r. repeat (split; [assumption|]). intros y x Hy Hx. rewrite (Pr y x Hy Hx), E'. unfold sum_at. cbn [fold_right meaning calculate]. lra.
Qed.

Definition dark : arr R := mkarr 2 2 (fun _ _ => 0%R).
Definition lit (k : Z) : arr R := mkarr 2 2 (fun y x => if 2 * y + x =? k then 1%R else 0%R).

Lemma sample_lit k j : 0 <= k < 4 -> sample (lit j) k 0 0 = if k =? j then 1%R else 0%R.
Proof.
  intros Hk. unfold sample, lit. cbn [cell].
  replace (2 * (2 * 0 + k / 2) + (2 * 0 + k mod 2)) with k; [reflexivity|].
  pose proof (Z.div_mod k 2 ltac:(lia)). lia.
Qed.

Lemma c140_angles W d1 p1 d2 p2 : describes d1 p1 -> describes d2 p2 -> p1 <> p2 ->
  exists a b r s1 s2 s, operate W Add (Micropol a d1) (Micropol b d2) = Ok (Micropol r d1) /\
    data_stokes d1 a = Ok s1 /\ data_stokes d2 b = Ok s2 /\ data_stokes d1 r = Ok s /\
    (cell (sQ s) 0 0 <> (cell (sQ s1) 0 0 + cell (sQ s2) 0 0)%R \/
     cell (sU s) 0 0 <> (cell (sU s1) 0 0 + cell (sU s2) 0 0)%R).
Proof.
  intros D1 D2 Hne.
  assert (C : exists j, 0 <= j < 4 /\
    let q p := ((if p0 p =? j then 1 else 0) - (if p90 p =? j then 1 else 0))%R in
    let u p := ((if p45 p =? j then 1 else 0) - (if pm45 p =? j then 1 else 0))%R in
    (q p1 <> q p2 \/ u p1 <> u p2)).
  { destruct D1 as [O1 _], D2 as [O2 _]. destruct p1 as [a1 b1 c1 e1], p2 as [a2 b2 c2 e2]. unfold arrangement_ok in *. cbn [p0 p45 pm45 p90] in *.
    destruct (Z.eq_dec a1 a2) as [E1|N1]; [|exists a1; split; [lia|]; left].
    2: { rewrite Z.eqb_refl. destruct (Z.eqb_spec e1 a1); [lia|]. destruct (Z.eqb_spec a2 a1); [lia|]. destruct (Z.eqb_spec e2 a1); lra. }
    destruct (Z.eq_dec e1 e2) as [E2|N2]; [|exists e1; split; [lia|]; left].
    2: { rewrite Z.eqb_refl. destruct (Z.eqb_spec a1 e1); [lia|]. destruct (Z.eqb_spec e2 e1); [lia|]. destruct (Z.eqb_spec a2 e1); lra. }
    destruct (Z.eq_dec b1 b2) as [E3|N3]; [|exists b1; split; [lia|]; right].
    2: { rewrite Z.eqb_refl. destruct (Z.eqb_spec c1 b1); [lia|]. destruct (Z.eqb_spec b2 b1); [lia|]. destruct (Z.eqb_spec c2 b1); lra. }
    destruct (Z.eq_dec c1 c2) as [E4|N4]; [|lia].
    exfalso. apply Hne. congruence. }
  destruct C as (j & Hj & C). cbv zeta in C.
  assert (Md : forall d : arr R, rows d = 2 -> cols d = 2 -> mosaic d) by (intros d Rd Cd; unfold mosaic; rewrite Rd, Cd; repeat split; lia).
  destruct (combine_arrays_ok W 2 2 Add dark (lit j)) as (r & Er & Rr & Cr & Hr); try reflexivity; [discriminate|].
  assert (Sr : forall k, 0 <= k < 4 -> sample r k 0 0 = if k =? j then 1%R else 0%R).
  { intros k Hk. rewrite <- (sample_lit k j Hk). unfold sample.
    assert (0 <= k / 2 < 2) by (split; [apply Z.div_pos; lia|apply Z.div_lt_upper_bound; lia]).
    pose proof (Z.mod_pos_bound k 2 ltac:(lia)). rewrite Hr by lia. cbn [calculate dark cell]. apply Rplus_0_l. }
  destruct (data_stokes_spec d1 p1 dark D1 (Md dark eq_refl eq_refl)) as (s1 & E1 & _ & _ & _ & H1).
  destruct (data_stokes_spec d2 p2 (lit j) D2 (Md (lit j) eq_refl eq_refl)) as (s2 & E2 & _ & _ & _ & H2).
  destruct (data_stokes_spec d1 p1 r D1 (Md r Rr Cr)) as (s & E & _ & _ & _ & H).
  exists dark, (lit j), r, s1, s2, s.
  split; [cbn [operate]; rewrite Er; cbn [bind]; unfold new_micropol; rewrite E; reflexivity|].
  split; [exact E1|]. split; [exact E2|]. split; [exact E|].
  rewrite Rr, Cr in H.
  specialize (H 0 0 ltac:(lia) ltac:(lia)). specialize (H1 0 0 ltac:(cbn; lia) ltac:(cbn; lia)). specialize (H2 0 0 ltac:(cbn; lia) ltac:(cbn; lia)).
  destruct H as (_ & HQ & HU), H1 as (_ & HQ1 & HU1), H2 as (_ & HQ2 & HU2).
  destruct D1 as [O1 _], D2 as [O2 _]. unfold arrangement_ok in O1, O2.
  rewrite HQ, HU, HQ1, HU1, HQ2, HU2.
  rewrite !Sr by lia. rewrite !sample_lit by lia.
  assert (Z0 : forall k, sample dark k 0 0 = 0%R) by reflexivity. rewrite !Z0. cbn [nsub Num_R].
  destruct C as [C|C]; [left|right]; intros Hc; apply C; lra.
Qed.
