(** Error propagation. *)
From Coq Require Import Reals Lra Floats.SpecFloat.
From Verif Require Import Base.Base Base.BaseFacts Base.Num Base.Bcast Model.Demosaic Model.Stokes Model.Pol
  Model.Demodulate Model.Errors Spec.MosaicSpec Spec.StokesSpec Spec.DemodSpec Spec.ErrorSpec
  Proofs.DemosaicFacts Proofs.MosaicFacts Proofs.StokesFacts Proofs.UtilFacts Proofs.DemodFacts.
Local Open Scope R_scope.

(** ** Derivatives *)

Lemma dlim_ext f g x l : (forall t, f t = g t) -> derivable_pt_lim f x l -> derivable_pt_lim g x l.
Proof.
  intros E H eps Heps. destruct (H eps Heps) as (d & Hd). exists d. intros h Hh Hlt. rewrite <- !E. apply Hd; assumption.
Qed.
Lemma dlim_val f x l l' : l = l' -> derivable_pt_lim f x l -> derivable_pt_lim f x l'.
Proof. intros <-. auto. Qed.

Lemma d_norm q c : 0 < q * q + c -> derivable_pt_lim (fun t => sqrt (t * t + c)) q (q / sqrt (q * q + c)).
Proof.
  intros Hp. assert (Hs : 0 < sqrt (q * q + c)) by (apply sqrt_lt_R0; exact Hp).
  apply (dlim_val _ _ (/ (2 * sqrt (q * q + c)) * (1 * q + q * 1 + 0))); [field; lra|].
  apply (derivable_pt_lim_comp (fun t => t * t + c) sqrt).
  - apply (derivable_pt_lim_plus (fun t => t * t) (fun _ => c)); [|apply derivable_pt_lim_const].
    apply (derivable_pt_lim_mult (fun t => t) (fun t => t)); apply derivable_pt_lim_id.
  - apply derivable_pt_lim_sqrt. exact Hp.
Qed.

Lemma d_over p i : i <> 0 -> derivable_pt_lim (fun t => p / t) i (- p / (i * i)).
Proof.
  intros Hi. apply (dlim_val _ _ ((0 * i - 1 * p) / Rsqr i)); [unfold Rsqr; field; exact Hi|].
  apply (derivable_pt_lim_div (fun _ => p) (fun t => t));
    [apply derivable_pt_lim_const|apply derivable_pt_lim_id|exact Hi].
Qed.

Lemma d_by f x l i : derivable_pt_lim f x l -> derivable_pt_lim (fun t => f t / i) x (l / i).
Proof.
  intros H. apply (dlim_ext (fun t => / i * f t)); [intros t; unfold Rdiv; ring|].
  apply (dlim_val _ _ (/ i * l)); [unfold Rdiv; ring|]. apply (derivable_pt_lim_scal f). exact H.
Qed.

Lemma near_sign x : x <> 0 -> exists a b, a < x < b /\ forall t, a < t < b -> 0 < t * x.
Proof.
  intros Hx. destruct (Rdichotomy _ _ Hx).
  - exists (x - 1), 0. split; [lra|]. intros t Ht. nra.
  - exists 0, (x + 1). split; [lra|]. intros t Ht. nra.
Qed.

Lemma sign_pos t x : 0 < t * x -> 0 < x -> 0 < t.
Proof. intros. nra. Qed.
Lemma sign_neg t x : 0 < t * x -> x < 0 -> t < 0.
Proof. intros. nra. Qed.

Lemma atan2_right y x : 0 < x -> atan2 y x = atan (y / x).
Proof. intros Hx. unfold atan2, Rltb. destruct (Rlt_dec 0 x); [reflexivity|lra]. Qed.
Lemma atan2_upper y x : x < 0 -> 0 <= y -> atan2 y x = atan (y / x) + PI.
Proof.
  intros Hx Hy. unfold atan2, Rltb, Rleb. destruct (Rlt_dec 0 x); [lra|]. destruct (Rlt_dec x 0); [|lra].
  destruct (Rle_dec 0 y); [reflexivity|lra].
Qed.
Lemma atan2_lower y x : x < 0 -> y < 0 -> atan2 y x = atan (y / x) - PI.
Proof.
  intros Hx Hy. unfold atan2, Rltb, Rleb. destruct (Rlt_dec 0 x); [lra|]. destruct (Rlt_dec x 0); [|lra].
  destruct (Rle_dec 0 y); [lra|reflexivity].
Qed.

Lemma d_atan_over f x l c : derivable_pt_lim f x l -> derivable_pt_lim (fun t => atan (f t) + c) x (/ (1 + f x * f x) * l).
Proof.
  intros H. apply (dlim_val _ _ (/ (1 + f x * f x) * l + 0)); [ring|].
  apply (derivable_pt_lim_plus (fun t => atan (f t)) (fun _ => c)); [|apply derivable_pt_lim_const].
  apply (derivable_pt_lim_comp f atan); [exact H|]. eapply dlim_val; [|apply derivable_pt_lim_atan]. unfold Rsqr. first [reflexivity|f_equal; ring|unfold Rdiv; ring].
Qed.

(** Away from the half line where [atan2] jumps it is [atan] up to a constant near each point. *)
Lemma d_atan2_y y x : x <> 0 -> 0 < x \/ y <> 0 ->
  derivable_pt_lim (fun t => atan2 t x) y (/ (1 + (y / x) * (y / x)) * (1 / x)).
Proof.
  intros Hx Hc.
  assert (D : forall c, derivable_pt_lim (fun t => atan (t / x) + c) y (/ (1 + (y / x) * (y / x)) * (1 / x))).
  { intros c. apply (d_atan_over (fun t => t / x)). apply (d_by (fun t => t)). apply derivable_pt_lim_id. }
  destruct (Rdichotomy _ _ Hx) as [Hneg|Hpos].
  - assert (Hy : y <> 0) by (destruct Hc; [lra|assumption]).
    destruct (near_sign y Hy) as (a & b & Hab & Hs). destruct (Rdichotomy _ _ Hy) as [Hy'|Hy'].
    + apply (derivable_pt_lim_locally_ext (fun t => atan (t / x) + - PI) _ y a b); [exact Hab| |apply D].
      intros t Ht. rewrite atan2_lower; [reflexivity|exact Hneg|]. apply (sign_neg t y); [apply Hs; exact Ht|exact Hy'].
    + apply (derivable_pt_lim_locally_ext (fun t => atan (t / x) + PI) _ y a b); [exact Hab| |apply D].
      intros t Ht. rewrite atan2_upper; [reflexivity|exact Hneg|].
      left. apply (sign_pos t y); [apply Hs; exact Ht|exact Hy'].
  - apply (dlim_ext (fun t => atan (t / x) + 0)); [|apply D]. intros t. rewrite atan2_right by lra. lra.
Qed.

Lemma d_atan2_x y x : x <> 0 -> derivable_pt_lim (fun t => atan2 y t) x (/ (1 + (y / x) * (y / x)) * (- y / (x * x))).
Proof.
  intros Hx.
  assert (D : forall c, derivable_pt_lim (fun t => atan (y / t) + c) x (/ (1 + (y / x) * (y / x)) * (- y / (x * x)))).
  { intros c. apply (d_atan_over (fun t => y / t)). apply d_over. exact Hx. }
  destruct (near_sign x Hx) as (a & b & Hab & Hs). destruct (Rdichotomy _ _ Hx) as [Hneg|Hpos].
  - assert (N : forall t, a < t < b -> t < 0) by (intros t Ht; apply (sign_neg t x); [apply Hs; exact Ht|exact Hneg]).
    destruct (Rlt_dec y 0) as [Hy|Hy].
    + apply (derivable_pt_lim_locally_ext (fun t => atan (y / t) + - PI) _ x a b); [exact Hab| |apply D].
      intros t Ht. rewrite atan2_lower by auto. reflexivity.
    + apply (derivable_pt_lim_locally_ext (fun t => atan (y / t) + PI) _ x a b); [exact Hab| |apply D].
      intros t Ht. rewrite atan2_upper by (auto; lra). reflexivity.
  - apply (derivable_pt_lim_locally_ext (fun t => atan (y / t) + 0) _ x a b); [exact Hab| |apply D].
    intros t Ht. rewrite atan2_right; [lra|]. apply (sign_pos t x); [apply Hs; exact Ht|exact Hpos].
Qed.

(** ** One pixel *)

Lemma norm_pos q u : ~ (q = 0 /\ u = 0) -> 0 < q * q + u * u.
Proof.
  intros H. destruct (Req_dec q 0) as [->|Hq].
  - assert (u <> 0) by tauto. assert (0 < u * u) by nra. lra.
  - assert (0 < q * q) by nra. nra.
Qed.

Lemma pB_pixel I Q U : value (pB (pixel I Q U)) = sqrt (Q * Q + U * U).
Proof. reflexivity. Qed.
Lemma DoLP_pixel I Q U : I <> 0 -> value (DoLP (pixel I Q U)) = sqrt (Q * Q + U * U) / I.
Proof.
  intros HI. unfold value, DoLP. cbn. unfold Reqb. destruct (Req_EM_T I 0); [contradiction|reflexivity].
Qed.
Lemma AoLP_pixel I Q U : value (AoLP (pixel I Q U)) = 1 / 2 * atan2 U Q.
Proof. unfold value, AoLP. cbn. rewrite !Rmult_1_l. reflexivity. Qed.

Lemma pB_first_order I Q U si sq su : ~ (Q = 0 /\ U = 0) ->
  first_order (fun i q u => value (pB (pixel i q u))) I Q U si sq su
    (sqrt ((Q * Q * sq * sq + U * U * su * su) / (Q * Q + U * U))).
Proof.
  intros H0. pose proof (norm_pos Q U H0) as Hp.
  assert (Hs : 0 < sqrt (Q * Q + U * U)) by (apply sqrt_lt_R0; exact Hp).
  exists 0, (Q / sqrt (Q * Q + U * U)), (U / sqrt (Q * Q + U * U)). repeat split.
  - apply (dlim_ext (fun _ => sqrt (Q * Q + U * U))); [reflexivity|apply derivable_pt_lim_const].
  - apply (d_norm Q (U * U)). exact Hp.
  - apply (dlim_ext (fun t => sqrt (t * t + Q * Q))); [intros t; rewrite pB_pixel; f_equal; ring|].
    rewrite (Rplus_comm (Q * Q)). apply d_norm. lra.
  - f_equal. pose proof (sqrt_sqrt (Q * Q + U * U) (Rlt_le _ _ Hp)) as E.
    set (r := sqrt (Q * Q + U * U)) in *. rewrite <- E. field. lra.
Qed.

Lemma DoLP_first_order I Q U si sq su : I <> 0 -> ~ (Q = 0 /\ U = 0) ->
  first_order (fun i q u => value (DoLP (pixel i q u))) I Q U si sq su
    (let pB := sqrt (Q * Q + U * U) in
     sqrt ((Q * Q * sq * sq + U * U * su * su) / (I * pB * (I * pB)) + pB / (I * I) * (pB / (I * I)) * si * si)).
Proof.
  intros HI H0. pose proof (norm_pos Q U H0) as Hp.
  assert (Hs : 0 < sqrt (Q * Q + U * U)) by (apply sqrt_lt_R0; exact Hp).
  set (r := sqrt (Q * Q + U * U)) in *. exists (- r / (I * I)), (Q / r / I), (U / r / I). repeat split.
  - destruct (near_sign I HI) as (a & b & Hab & Hn).
    apply (derivable_pt_lim_locally_ext (fun t => r / t) _ I a b); [exact Hab| |apply d_over; exact HI].
    intros t Ht. rewrite DoLP_pixel; [reflexivity|]. intros ->. specialize (Hn 0 Ht). lra.
  - apply (dlim_ext (fun t => sqrt (t * t + U * U) / I)); [intros t; rewrite DoLP_pixel by exact HI; reflexivity|].
    apply d_by. apply d_norm. exact Hp.
  - apply (dlim_ext (fun t => sqrt (t * t + Q * Q) / I)).
    { intros t; rewrite DoLP_pixel by exact HI. rewrite (Rplus_comm (t * t)). reflexivity. }
    apply d_by. unfold r. rewrite (Rplus_comm (Q * Q)). apply d_norm. lra.
  - cbv zeta. f_equal. field. split; [lra|exact HI].
Qed.

Lemma AoLP_first_order I Q U si sq su : Q <> 0 -> 0 < Q \/ U <> 0 ->
  first_order (fun i q u => value (AoLP (pixel i q u))) I Q U si sq su
    (sqrt ((su * su + sq * sq * U * U / (Q * Q)) /
           (4 * Q * Q * (1 + U * U / (Q * Q)) * (1 + U * U / (Q * Q))))).
Proof.
  intros HQ HU. exists 0. do 2 eexists. split; [|split; [|split]].
  - apply (dlim_ext (fun _ => 1 / 2 * atan2 U Q)); [intros t; rewrite AoLP_pixel; reflexivity|apply derivable_pt_lim_const].
  - apply (dlim_ext (fun t => 1 / 2 * atan2 U t)); [intros t; rewrite AoLP_pixel; reflexivity|].
    apply (derivable_pt_lim_scal (fun t => atan2 U t)). apply d_atan2_x. exact HQ.
  - apply (dlim_ext (fun t => 1 / 2 * atan2 t Q)); [intros t; rewrite AoLP_pixel; reflexivity|].
    apply (derivable_pt_lim_scal (fun t => atan2 t Q)). apply d_atan2_y; assumption.
  - f_equal. assert (0 < Q * Q + U * U) by (apply norm_pos; tauto).
    field. repeat split; try exact HQ; intros E; nra.
Qed.

(** ** Arrays *)

Lemma pixelwise_ok f (S sigma : stokes R) h w fI fQ fU gI gQ gU :
  stokes_is S h w fI fQ fU -> stokes_is sigma h w gI gQ gU ->
  exists e, pixelwise f S sigma = Ok e /\
    grid_is e h w (fun y x => f (fI y x) (fQ y x) (fU y x) (gI y x) (gQ y x) (gU y x)).
Proof.
  intros ([a1 a2] & [a3 a4] & [a5 a6] & HS) ([b1 b2] & [b3 b4] & [b5 b6] & HT).
  unfold pixelwise. rewrite a1, a2, b1, b2, !bdim_same. eexists; split; [reflexivity|].
  split; [reflexivity|]. split; [reflexivity|]. intros y x Hy Hx. cbn [cell].
  destruct (HS y x Hy Hx) as (e1 & e2 & e3). destruct (HT y x Hy Hx) as (k1 & k2 & k3).
  rewrite !bcell_in by lia. rewrite e1, e2, e3, k1, k2, k3. reflexivity.
Qed.

Local Definition sigma_of (M : tensor R) (e : arr R) (i Y X : Z) : R :=
  sqrt (sum4 (fun j => (t_cell M i j Y X * sample e j Y X) * (t_cell M i j Y X * sample e j Y X))).

Lemma stokes_error_ok (e : arr R) (d : demodulator R) :
  mosaic e -> t_rows (mij d) = (rows e / 2)%Z -> t_cols (mij d) = (cols e / 2)%Z ->
  exists s, get_error_on_Stokes e d = Ok s /\
    stokes_is s (rows e / 2) (cols e / 2) (sigma_of (mij d) e 0) (sigma_of (mij d) e 1) (sigma_of (mij d) e 2).
Proof.
  intros (H1 & H2 & H3 & H4) Er Ec.
  destruct (split_spec e) as (q & Eq & Hq); [split; assumption|assumption|assumption|].
  unfold get_error_on_Stokes. rewrite Eq; cbn [bind].
  assert (Q : forall k, (0 <= k < 4)%Z -> qnth (quad_map (amap square) q) k = amap square (qnth q k)).
  { intros k Hk. unfold qnth, quad_map. cbn [q0 q1 q2 q3].
    destruct (k =? 0)%Z; [reflexivity|]. destruct (k =? 1)%Z; [reflexivity|]. destruct (k =? 2)%Z; reflexivity. }
  destruct (demod_product_ok (tensor_map square (mij d)) (quad_map (amap square) q) (rows e / 2) (cols e / 2))
    as (s & Es & Hs).
  - exact Er.
  - exact Ec.
  - intros k Hk. rewrite Q by exact Hk. destruct (Hq k Hk) as (Rk & Ck & _). split; assumption.
  - rewrite Es; cbn [bind]. eexists; split; [reflexivity|]. cbn zeta in Hs.
    destruct Hs as ([S1 S1'] & [S2 S2'] & [S3 S3'] & Hs). unfold stokes_is, stokes_map. cbn [sI sQ sU rows cols cell amap].
    repeat (split; [split; assumption|]). intros Y X HY HX. destruct (Hs Y X HY HX) as (e1 & e2 & e3).
    rewrite e1, e2, e3. unfold row_product, tensor_map, sigma_of, sum4. cbn [t_cell].
    assert (B : forall k, (0 <= k < 4)%Z -> cell (qnth (quad_map (amap square) q) k) Y X = square (sample e k Y X)).
    { intros k Hk. rewrite Q by exact Hk. cbn [amap cell]. destruct (Hq k Hk) as (_ & _ & E). rewrite E. reflexivity. }
    rewrite !B by lia. unfold square. cbn [nsqrt nmul nadd Num_R]. repeat split; f_equal; ring.
Qed.

Lemma c65_all (s : stokes R) (e : arr R) (d : demodulator R) I Q U h w :
  mosaic e -> h = (rows e / 2)%Z -> w = (cols e / 2)%Z -> t_rows (mij d) = h -> t_cols (mij d) = w ->
  stokes_is s h w I Q U ->
  exists sS sP sD sA, MicropolImageError s e d = Ok (sS, sP, sD, sA) /\
    let sigma i Y X :=
      sqrt (sum4 (fun j => (t_cell (mij d) i j Y X * sample e j Y X) * (t_cell (mij d) i j Y X * sample e j Y X))) in
    stokes_is sS h w (sigma 0%Z) (sigma 1%Z) (sigma 2%Z) /\
    (rows sP = h /\ cols sP = w) /\ (rows sD = h /\ cols sD = w) /\ (rows sA = h /\ cols sA = w) /\
    forall Y X, (0 <= Y < h)%Z -> (0 <= X < w)%Z ->
      let propagated f v :=
        first_order f (I Y X) (Q Y X) (U Y X) (sigma 0%Z Y X) (sigma 1%Z Y X) (sigma 2%Z Y X) v in
      (0 <= cell sP Y X /\ 0 <= cell sD Y X /\ 0 <= cell sA Y X) /\
      (~ (Q Y X = 0 /\ U Y X = 0) -> propagated (fun i q u => value (pB (pixel i q u))) (cell sP Y X)) /\
      (I Y X <> 0 -> ~ (Q Y X = 0 /\ U Y X = 0) ->
         propagated (fun i q u => value (DoLP (pixel i q u))) (cell sD Y X)) /\
      (Q Y X <> 0 -> 0 < Q Y X \/ U Y X <> 0 ->
         propagated (fun i q u => value (AoLP (pixel i q u))) (cell sA Y X)).
Proof.
  intros Hm -> -> Er Ec Hs. destruct (stokes_error_ok e d Hm Er Ec) as (sS & ES & HS).
  unfold MicropolImageError. rewrite ES; cbn [bind]. unfold get_error_on_pB, get_error_on_DoLP, get_error_on_AoLP.
  match goal with |- context [bind (pixelwise ?f s sS) _] =>
    destruct (pixelwise_ok f s sS _ _ _ _ _ _ _ _ Hs HS) as (sP & EP & RP & CP & HP) end.
  rewrite EP; cbn [bind].
  match goal with |- context [bind (pixelwise ?f s sS) _] =>
    destruct (pixelwise_ok f s sS _ _ _ _ _ _ _ _ Hs HS) as (sD & ED & RD & CD & HD) end.
  rewrite ED; cbn [bind].
  match goal with |- context [bind (pixelwise ?f s sS) _] =>
    destruct (pixelwise_ok f s sS _ _ _ _ _ _ _ _ Hs HS) as (sA & EA & RA & CA & HA) end.
  rewrite EA; cbn [bind]. do 4 eexists. split; [reflexivity|].
  split; [exact HS|]. split; [split; assumption|]. split; [split; assumption|]. split; [split; assumption|].
  intros Y X HY HX. cbv zeta. rewrite HP, HD, HA by assumption.
  split; [repeat split; apply sqrt_pos|].
  split; [intros H0; apply pB_first_order; exact H0|].
  split; [intros HI H0; apply DoLP_first_order; assumption|].
  intros HQ HU. apply AoLP_first_order; assumption.
Qed.

(** In binary64 a zero Q gives NaN, whatever the other values. *)
Lemma aolp_nan I U si sq su sg :
  let one v : arr b64 := full 1 1 v in
  get_error_on_AoLP (mkstokes (one I) (one (S754_zero sg)) (one U)) (mkstokes (one si) (one sq) (one su))
    = Ok (mkarr 1 1 (fun _ _ => S754_nan)).
Proof.
  cbv zeta. unfold get_error_on_AoLP, pixelwise. cbn [rows cols sI sQ sU full].
  unfold bdim. cbn [Z.eqb]. f_equal. unfold bcell. cbn [rows cols cell full].
  assert (E : forall v : b64, nmul (nmul (nmul (nofZ 4) (S754_zero sg)) (S754_zero sg))
                (nadd n1 (ndiv v (nmul (S754_zero sg) (S754_zero sg)))) = S754_nan).
  { intros v. destruct sg, v as [[]|[]| |[] m ex]; vm_compute; reflexivity. }
  rewrite E. cbn [nmul Num_b64 SFmul].
  match goal with |- context [ndiv ?a S754_nan] => replace (ndiv a S754_nan) with (S754_nan : b64) end.
  - reflexivity.
  - match goal with |- _ = ndiv ?a _ => destruct a end; reflexivity.
Qed.
