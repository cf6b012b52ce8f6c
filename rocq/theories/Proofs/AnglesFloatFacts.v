(** Normalisation of arrays of binary64 angles (C120). *)
From Coq Require Import ZArith Reals Lra Lia Floats.SpecFloat.
From Flocq Require Import Core Relative BinarySingleNaN.
From Verif Require Import Base.Base Base.Num Base.BaseFacts Model.Angles Model.AnglesFloat Spec.Terminates Spec.AngleSpec Spec.AngleArraySpec Spec.FloatSpec
  Proofs.AngleFacts Proofs.FloatFacts Proofs.ExactFacts Proofs.RoundFacts.
Local Open Scope R_scope.

#[local] Existing Instance Hprec.
#[local] Existing Instance Hmax.
#[local] Existing Instance fexp64_valid.
#[local] Existing Instance fexp64_mono.

(** ** Arrays: every cell runs its own loop *)
Lemma array_loop {A} (p : A -> bool) (f : A -> A) : forall n (a : arr A) (w : Z -> Z -> A),
  (forall y x, (0 <= y < rows a)%Z -> (0 <= x < cols a)%Z -> while_loop n p f (cell a y x) = Ok (w y x)) ->
  exists b, while_loop n (aany p) (amap (fun v => if p v then f v else v)) a = Ok b /\ rows b = rows a /\ cols b = cols a /\
    forall y x, (0 <= y < rows a)%Z -> (0 <= x < cols a)%Z -> cell b y x = w y x.
Proof.
  induction n as [|n IH]; intros a w Ha; cbn [while_loop]; destruct (aany p a) eqn:Ea.
  - exfalso. assert (E : aany p a = false); [|congruence]. apply aany_false. intros y x Hy Hx. specialize (Ha y x Hy Hx). cbn [while_loop] in Ha.
    destruct (p (cell a y x)); [discriminate|reflexivity].
  - exists a. split; [reflexivity|]. split; [reflexivity|]. split; [reflexivity|]. intros y x Hy Hx. specialize (Ha y x Hy Hx). cbn [while_loop] in Ha.
    rewrite (proj1 (aany_false p a) Ea y x Hy Hx) in Ha. congruence.
  - destruct (IH (amap (fun v => if p v then f v else v) a) w) as (b & Eb & R & C & V).
    + intros y x Hy Hx. cbn [amap cell rows cols] in *. specialize (Ha y x Hy Hx). cbn [while_loop] in Ha.
      destruct (p (cell a y x)) eqn:E; [exact Ha|]. injection Ha as <-. destruct n; cbn [while_loop]; rewrite E; reflexivity.
    + exists b. split; [exact Eb|]. split; [exact R|]. split; [exact C|exact V].
  - exists a. split; [reflexivity|]. split; [reflexivity|]. split; [reflexivity|]. intros y x Hy Hx. specialize (Ha y x Hy Hx). cbn [while_loop] in Ha.
    rewrite (proj1 (aany_false p a) Ea y x Hy Hx) in Ha. congruence.
Qed.

Lemma loop_more {A} (p : A -> bool) f : forall n m v w, while_loop n p f v = Ok w -> (n <= m)%nat -> while_loop m p f v = Ok w.
Proof.
  induction n as [|n IH]; intros m v w E L.
  - destruct m; cbn [while_loop] in *; destruct (p v); (discriminate || exact E).
  - destruct m as [|m]; [lia|]. cbn [while_loop] in *. destruct (p v); [apply IH; [exact E|lia]|exact E].
Qed.
Lemma loop_ends {A} (p : A -> bool) f n v w : while_loop n p f v = Ok w -> p w = false.
Proof. revert v. induction n as [|n IH]; intros v E; cbn [while_loop] in E; destruct (p v) eqn:P; try discriminate; [congruence|apply (IH _ E)|congruence]. Qed.

Lemma array_stuck {A} (p : A -> bool) (f : A -> A) (J : A -> Prop) a y x : (0 <= y < rows a)%Z -> (0 <= x < cols a)%Z -> J (cell a y x) ->
  (forall v, J v -> p v = true /\ J (f v)) -> forall fuel, while_loop fuel (aany p) (amap (fun v => if p v then f v else v)) a = NoFuel.
Proof.
  intros Hy Hx H0 HJ fuel.
  apply (while_diverges (fun b => rows b = rows a /\ cols b = cols a /\ J (cell b y x))); [auto|].
  intros b (R & C & Jb). destruct (HJ _ Jb) as (Pb & Jf). split.
  - destruct (aany p b) eqn:E; [reflexivity|]. rewrite (proj1 (aany_false p b) E y x) in Pb by (rewrite ?R, ?C; assumption). discriminate.
  - cbn [amap rows cols cell]. rewrite Pb. auto.
Qed.

(** ** Numbers *)
Lemma ltb_value x y r s : is_value x r -> is_value y s -> nltb x y = Rlt_bool r s.
Proof.
  intros Vx Vy. destruct (B_value x _ Vx) as (bx & -> & Fx & <-). destruct (B_value y _ Vy) as (b' & -> & Fy & <-).
  apply (Bltb_correct prec emax bx b' Fx Fy).
Qed.
Lemma leb_value x y r s : is_value x r -> is_value y s -> nleb x y = Rle_bool r s.
Proof.
  intros Vx Vy. destruct (B_value x _ Vx) as (bx & -> & Fx & <-). destruct (B_value y _ Vy) as (b' & -> & Fy & <-).
  apply (Bleb_correct prec emax bx b' Fx Fy).
Qed.

Notation p := (fval pi64).
Lemma p_val : p = 7074237752028440 / 2251799813685248.
Proof. unfold pi64. cbn [fval]. rewrite <- (bpow_powerRZ radix2). cbn -[IZR]. lra. Qed.
Lemma p_bounds : 3.14 < p < 3.15.
Proof. rewrite p_val. lra. Qed.
Lemma pi_value : is_value pi64 p.
Proof. repeat split. Qed.
Lemma half_pi_value : is_value half_pi64 (p / 2).
Proof. split; [reflexivity|]. split; [exact I|]. rewrite p_val. unfold half_pi64. cbn [fval]. rewrite <- (bpow_powerRZ radix2). cbn -[IZR]. lra. Qed.
Lemma minus_half_pi_value : is_value minus_half_pi64 (- (p / 2)).
Proof. split; [reflexivity|]. split; [exact I|]. rewrite p_val. unfold minus_half_pi64. cbn [fval]. rewrite <- (bpow_powerRZ radix2). cbn -[IZR]. lra. Qed.

Notation edge := (bpow radix2 55).
Lemma edge_val : edge = 36028797018963968.
Proof. reflexivity. Qed.

Lemma rnd_two x : Rabs x < edge -> Rabs (rnd x - x) <= 2.
Proof.
  intros Hx. apply Rle_trans with (/ 2 * ulp radix2 fexp64 x); [apply error_le_half_ulp; typeclasses eauto|].
  enough (ulp radix2 fexp64 x <= bpow radix2 2) by (change (bpow radix2 2) with 4 in *; lra).
  destruct (Req_dec x 0) as [->|Hnz].
  - unfold ulp. rewrite Req_bool_true by reflexivity. destruct (negligible_exp_spec' fexp64) as [[_ H]|(n & H1 & H2)].
    + exfalso. specialize (H (-2000)%Z). unfold SpecFloat.fexp, SpecFloat.emin in H. lia.
    + rewrite H1. apply bpow_le. unfold SpecFloat.fexp, SpecFloat.emin in *. lia.
  - rewrite ulp_neq_0 by exact Hnz. apply bpow_le. unfold cexp.
    assert (Hm : (mag radix2 x <= 55)%Z) by (apply mag_le_bpow; assumption). unfold SpecFloat.fexp, SpecFloat.emin. lia.
Qed.

Lemma rnd_same r : generic_format radix2 fexp64 r -> rnd r = r.
Proof. intros F. apply round_generic; [typeclasses eauto|exact F]. Qed.

(** one step down *)
Lemma down_step r : generic_format radix2 fexp64 r -> p / 2 < r ->
  - (p / 2) <= rnd (r - p) <= r /\ Rabs (rnd (r - p) - (r - p)) <= u * r /\ (r <= edge -> rnd (r - p) <= r - 1).
Proof.
  intros F Hr. pose proof p_bounds as P.
  assert (L : - (p / 2) <= rnd (r - p)).
  { rewrite <- (rnd_same (- (p / 2)) (value_fmt _ _ minus_half_pi_value)). apply rnd_mono. lra. }
  assert (M : rnd (r - p) <= r) by (rewrite <- (rnd_same r F) at 2; apply rnd_mono; lra).
  split; [lra|]. split.
  - apply Rle_trans with (1 := rnd_sum r (- p) F (generic_format_opp _ _ _ (value_fmt _ _ pi_value))). apply Rmult_le_compat_l; [apply bpow_ge_0|].
    apply Rabs_le. lra.
  - intros He. rewrite edge_val in He. assert (K : Rabs (r - p) < edge) by (rewrite edge_val; apply Rabs_def1; lra).
    pose proof (rnd_two (r - p) K) as E. apply Rabs_le_inv in E. lra.
Qed.
Lemma stuck r : generic_format radix2 fexp64 r -> edge < r -> rnd (r - p) = r.
Proof.
  intros F Hx. pose proof p_bounds as P. pose proof (bpow_gt_0 radix2 55) as B0.
  assert (Hp : edge <= pred radix2 fexp64 r) by (apply pred_ge_gt; [typeclasses eauto|apply fmt_bpow; lia|exact F|exact Hx]).
  assert (Hu : 8 <= ulp radix2 fexp64 (pred radix2 fexp64 r)).
  { rewrite ulp_neq_0 by lra. replace 8 with (bpow radix2 3) by (cbn; lra). apply bpow_le. unfold cexp.
    assert (Hm : (56 <= mag radix2 (pred radix2 fexp64 r))%Z) by (apply mag_ge_bpow; rewrite Rabs_pos_eq by lra; exact Hp).
    revert Hm. generalize (mag_val radix2 _ (mag radix2 (pred radix2 fexp64 r))). intros m Hm. unfold SpecFloat.fexp, SpecFloat.emin. lia. }
  assert (Hs : pred radix2 fexp64 r + ulp radix2 fexp64 (pred radix2 fexp64 r) = r).
  { rewrite <- succ_eq_pos by lra. apply succ_pred; [typeclasses eauto|exact F]. }
  apply Rle_antisym.
  - rewrite <- (rnd_same r F) at 2. apply rnd_mono. lra.
  - apply round_N_ge_midp; [typeclasses eauto|exact F|]. lra.
Qed.

Lemma finite_small x r : is_value x r -> Rabs r < top.
Proof. intros V. destruct (B_value x r V) as (b & _ & _ & <-). apply abs_B2R_lt_emax. Qed.

Lemma sub_pi x r : is_value x r -> p / 2 < r -> is_value (x -! pi64) (rnd (r - p)).
Proof.
  intros V Hr. apply sub_value; [exact V|apply pi_value|]. destruct (down_step r (value_fmt _ _ V) Hr) as (B & _).
  pose proof (finite_small x r V) as S. pose proof p_bounds. apply Rabs_def2 in S. apply Rabs_def1; lra.
Qed.
Lemma add_pi x r : is_value x r -> r <= - (p / 2) -> is_value (x +! pi64) (- rnd (- r - p)).
Proof.
  intros V Hr. rewrite <- rnd_opp. replace (- (- r - p)) with (r + p) by ring. apply add_value; [exact V|apply pi_value|].
  pose proof (finite_small x r V) as S. pose proof (finite_small _ _ half_pi_value) as S2. pose proof p_bounds. apply Rabs_def2 in S, S2.
  assert (U : rnd (r + p) <= p / 2) by (rewrite <- (rnd_same (p / 2) (value_fmt _ _ half_pi_value)); apply rnd_mono; lra).
  assert (L : r <= rnd (r + p)) by (rewrite <- (rnd_same r (value_fmt _ _ V)) at 1; apply rnd_mono; lra).
  apply Rabs_def1; lra.
Qed.

Notation cond1 := (fun v : b64 => nltb half_pi64 v).
Notation body1 := (fun v : b64 => v -! pi64).
Notation cond2 := (fun v : b64 => nleb v minus_half_pi64).
Notation body2 := (fun v : b64 => v +! pi64).

Lemma down n : forall x r, is_value x r -> r <= p / 2 + INR n -> r <= edge ->
  exists y s k, while_loop n cond1 body1 x = Ok y /\ is_value y s /\ s <= p / 2 /\ (r <= p / 2 -> s = r /\ k = 0%nat) /\ (p / 2 < r -> - (p / 2) <= s) /\
    Rabs (s - (r - INR k * p)) <= INR k * (u * Rabs r).
Proof.
  induction n as [|n IH]; intros x r V Hr He; cbn [while_loop]; rewrite (ltb_value _ _ _ _ half_pi_value V).
  - cbn [INR] in Hr. rewrite Rlt_bool_false by lra. exists x, r, 0%nat. cbn [INR].
    split; [reflexivity|]. split; [exact V|]. split; [lra|]. split; [auto|]. split; [lra|]. rewrite Rmult_0_l, Rminus_0_r, Rminus_eq_0, Rabs_R0. lra.
  - destruct (Rle_lt_dec r (p / 2)) as [Hle|Hlt].
    + rewrite Rlt_bool_false by lra. exists x, r, 0%nat. cbn [INR].
      split; [reflexivity|]. split; [exact V|]. split; [lra|]. split; [auto|]. split; [lra|]. rewrite Rmult_0_l, Rminus_0_r, Rminus_eq_0, Rabs_R0. lra.
    + rewrite Rlt_bool_true by lra. rewrite S_INR in Hr. destruct (down_step r (value_fmt _ _ V) Hlt) as (B & E & D). specialize (D He).
      destruct (IH _ _ (sub_pi x r V Hlt)) as (y & s & k & L & Vs & S1 & S2 & S3 & S4); [lra|lra|]. set (r' := rnd (r - p)) in *.
      exists y, s, (S k). split; [exact L|]. split; [exact Vs|]. split; [exact S1|]. split; [lra|]. split.
      * intros _. destruct (Rle_lt_dec r' (p / 2)) as [H|H]; [destruct (S2 H) as (-> & _); lra|apply S3, H].
      * rewrite S_INR. pose proof p_bounds as P. rewrite (Rabs_pos_eq r) by lra. pose proof (pos_INR k) as K0. pose proof u_half as U.
        assert (A : Rabs r' <= r) by (apply Rabs_le; lra).
        assert (Q : INR k * (u * Rabs r') <= INR k * (u * r)) by (apply Rmult_le_compat_l; [exact K0|apply Rmult_le_compat_l; lra]).
        apply Rabs_le_inv in S4, E. apply Rabs_le. lra.
Qed.

Lemma climb n : forall x r, is_value x r -> - (p / 2) - INR n < r -> - edge <= r -> r <= p / 2 ->
  exists y s k, while_loop n cond2 body2 x = Ok y /\ is_value y s /\ - (p / 2) < s <= p / 2 /\ (- (p / 2) < r -> k = 0%nat) /\
    Rabs (s - (r + INR k * p)) <= INR k * (u * Rabs r).
Proof.
  induction n as [|n IH]; intros x r V Hr He Hm; cbn [while_loop]; rewrite (leb_value _ _ _ _ V minus_half_pi_value).
  - cbn [INR] in Hr. rewrite Rle_bool_false by lra. exists x, r, 0%nat. cbn [INR].
    split; [reflexivity|]. split; [exact V|]. split; [lra|]. split; [auto|]. rewrite Rmult_0_l, Rplus_0_r, Rminus_eq_0, Rabs_R0. lra.
  - destruct (Rlt_le_dec (- (p / 2)) r) as [Hlt|Hle].
    + rewrite Rle_bool_false by lra. exists x, r, 0%nat. cbn [INR].
      split; [reflexivity|]. split; [exact V|]. split; [lra|]. split; [auto|]. rewrite Rmult_0_l, Rplus_0_r, Rminus_eq_0, Rabs_R0. lra.
    + rewrite Rle_bool_true by lra. rewrite S_INR in Hr. pose proof p_bounds as P. pose proof (add_pi x r V Hle) as V'.
      assert (F' : generic_format radix2 fexp64 (- r)) by (apply generic_format_opp, (value_fmt _ _ V)).
      assert (Bs : - (p / 2) <= rnd (- r - p) <= - r /\ Rabs (rnd (- r - p) - (- r - p)) <= u * (- r) /\ rnd (- r - p) <= - r - 1).
      { destruct (Rle_lt_dec (- r) (p / 2)) as [Q|Q].
        - assert (r = - (p / 2)) as -> by lra. replace (- - (p / 2) - p) with (- (p / 2)) by lra.
          rewrite (rnd_same _ (value_fmt _ _ minus_half_pi_value)). replace (- (p / 2) - - (p / 2)) with 0 by ring. rewrite Rabs_R0.
          pose proof u_half. split; [lra|]. split; [apply Rmult_le_pos; lra|lra].
        - destruct (down_step (- r) F' Q) as (B & E & D). specialize (D ltac:(lra)). split; [exact B|]. split; [exact E|exact D]. }
      destruct Bs as (B & E & D). set (r' := rnd (- r - p)) in *.
      destruct (IH _ _ V') as (y & s & k & L & Vs & S1 & S2 & S4); [lra|lra|lra|].
      exists y, s, (S k). split; [exact L|]. split; [exact Vs|]. split; [exact S1|]. split; [lra|].
      rewrite S_INR. rewrite (Rabs_left1 r) by lra. pose proof (pos_INR k) as K0. pose proof u_half as U.
      assert (A : Rabs (- r') <= - r) by (apply Rabs_le; lra).
      assert (Q : INR k * (u * Rabs (- r')) <= INR k * (u * - r)) by (apply Rmult_le_compat_l; [exact K0|apply Rmult_le_compat_l; lra]).
      apply Rabs_le_inv in S4, E. apply Rabs_le. lra.
Qed.

(** ** One angle *)
Definition fuel0 : nat := Z.to_nat (up edge).
Lemma fuel0_ge : edge <= INR fuel0.
Proof.
  unfold fuel0. rewrite INR_IZR_INZ. destruct (archimed edge) as [A _]. pose proof (bpow_gt_0 radix2 55).
  rewrite Z2Nat.id; [lra|]. apply le_IZR. lra.
Qed.

Definition keeps (x y : b64) : Prop :=
  match x with
  | S754_nan => y = S754_nan
  | _ => (- (p / 2) < fval x <= p / 2 -> y = x) /\ is_binary64 y /\ finite64 y /\ - (p / 2) < fval y <= p / 2 /\
         exists n : Z, Rabs (fval y - (fval x + IZR n * p)) <= (IZR (Z.abs n) + 2) * (u * Rabs (fval x))
  end.

Lemma cases64 (x : b64) : is_binary64 x -> {x = S754_nan} + {exists s, x = S754_infinity s} + {finite64 x}.
Proof. intros _. destruct x as [s|s| |s m e]; [right; exact I|left; right; exists s; reflexivity|left; left; reflexivity|right; exact I]. Qed.

Lemma one_angle (x : b64) : is_binary64 x -> x = S754_nan \/ (finite64 x /\ Rabs (fval x) <= edge) ->
  exists y z, while_loop fuel0 cond1 body1 x = Ok y /\ while_loop fuel0 cond2 body2 y = Ok z /\ keeps x z.
Proof.
  intros Bx [->|(Fx & Hx)].
  - exists S754_nan, S754_nan. split; [|split; [|reflexivity]]; destruct fuel0; reflexivity.
  - assert (V : is_value x (fval x)) by (split; [exact Bx|split; [exact Fx|reflexivity]]).
    set (r := fval x) in *. pose proof p_bounds as P. pose proof fuel0_ge as G. apply Rabs_le_inv in Hx.
    assert (K : forall z, (- (p / 2) < r <= p / 2 -> z = x) -> is_binary64 z -> finite64 z -> - (p / 2) < fval z <= p / 2 ->
       (exists n : Z, Rabs (fval z - (r + IZR n * p)) <= (IZR (Z.abs n) + 2) * (u * Rabs r)) -> keeps x z).
    { intros z K1 K2 K3 K4 K5. unfold keeps. fold r. destruct x; try (repeat split; assumption || apply K4). exfalso. exact Fx. }
    destruct (down fuel0 x r V) as (y & s & k & L & Vs & S1 & S2 & S3 & S4); [lra|lra|].
    assert (Hs : - edge <= s).
    { destruct (Rle_lt_dec r (p / 2)) as [H|H]; [destruct (S2 H) as (-> & _); lra|specialize (S3 H); rewrite edge_val; lra]. }
    destruct (climb fuel0 y s Vs) as (z & t & m & L2 & Vt & T1 & T2 & T4); [lra|lra|lra|].
    exists y, z. split; [exact L|]. split; [exact L2|]. destruct Vt as (Bz & Fz & Ez). apply K; [|exact Bz|exact Fz|rewrite Ez; lra|].
    + intros Hr. assert (E1 : cond1 x = false) by (cbv beta; rewrite (ltb_value _ _ _ _ half_pi_value V); apply Rlt_bool_false; lra).
      assert (E2 : cond2 x = false) by (cbv beta; rewrite (leb_value _ _ _ _ V minus_half_pi_value); apply Rle_bool_false; lra).
      assert (y = x) as ->. { clear - L E1. destruct fuel0; cbn [while_loop] in L; cbv beta in E1; rewrite E1 in L; congruence. }
      clear - L2 E2. destruct fuel0; cbn [while_loop] in L2; cbv beta in E2; rewrite E2 in L2; congruence.
    + rewrite Ez. pose proof u_half as U. destruct (Rle_lt_dec r (p / 2)) as [H|H].
      * destruct (S2 H) as (-> & ->). exists (Z.of_nat m). rewrite Z.abs_eq by lia. rewrite <- INR_IZR_INZ.
        apply Rle_trans with (1 := T4). apply Rmult_le_compat_r; [apply Rmult_le_pos; [lra|apply Rabs_pos]|lra].
      * specialize (S3 H). assert (Hm : (m = 0 \/ m = 1)%nat).
        { clear - T2 S3 S1 T4 T1 P U. destruct (Rlt_le_dec (- (p / 2)) s) as [Q|Q]; [left; auto|].
          assert (s = - (p / 2)) as -> by lra. destruct m as [|[|m]]; [auto|auto|]. exfalso. rewrite (Rabs_left (- (p / 2))) in T4 by lra.
          rewrite !S_INR in T4. pose proof (pos_INR m) as M0. apply Rabs_le_inv in T4.
          assert (Q1 : (INR m + 1 + 1) * (u * - - (p / 2)) <= (INR m + 1 + 1) * (/ 2 * (p / 2))).
          { apply Rmult_le_compat_l; [lra|]. rewrite Ropp_involutive. apply Rmult_le_compat_r; lra. }
          assert (Q2 : 0 <= INR m * p) by (apply Rmult_le_pos; lra). lra. }
        destruct (Req_dec (INR k) 0) as [Zk|Nk].
        { exfalso. rewrite Zk, !Rmult_0_l, Rminus_0_r in S4. apply Rabs_le_inv in S4. lra. }
        assert (K1 : (1 <= k)%nat) by (destruct k; [exfalso; apply Nk; reflexivity|lia]).
        assert (As : Rabs s <= r) by (apply Rabs_le; lra). assert (Q : u * Rabs s <= u * r) by (apply Rmult_le_compat_l; lra).
        rewrite (Rabs_pos_eq r) in * by lra. assert (Q0 : 0 <= u * r) by (apply Rmult_le_pos; lra).
        exists (- Z.of_nat k + Z.of_nat m)%Z. rewrite plus_IZR, opp_IZR, <- !INR_IZR_INZ.
        assert (Am : IZR (Z.abs (- Z.of_nat k + Z.of_nat m)) = INR k - INR m).
        { rewrite Z.abs_neq by (destruct Hm; lia). rewrite opp_IZR, plus_IZR, opp_IZR, <- !INR_IZR_INZ. ring. }
        rewrite Am. apply Rabs_le_inv in S4, T4. apply Rabs_le.
        destruct Hm as [-> | ->]; cbn [INR] in *; lra.
Qed.

(** ** Arrays *)
Lemma loop_same {A} (p' : A -> bool) f n v : p' v = false -> while_loop n p' f v = Ok v.
Proof. intros E. destruct n; cbn [while_loop]; rewrite E; reflexivity. Qed.

Lemma array64 (d : arr b64) :
  (forall y x, (0 <= y < rows d)%Z -> (0 <= x < cols d)%Z ->
     is_binary64 (cell d y x) /\ (cell d y x = S754_nan \/ (finite64 (cell d y x) /\ Rabs (fval (cell d y x)) <= edge))) ->
  returns (fun fuel => normalize2piarray64 fuel d) (fun b => rows b = rows d /\ cols b = cols d /\
    forall y x, (0 <= y < rows d)%Z -> (0 <= x < cols d)%Z -> keeps (cell d y x) (cell b y x)).
Proof.
  intros Hd.
  set (w1 := fun y x => match while_loop fuel0 cond1 body1 (cell d y x) with Ok v => v | _ => S754_nan end).
  assert (W1 : forall y x, (0 <= y < rows d)%Z -> (0 <= x < cols d)%Z -> while_loop fuel0 cond1 body1 (cell d y x) = Ok (w1 y x)).
  { intros y x Hy Hx. destruct (Hd y x Hy Hx) as (B & C). destruct (one_angle _ B C) as (v & z & E & _). unfold w1. rewrite E. reflexivity. }
  destruct (array_loop cond1 body1 fuel0 d w1 W1) as (a & Ea & Ra & Ca & Va).
  set (w2 := fun y x => match while_loop fuel0 cond2 body2 (cell a y x) with Ok v => v | _ => S754_nan end).
  assert (W2 : forall y x, (0 <= y < rows a)%Z -> (0 <= x < cols a)%Z ->
    while_loop fuel0 cond2 body2 (cell a y x) = Ok (w2 y x) /\ keeps (cell d y x) (w2 y x)).
  { intros y x Hy Hx. rewrite Ra in Hy. rewrite Ca in Hx. destruct (Hd y x Hy Hx) as (B & C). destruct (one_angle _ B C) as (v & z & E & F & G).
    unfold w2. rewrite (Va y x Hy Hx). assert (w1 y x = v) as -> by (rewrite (W1 y x Hy Hx) in E; congruence). rewrite F. split; [reflexivity|exact G]. }
  destruct (array_loop cond2 body2 fuel0 a w2 (fun y x Hy Hx => proj1 (W2 y x Hy Hx))) as (b & Eb & Rb & Cb & Vb).
  exists b. split.
  - split; [congruence|]. split; [congruence|]. intros y x Hy Hx. rewrite <- Ra in Hy. rewrite <- Ca in Hx. rewrite (Vb y x Hy Hx). apply (W2 y x Hy Hx).
  - exists fuel0. intros fuel L. unfold normalize2piarray64.
    rewrite (loop_more _ _ _ fuel _ _ Ea L). cbn [bind]. apply (loop_more _ _ _ fuel _ _ Eb L).
Qed.

Definition too_big (v : b64) : Prop := (exists s, v = S754_infinity s) \/ (is_binary64 v /\ finite64 v /\ edge < Rabs (fval v)).
Definition stuck_up (v : b64) : Prop := v = S754_infinity false \/ exists r, is_value v r /\ edge < r.
Definition stuck_down (v : b64) : Prop := v = S754_infinity true \/ exists r, is_value v r /\ r < - edge.

Lemma too_big_cases v : too_big v -> stuck_up v \/ stuck_down v.
Proof.
  intros [([|] & ->)|(B & F & H)]; [right; left; reflexivity|left; left; reflexivity|].
  assert (V : is_value v (fval v)) by (split; [exact B|split; [exact F|reflexivity]]).
  destruct (Rle_lt_dec 0 (fval v)) as [S|S].
  - left. right. exists (fval v). rewrite Rabs_pos_eq in H by lra. auto.
  - right. right. exists (fval v). rewrite Rabs_left in H by lra. split; [exact V|lra].
Qed.
Lemma stuck_up_step v : stuck_up v -> cond1 v = true /\ stuck_up (body1 v).
Proof.
  intros [->|(r & V & H)]; [split; [reflexivity|left; reflexivity]|]. pose proof p_bounds as P. rewrite edge_val in H. split.
  - cbv beta. rewrite (ltb_value _ _ _ _ half_pi_value V). apply Rlt_bool_true. lra.
  - right. exists r. split; [|rewrite edge_val; exact H]. rewrite <- (stuck r (value_fmt _ _ V)) by (rewrite edge_val; exact H). apply sub_pi; [exact V|lra].
Qed.
Lemma stuck_down_step v : stuck_down v -> cond2 v = true /\ stuck_down (body2 v).
Proof.
  intros [->|(r & V & H)]; [split; [reflexivity|left; reflexivity]|]. pose proof p_bounds as P. rewrite edge_val in H. split.
  - cbv beta. rewrite (leb_value _ _ _ _ V minus_half_pi_value). apply Rle_bool_true. lra.
  - right. exists r. split; [|rewrite edge_val; exact H].
    pose proof (stuck (- r) (generic_format_opp _ _ _ (value_fmt _ _ V))) as E. rewrite edge_val in E. specialize (E ltac:(lra)).
    replace r with (- rnd (- r - p)) by lra. apply add_pi; [exact V|lra].
Qed.
Lemma stuck_down_first v : stuck_down v -> cond1 v = false.
Proof.
  intros [->|(r & V & H)]; [reflexivity|]. pose proof p_bounds as P. rewrite edge_val in H.
  cbv beta. rewrite (ltb_value _ _ _ _ half_pi_value V). apply Rlt_bool_false. lra.
Qed.

Lemma array_keeps {A} (p' : A -> bool) (f : A -> A) y x : forall n (a b : arr A),
  while_loop n (aany p') (amap (fun v => if p' v then f v else v)) a = Ok b -> p' (cell a y x) = false ->
  rows b = rows a /\ cols b = cols a /\ cell b y x = cell a y x.
Proof.
  induction n as [|n IH]; intros a b E F; cbn [while_loop] in E; destruct (aany p' a); try discriminate; try (injection E as <-; auto).
  destruct (IH _ _ E) as (R & C & V); cbn [amap rows cols cell] in *; rewrite F in *; auto.
Qed.

Lemma never64 (d : arr b64) y x : (0 <= y < rows d)%Z -> (0 <= x < cols d)%Z -> too_big (cell d y x) ->
  never_returns (fun fuel => normalize2piarray64 fuel d).
Proof.
  intros Hy Hx H fuel. unfold normalize2piarray64. destruct (too_big_cases _ H) as [S|S].
  - rewrite (array_stuck cond1 body1 stuck_up d y x Hy Hx S stuck_up_step). reflexivity.
  - match goal with |- bind ?t _ = _ => destruct t as [a|e|] eqn:E end; [|exfalso|reflexivity].
    + cbn [bind]. destruct (array_keeps cond1 body1 y x _ _ _ E (stuck_down_first _ S)) as (R & C & V).
      apply (array_stuck cond2 body2 stuck_down a y x); [congruence..|congruence|exact stuck_down_step].
    + clear - E. revert d E. induction fuel as [|n IH]; intros d E; cbn [while_loop] in E; destruct (aany cond1 d); try discriminate. apply (IH _ E).
Qed.

(** ** C120 *)
Lemma p_spec : p = pi_float.
Proof. rewrite p_val. unfold pi_float. lra. Qed.
Lemma keeps_spec v w : keeps v w -> reduced64 v w.
Proof. unfold keeps, reduced64. rewrite p_spec. destruct v; exact (fun H => H). Qed.

Lemma c120_returns (d : arr b64) : (forall y x, (0 <= y < rows d)%Z -> (0 <= x < cols d)%Z -> reducible (cell d y x)) ->
  returns (fun fuel => normalize2piarray64 fuel d) (fun b => rows b = rows d /\ cols b = cols d /\
    forall y x, (0 <= y < rows d)%Z -> (0 <= x < cols d)%Z -> reduced64 (cell d y x) (cell b y x)).
Proof.
  intros Hd. destruct (array64 d Hd) as (b & (R & C & K) & E). exists b. split; [|exact E].
  split; [exact R|]. split; [exact C|]. intros y x Hy Hx. apply keeps_spec, K; assumption.
Qed.
Lemma c120_never (d : arr b64) y x : (0 <= y < rows d)%Z -> (0 <= x < cols d)%Z -> irreducible (cell d y x) ->
  never_returns (fun fuel => normalize2piarray64 fuel d).
Proof. exact (never64 d y x). Qed.

(** ** Example values *)
Lemma thousand : is_value (nofZ 1000) 1000.
Proof.
  split; [reflexivity|]. split; [exact I|]. change (@nofZ b64 Num_b64 1000) with (S754_finite false 8796093022208000 (-43)). cbn [fval].
  rewrite <- (bpow_powerRZ radix2). cbn -[IZR]. lra.
Qed.
Lemma hundred_exa : is_value (nofZ (10 ^ 20)) 100000000000000000000.
Proof.
  split; [reflexivity|]. split; [exact I|]. change (@nofZ b64 Num_b64 (10 ^ 20)) with (S754_finite false 6103515625000000 14). cbn [fval].
  rewrite <- (bpow_powerRZ radix2). cbn -[IZR]. lra.
Qed.
