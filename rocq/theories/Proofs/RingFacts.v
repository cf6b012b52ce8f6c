(** The radial filter in binary64 (C132). *)
From Coq Require Import ZArith Reals Lra Lia Permutation Floats.SpecFloat.
From Flocq Require Import Core Relative BinarySingleNaN.
From Verif Require Import Base.Base Base.BaseFacts Base.Num Model.MeanFloat Model.NrgfFloat Spec.AngleSpec Spec.FloatSpec Spec.SumSpec Spec.CleanSpec
  Spec.CorrectSpec Spec.MeanSpec Spec.RingSpec
  Spec.RoiSpec Proofs.NrgfFacts
  Proofs.CleanFacts Proofs.FilesFacts Proofs.FloatFacts Proofs.ExactFacts Proofs.RoundFacts Proofs.RoundPol Proofs.AnglesFloatFacts Proofs.CorrectFloatFacts Proofs.MeanFacts.
Local Open Scope R_scope.

#[local] Existing Instance Hprec.
#[local] Existing Instance Hmax.
#[local] Existing Instance fexp64_valid.
#[local] Existing Instance fexp64_mono.

(** ** Relative errors *)
Definition rel (a x r : R) : Prop := Rabs (x - r) <= a * Rabs r.
Lemma rel_trans a b x y r : 0 <= a -> rel a x r -> rel b y x -> 0 <= b -> rel (a + b + a * b) y r.
Proof.
  unfold rel. intros Ha H1 H2 Hb. replace (y - r) with ((y - x) + (x - r)) by ring.
  apply Rle_trans with (1 := Rabs_triang _ _).
  assert (X : Rabs x <= (1 + a) * Rabs r).
  { replace x with ((x - r) + r) by ring. apply Rle_trans with (1 := Rabs_triang _ _). lra. }
  pose proof (Rmult_le_compat_l b _ _ Hb X). lra.
Qed.
Lemma rel_weak a b x r : a <= b -> rel a x r -> rel b x r.
Proof. unfold rel. intros H K. apply Rle_trans with (1 := K), Rmult_le_compat_r; [apply Rabs_pos|exact H]. Qed.
Lemma rel_sqrt a x r : 0 <= r -> 0 <= x -> 0 <= a -> rel a x r -> rel a (sqrt x) (sqrt r).
Proof.
  unfold rel. intros Hr Hx Ha H. destruct Hr as [Hr|<-].
  - pose proof (sqrt_lt_R0 r Hr) as S. pose proof (sqrt_pos x) as S'. rewrite (Rabs_pos_eq (sqrt r)) by lra. rewrite (Rabs_pos_eq r) in H by lra.
    assert (E : (sqrt x - sqrt r) * (sqrt x + sqrt r) = x - r).
    { replace ((sqrt x - sqrt r) * (sqrt x + sqrt r)) with (sqrt x * sqrt x - sqrt r * sqrt r) by ring. rewrite !sqrt_sqrt by lra. reflexivity. }
    apply Rmult_le_reg_r with (sqrt x + sqrt r); [lra|]. rewrite <- (Rabs_pos_eq (sqrt x + sqrt r)) at 1 by lra. rewrite <- Rabs_mult, E.
    apply Rle_trans with (1 := H). rewrite <- (sqrt_sqrt r) at 1 by lra.
    replace (a * sqrt r * (sqrt x + sqrt r)) with (a * (sqrt r * sqrt r) + a * sqrt r * sqrt x) by ring.
    assert (0 <= a * sqrt r * sqrt x) by (repeat apply Rmult_le_pos; lra). lra.
  - rewrite Rabs_R0, Rmult_0_r, Rminus_0_r in H. assert (x = 0) as -> by (destruct (Req_dec x 0) as [E|E]; [exact E|apply Rabs_pos_lt in E; lra]).
    rewrite sqrt_0, Rabs_R0, Rminus_0_r, Rabs_R0. lra.
Qed.
Lemma rel_div a d s r : 0 < r -> 0 <= a <= / 2 -> rel a s r -> rel (2 * a) (d / s) (d / r).
Proof.
  unfold rel. intros Hr Ha H. rewrite (Rabs_pos_eq r) in H by lra. pose proof H as H'. apply Rabs_le_inv in H'.
  assert (a * r <= / 2 * r) by (apply Rmult_le_compat_r; lra). assert (S : r / 2 <= s) by lra.
  assert (E : d / s - d / r = d / r * ((r - s) / s)) by (field; lra). rewrite E, Rabs_mult, (Rmult_comm (2 * a)).
  apply Rmult_le_compat_l; [apply Rabs_pos|]. unfold Rdiv. rewrite Rabs_mult, Rabs_inv, (Rabs_pos_eq s) by lra.
  rewrite Rabs_minus_sym. apply Rmult_le_reg_r with s; [lra|]. rewrite Rmult_assoc, Rinv_l, Rmult_1_r by lra.
  apply Rle_trans with (1 := H). replace (a * r) with (2 * a * (r / 2)) by field. apply Rmult_le_compat_l; lra.
Qed.

(** ** Distances *)
Lemma root_floor (q r : Z) : (0 <= r)%Z -> (0 <= q)%Z -> (sqrt (IZR q) <= IZR r <-> (q <= r * r)%Z).
Proof.
  intros Hr Hq. apply IZR_le in Hr. apply IZR_le in Hq. split.
  - intros H. apply le_IZR. rewrite mult_IZR. rewrite <- (sqrt_sqrt (IZR q)) by exact Hq. pose proof (sqrt_pos (IZR q)). apply Rmult_le_compat; assumption.
  - intros H. rewrite <- (sqrt_square (IZR r)) by exact Hr. apply sqrt_le_1_alt. rewrite <- mult_IZR. apply IZR_le, H.
Qed.
Lemma int_fmt z : (Z.abs z < 2 ^ 53)%Z -> generic_format radix2 fexp64 (IZR z).
Proof. intros H. rewrite <- fixed_0. apply fixed_fmt; [exact H|lia]. Qed.
Lemma rnd_root (q r : Z) : (0 <= r < 2 ^ 25)%Z -> (0 <= q)%Z -> (rnd (sqrt (IZR q)) <= IZR r <-> (q <= r * r)%Z).
Proof.
  intros Hr Hq. rewrite <- (root_floor q r) by lia. split; intros H.
  - destruct (Rle_or_lt (sqrt (IZR q)) (IZR r)) as [K|K]; [exact K|exfalso].
    assert (Q : (r * r + 1 <= q)%Z).
    { destruct (Z_le_gt_dec (r * r + 1) q) as [L|L]; [exact L|exfalso]. apply Rlt_not_le in K. apply K, root_floor; lia. }
    (* r + 2^-27 lies between *)
    set (t := fixed (r * 2 ^ 27 + 1) 27).
    assert (T : t = IZR r + bpow radix2 (-27)).
    { unfold t, fixed. rewrite plus_IZR, mult_IZR. change (bpow radix2 (Z.opp 27)) with (/ 134217728). change (bpow radix2 (-27)) with (/ 134217728). change (IZR (2 ^ 27)) with 134217728. field. }
    assert (B : 0 < bpow radix2 (-27)) by apply bpow_gt_0.
    assert (R0 : 0 <= IZR r) by (apply IZR_le; lia).
    assert (S : t <= sqrt (IZR q)).
    { rewrite <- (sqrt_square t) by (rewrite T; lra). apply sqrt_le_1_alt. apply Rle_trans with (IZR (r * r + 1)); [|apply IZR_le, Q].
      rewrite plus_IZR, mult_IZR, T. assert (R1 : IZR r <= bpow radix2 25) by (rewrite <- (IZR_Zpower radix2 25) by lia; apply IZR_le; change (radix2 ^ 25)%Z with (2 ^ 25)%Z; lia).
      assert (P : IZR r * bpow radix2 (-27) <= bpow radix2 (-2)).
      { apply Rle_trans with (bpow radix2 25 * bpow radix2 (-27)); [apply Rmult_le_compat_r; lra|]. rewrite <- bpow_plus. apply Rle_refl. }
      assert (P2 : bpow radix2 (-27) * bpow radix2 (-27) <= bpow radix2 (-2)) by (rewrite <- bpow_plus; apply bpow_le; lia).
      change (bpow radix2 (-2)) with (/ 4) in *. lra. }
    apply rnd_mono in S. rewrite (rnd_same t) in S by (apply fixed_fmt; lia). lra.
  - rewrite <- (rnd_same (IZR r)) by (apply int_fmt; lia). apply rnd_mono, H.
Qed.

(** ** Orders *)
Lemma order_map_pixels {A B} (f : A -> B) o : order_pixels (order_map f o) = map f (order_pixels o).
Proof. induction o as [v|l IHl r IHr]; cbn; [reflexivity|]. rewrite map_app, IHl, IHr. reflexivity. Qed.
Lemma order_map_depth {A B} (f : A -> B) o : depth (order_map f o) = depth o.
Proof. induction o as [v|l IHl r IHr]; cbn; [reflexivity|]. rewrite IHl, IHr. reflexivity. Qed.

(** A deviation is 0 or far from the ends of the exponent range. *)
Definition ordinary (r : R) : Prop := r = 0 \/ bpow radix2 (-450) <= Rabs r <= bpow radix2 350.

Lemma square_value x r : is_value x r -> ordinary r -> is_value (x *! x) (rnd (r * r)) /\ rel u (rnd (r * r)) (r * r) /\ 0 <= rnd (r * r) <= 2 * (r * r) /\ r * r <= bpow radix2 700.
Proof.
  intros V Ho.
  assert (B : r * r <= bpow radix2 700 /\ (r * r = 0 \/ bpow radix2 (-1022) <= Rabs (r * r))).
  { destruct Ho as [->|[L U]]; [rewrite Rmult_0_l; split; [apply bpow_ge_0|left; reflexivity]|].
    rewrite Rabs_mult. assert (E : r * r = Rabs r * Rabs r) by (rewrite <- Rabs_mult; rewrite Rabs_pos_eq; [reflexivity|apply Rle_0_sqr]). split.
    - rewrite E. change 700%Z with (350 + 350)%Z. rewrite bpow_plus. apply Rmult_le_compat; try apply Rabs_pos; exact U.
    - right. apply Rle_trans with (bpow radix2 (-450 + -450)); [apply bpow_le; lia|]. rewrite bpow_plus. apply Rmult_le_compat; try apply bpow_ge_0; exact L. }
  destruct B as [B1 B2]. pose proof (Rle_0_sqr r) as S. unfold Rsqr in S.
  pose proof (rnd_relative _ B2) as E. split; [|split; [exact E|split; [|exact B1]]].
  - apply mul_value; [exact V|exact V|]. apply rnd_huge. rewrite Rabs_pos_eq by exact S. apply Rle_trans with (1 := B1). apply bpow_le. lia.
  - rewrite (Rabs_pos_eq (r * r)) in E by exact S. pose proof u_half as [U0 U1]. assert (u * (r * r) <= / 2 * (r * r)) by (apply Rmult_le_compat_r; lra).
    apply Rabs_le_inv in E. lra.
Qed.

Lemma total_rel {A} (f g : A -> R) a l : 0 <= a -> (forall x, In x l -> 0 <= g x /\ rel a (f x) (g x)) -> 0 <= total (map g l) /\ rel a (total (map f l)) (total (map g l)).
Proof.
  intros Ha. induction l as [|x l IH]; intros H.
  - unfold total, rel; cbn. rewrite Rminus_0_r, Rabs_R0. lra.
  - cbn [map]. rewrite !total_cons. destruct (H x (or_introl eq_refl)) as [G E]. destruct (IH (fun y Hy => H y (or_intror Hy))) as [G' E'].
    unfold rel in *. rewrite (Rabs_pos_eq (g x)) in E by exact G. rewrite (Rabs_pos_eq (total (map g l))) in E' by exact G'.
    split; [lra|]. rewrite (Rabs_pos_eq (g x + _)) by lra.
    replace (f x + total (map f l) - (g x + total (map g l))) with ((f x - g x) + (total (map f l) - total (map g l))) by ring.
    apply Rle_trans with (1 := Rabs_triang _ _). lra.
Qed.
Lemma total_upto {A} (f : A -> R) b l : (forall x, In x l -> f x <= b) -> total (map f l) <= INR (length l) * b.
Proof.
  induction l as [|x l IH]; intros H; [unfold total; cbn; lra|]. cbn [map length]. rewrite total_cons, S_INR.
  pose proof (H x (or_introl eq_refl)). pose proof (IH (fun y Hy => H y (or_intror Hy))). lra.
Qed.

Lemma total_pos {A} (f : A -> R) l : (forall x, In x l -> 0 <= f x) -> 0 <= total (map f l).
Proof.
  induction l as [|x l IH]; intros H; [unfold total; cbn; lra|]. cbn [map]. rewrite total_cons.
  pose proof (H x (or_introl eq_refl)). pose proof (IH (fun y Hy => H y (or_intror Hy))). lra.
Qed.
Lemma total_member {A} (f : A -> R) l p : In p l -> (forall x, In x l -> 0 <= f x) -> f p <= total (map f l).
Proof.
  induction l as [|x l IH]; intros Ip H; [destruct Ip|]. cbn [map]. rewrite total_cons.
  pose proof (H x (or_introl eq_refl)). pose proof (total_pos f l (fun y Hy => H y (or_intror Hy))).
  destruct Ip as [->|Ip]; [lra|]. pose proof (IH Ip (fun y Hy => H y (or_intror Hy))). lra.
Qed.
Lemma total_zeros {A} (l : list A) : total (map (fun _ => 0) l) = 0.
Proof. induction l as [|x l IH]; [reflexivity|]. cbn [map]. rewrite total_cons, IH. lra. Qed.

Section Std.
  Context (o : order (Z * Z)) (d : Z * Z -> b64).
  Hypothesis D40 : (Z.of_nat (depth o) <= 2 ^ 40)%Z.
  Let ps := order_pixels o.
  Let n := Z.of_nat (length ps).
  Hypothesis N50 : (1 <= n < 2 ^ 50)%Z.
  Hypothesis Hd : forall p, In p ps -> is_binary64 (d p) /\ finite64 (d p) /\ ordinary (fval (d p)).
  Let c := INR (depth o) * (2 * u).
  Let q p := fval (d p) * fval (d p).
  Let s0 := sqrt (total (map q ps) / IZR n).

  Lemma c_small : 0 <= c <= / 16.
  Proof using D40.
    unfold c. pose proof u_half as [U0 _]. split; [apply Rmult_le_pos; [apply pos_INR|lra]|].
    assert (I : INR (depth o) <= bpow radix2 40).
    { rewrite INR_IZR_INZ. rewrite <- (IZR_Zpower radix2 40) by lia. apply IZR_le. exact D40. }
    apply Rle_trans with (bpow radix2 40 * bpow radix2 (-52)).
    - apply Rmult_le_compat; [apply pos_INR|lra|exact I|]. change (2 * u) with (bpow radix2 1 * bpow radix2 (-53)). rewrite <- bpow_plus. apply Rle_refl.
    - rewrite <- bpow_plus. change (/ 16) with (bpow radix2 (-4)). apply bpow_le. lia.
  Qed.

  Lemma squares_near : is_value (mean_in_order (order_map (fun p => d p *! d p) o) n) (fval (mean_in_order (order_map (fun p => d p *! d p) o) n)) /\
    0 <= fval (mean_in_order (order_map (fun p => d p *! d p) o) n) /\
    rel (c + 3 * u) (fval (mean_in_order (order_map (fun p => d p *! d p) o) n)) (total (map q ps) / IZR n).
  Proof using D40 N50 Hd.
    pose proof u_half as [U0 U1]. pose proof c_small as C.
    set (oo := order_map (fun p => d p *! d p) o).
    assert (Hv : forall p, In p ps -> is_value (d p *! d p) (rnd (q p)) /\ rel u (rnd (q p)) (q p) /\ 0 <= rnd (q p) <= 2 * q p /\ q p <= bpow radix2 700).
    { intros p Hp. destruct (Hd p Hp) as (B & F & O). apply square_value; [split; [exact B|split; [exact F|reflexivity]]|exact O]. }
    assert (Hq : forall p, 0 <= q p) by (intros p; apply Rle_0_sqr).
    assert (Hp : order_pixels oo = map (fun p => d p *! d p) ps) by apply order_map_pixels.
    assert (X : exact_sum oo = total (map (fun p => rnd (q p)) ps)).
    { unfold exact_sum. rewrite Hp, map_map. f_equal. apply map_ext_in. intros p Ip. apply value_val, Hv, Ip. }
    destruct (total_rel (fun p => rnd (q p)) q u ps) as [S0 S1]; [lra|intros p Ip; split; [apply Hq|apply Hv, Ip]|].
    assert (Sb : total (map q ps) <= bpow radix2 750).
    { apply Rle_trans with (INR (length ps) * bpow radix2 700); [apply total_upto; intros p Ip; apply Hv, Ip|].
      change 750%Z with (50 + 700)%Z. rewrite bpow_plus. apply Rmult_le_compat_r; [apply bpow_ge_0|].
      rewrite INR_IZR_INZ. fold n. rewrite <- (IZR_Zpower radix2 50) by lia. apply IZR_le. change (radix2 ^ 50)%Z with (2 ^ 50)%Z. lia. }
    assert (Xb : exact_sum oo <= bpow radix2 751).
    { rewrite X. unfold rel in S1. rewrite (Rabs_pos_eq (total (map q ps))) in S1 by exact S0. apply Rabs_le_inv in S1.
      assert (u * total (map q ps) <= / 2 * total (map q ps)) by (apply Rmult_le_compat_r; lra).
      change 751%Z with (1 + 750)%Z. rewrite bpow_plus. change (bpow radix2 1) with 2. lra. }
    assert (Pw : (1 + u) ^ depth oo <= 1 + c).
    { unfold oo. rewrite order_map_depth. replace (1 + c) with (1 + INR (depth o) * bpow radix2 (-52)); [apply pow_u_bound; lia|].
      unfold c. change (2 * u) with (bpow radix2 1 * bpow radix2 (-53)). rewrite <- bpow_plus. reflexivity. }
    destruct (added_near oo (depth oo) (bpow radix2 751) (le_n _)) as (Va & A0 & E0 & Ea).
    { intros v Iv. rewrite Hp in Iv. apply in_map_iff in Iv as (p & <- & Ip). destruct (Hv p Ip) as ((B & F & E) & _ & (P & _) & _). split; [exact B|]. split; [exact F|]. rewrite E. exact P. }
    { exact Xb. }
    { apply Rle_trans with (2 * bpow radix2 751); [apply Rmult_le_compat_r; [apply bpow_ge_0|lra]|]. change 2 with (bpow radix2 1). rewrite <- bpow_plus. apply bpow_le. lia. }
    set (a := fval (added oo)) in *.
    assert (R1 : rel c a (exact_sum oo)).
    { unfold rel. rewrite (Rabs_pos_eq (exact_sum oo)) by exact E0. apply Rle_trans with (1 := Ea). apply Rmult_le_compat_r; [exact E0|lra]. }
    rewrite X in R1. pose proof (rel_trans u c _ _ _ ltac:(lra) S1 R1 (proj1 C)) as R2.
    (* the division *)
    assert (Vn : is_value (nofZ n) (IZR n)) by (apply ofZ_value; lia).
    assert (Np : 1 <= IZR n) by (apply IZR_le; lia).
    assert (Ab : a <= bpow radix2 752).
    { rewrite X in E0, Xb. apply Rabs_le_inv in Ea. rewrite X in Ea. assert (((1 + u) ^ depth oo - 1) * total (map (fun p => rnd (q p)) ps) <= 1 * total (map (fun p => rnd (q p)) ps)) by (apply Rmult_le_compat_r; [exact E0|lra]).
      change 752%Z with (1 + 751)%Z. rewrite bpow_plus. change (bpow radix2 1) with 2. lra. }
    assert (Dq : 0 <= a / IZR n <= a).
    { split; [apply Rmult_le_pos; [exact A0|left; apply Rinv_0_lt_compat; lra]|]. unfold Rdiv. rewrite <- (Rmult_1_r a) at 2. apply Rmult_le_compat_l; [exact A0|]. rewrite <- Rinv_1. apply Rinv_le_contravar; lra. }
    assert (Vm : is_value (mean_in_order oo n) (rnd (a / IZR n))).
    { unfold mean_in_order. apply div_value; [exact Va|exact Vn|lra|]. apply rnd_huge. rewrite Rabs_pos_eq by lra. apply Rle_trans with (bpow radix2 752); [lra|]. apply bpow_le. lia. }
    rewrite (value_val _ _ Vm). split; [exact Vm|].
    assert (Z : a / IZR n = 0 \/ bpow radix2 (-1022) <= Rabs (a / IZR n)).
    { destruct A0 as [Ap|Az]; [right|left; rewrite <- Az; unfold Rdiv; ring].
      (* some square is at least 2^-900 *)
      assert (Big : bpow radix2 (-901) <= a).
      { destruct (Rle_or_lt (bpow radix2 (-900)) (exact_sum oo)) as [L|L].
        - rewrite X in L, E0. unfold rel in R1. rewrite (Rabs_pos_eq (total _)) in R1 by exact E0. apply Rabs_le_inv in R1.
          assert (c * total (map (fun p => rnd (q p)) ps) <= / 16 * total (map (fun p => rnd (q p)) ps)) by (apply Rmult_le_compat_r; [exact E0|lra]).
          replace (bpow radix2 (-901)) with (/ 2 * bpow radix2 (-900)) by (change (/ 2) with (bpow radix2 (-1)); rewrite <- bpow_plus; reflexivity). pose proof (bpow_gt_0 radix2 (-900)). lra.
        - exfalso. assert (All : forall p, In p ps -> rnd (q p) = 0).
          { intros p Ip. destruct (Hd p Ip) as (_ & _ & [O|[O _]]); [unfold q; rewrite O, Rmult_0_l; apply round_0; typeclasses eauto|exfalso].
            assert (Q : bpow radix2 (-900) <= q p).
            { unfold q. replace (fval (d p) * fval (d p)) with (Rabs (fval (d p)) * Rabs (fval (d p))) by (rewrite <- Rabs_mult; apply Rabs_pos_eq, Rle_0_sqr).
              change (-900)%Z with (-450 + -450)%Z. rewrite bpow_plus. apply Rmult_le_compat; try apply bpow_ge_0; exact O. }
            apply rnd_mono in Q. rewrite (rnd_same (bpow _ _)) in Q by (apply generic_format_bpow; unfold SpecFloat.fexp, SpecFloat.emin; lia).
            assert (rnd (q p) <= exact_sum oo); [|lra]. rewrite X. apply (total_member (fun p => rnd (q p))); [exact Ip|]. intros p' Ip'. apply Hv, Ip'. }
          assert (exact_sum oo = 0) as Ez.
          { rewrite X. rewrite (map_ext_in _ (fun _ => 0) ps All). apply total_zeros. }
          rewrite X in Ez. unfold rel in R1. rewrite Ez, Rabs_R0, Rmult_0_r, Rminus_0_r, Rabs_pos_eq in R1 by lra. lra. }
      rewrite Rabs_pos_eq by lra. apply Rle_trans with (bpow radix2 (-901) * bpow radix2 (-50)); [rewrite <- bpow_plus; apply bpow_le; lia|].
      unfold Rdiv. apply Rmult_le_compat; try apply bpow_ge_0; [exact Big|]. change (bpow radix2 (-50)) with (/ bpow radix2 50). apply Rinv_le_contravar; [lra|].
      rewrite <- (IZR_Zpower radix2 50) by lia. apply IZR_le. change (radix2 ^ 50)%Z with (2 ^ 50)%Z. lia. }
    pose proof (rnd_relative _ Z) as R3. change (rel u (rnd (a / IZR n)) (a / IZR n)) in R3.
    assert (R2' : rel (u + c + u * c) (a / IZR n) (total (map q ps) / IZR n)).
    { unfold rel in *. unfold Rdiv. rewrite <- Rmult_minus_distr_r, !Rabs_mult, <- Rmult_assoc. apply Rmult_le_compat_r; [apply Rabs_pos|exact R2]. }
    split.
    - rewrite <- (round_0 radix2 fexp64 (Znearest (fun t => negb (Z.even t)))). apply rnd_mono. lra.
    - apply (rel_weak ((u + c + u * c) + u + (u + c + u * c) * u)).
      + assert (u * c <= u * / 16) by (apply Rmult_le_compat_l; lra). assert (u * u <= u * / 16).
        { apply Rmult_le_compat_l; [lra|]. change (/ 16) with (bpow radix2 (-4)). apply bpow_le. lia. }
        assert (u * c * u <= u * / 16 * / 2) by (apply Rmult_le_compat; try lra; apply Rmult_le_pos; lra). lra.
      + assert (0 <= u * c) by (apply Rmult_le_pos; lra). assert (K : 0 <= u + c + u * c) by lra. exact (rel_trans _ u _ _ _ K R2' R3 ltac:(lra)).
  Qed.

  Lemma std_near : is_value (nsqrt (mean_in_order (order_map (fun p => d p *! d p) o) n)) (fval (nsqrt (mean_in_order (order_map (fun p => d p *! d p) o) n))) /\
    rel (c + 5 * u) (fval (nsqrt (mean_in_order (order_map (fun p => d p *! d p) o) n))) s0.
  Proof using D40 N50 Hd.
    destruct squares_near as (V & P & R). set (w := mean_in_order _ n) in *. pose proof u_half as [U0 U1]. pose proof c_small as C.
    pose proof (sqrt_value w _ V P) as Vs. rewrite (value_val _ _ Vs). split; [exact Vs|].
    assert (Np : 1 <= IZR n) by (apply IZR_le; lia).
    assert (T : 0 <= total (map q ps) / IZR n).
    { apply Rmult_le_pos; [|left; apply Rinv_0_lt_compat; lra]. apply total_pos. intros p _. apply Rle_0_sqr. }
    assert (K : 0 <= c + 3 * u) by lra. pose proof (rel_sqrt _ _ _ T P K R) as R1.
    assert (Z : sqrt (fval w) = 0 \/ bpow radix2 (-1022) <= Rabs (sqrt (fval w))).
    { destruct P as [Pp|Pz]; [right|left; rewrite <- Pz; apply sqrt_0]. rewrite Rabs_pos_eq by apply sqrt_pos.
      apply Rle_trans with (bpow radix2 (-537)); [apply bpow_le; lia|]. rewrite <- (sqrt_square (bpow radix2 (-537))) by apply bpow_ge_0. apply sqrt_le_1_alt.
      rewrite <- bpow_plus. change (-537 + -537)%Z with (-1074)%Z.
      destruct (Rle_or_lt (bpow radix2 (-1074)) (fval w)) as [L|L]; [exact L|exfalso].
      pose proof (value_fmt _ _ V) as F. 
      pose proof (generic_format_ge_bpow radix2 fexp64 (-1074)) as G. specialize (G ltac:(intros e; unfold SpecFloat.fexp, SpecFloat.emin; lia) (fval w) Pp F). lra. }
    pose proof (rnd_relative _ Z) as R2. change (rel u (rnd (sqrt (fval w))) (sqrt (fval w))) in R2.
    apply (rel_weak ((c + 3 * u) + u + (c + 3 * u) * u)); [|exact (rel_trans _ u _ _ _ K R1 R2 (Rlt_le _ _ U0))].
    assert ((c + 3 * u) * u <= 1 * u); [|lra]. apply Rmult_le_compat_r; [lra|]. assert (u <= / 4) by (change (/ 4) with (bpow radix2 (-2)); apply bpow_le; lia). lra.
  Qed.

  (** The quotient of a deviation by the standard deviation. *)
  Lemma quotient_near a : is_binary64 a -> finite64 a -> ordinary (fval a) -> 0 < s0 -> is_value (a /! nsqrt (mean_in_order (order_map (fun p => d p *! d p) o) n)) (fval (a /! nsqrt (mean_in_order (order_map (fun p => d p *! d p) o) n))) /\
    0 < fval (nsqrt (mean_in_order (order_map (fun p => d p *! d p) o) n)) /\
    rel (2 * c + 12 * u) (fval (a /! nsqrt (mean_in_order (order_map (fun p => d p *! d p) o) n))) (fval a / s0).
  Proof using D40 N50 Hd.
    intros B F O S0. destruct std_near as (V & R). set (s := nsqrt _) in *. pose proof u_half as [U0 U1]. pose proof c_small as C.
    assert (U8 : u <= / 256) by (change (/ 256) with (bpow radix2 (-8)); apply bpow_le; lia).
    assert (Sp : s0 / 2 <= fval s <= 2 * s0).
    { unfold rel in R. rewrite (Rabs_pos_eq s0) in R by lra. apply Rabs_le_inv in R. assert ((c + 5 * u) * s0 <= / 2 * s0) by (apply Rmult_le_compat_r; lra). lra. }
    assert (Sb : s0 <= bpow radix2 400).
    { unfold s0. rewrite <- (sqrt_square (bpow radix2 400)) by apply bpow_ge_0. apply sqrt_le_1_alt. rewrite <- bpow_plus.
      assert (Np : 1 <= IZR n) by (apply IZR_le; lia).
      apply Rle_trans with (bpow radix2 700); [|apply bpow_le; lia].
      apply Rmult_le_reg_r with (IZR n); [lra|]. unfold Rdiv. rewrite Rmult_assoc, Rinv_l, Rmult_1_r by lra.
      replace (bpow radix2 700 * IZR n) with (INR (length ps) * bpow radix2 700) by (unfold n; rewrite INR_IZR_INZ; ring). apply total_upto. intros p' Ip'.
      destruct (Hd p' Ip') as (B' & F' & O'). apply (square_value (d p') (fval (d p'))); [split; [exact B'|split; [exact F'|reflexivity]]|exact O']. }
    assert (Lo : fval a = 0 \/ bpow radix2 (-900) <= Rabs (fval a / fval s)).
    { destruct O as [O|[O _]]; [left; exact O|right]. unfold Rdiv. rewrite Rabs_mult, Rabs_inv, (Rabs_pos_eq (fval s)) by lra.
      apply Rle_trans with (bpow radix2 (-450) * bpow radix2 (-401)); [rewrite <- bpow_plus; apply bpow_le; lia|].
      apply Rmult_le_compat; try apply bpow_ge_0; [exact O|]. change (bpow radix2 (-401)) with (/ bpow radix2 401). apply Rinv_le_contravar; [lra|].
      change 401%Z with (1 + 400)%Z. rewrite bpow_plus. change (bpow radix2 1) with 2. lra. }
    assert (S1 : bpow radix2 (-475) <= s0).
    { assert (Np : 1 <= IZR n) by (apply IZR_le; lia).
      assert (E : exists p, In p ps /\ fval (d p) <> 0).
      { destruct (Rle_or_lt (total (map q ps)) 0) as [T|T].
        - exfalso. apply Rlt_irrefl with 0. apply Rlt_le_trans with (1 := S0). unfold s0. rewrite sqrt_neg_0; [lra|]. unfold Rdiv.
          assert (0 < / IZR n) by (apply Rinv_0_lt_compat; lra). assert (0 <= - total (map q ps) * / IZR n) by (apply Rmult_le_pos; lra). lra.
        - revert T. generalize ps. intros l. induction l as [|p l IH]; [unfold total; cbn; lra|]. cbn [map]. rewrite total_cons. intros T.
          destruct (Req_dec (fval (d p)) 0) as [E|E]; [|exists p; split; [left; reflexivity|exact E]].
          assert (q p = 0) as Z by (unfold q; rewrite E; ring). rewrite Z, Rplus_0_l in T. destruct (IH T) as (p' & I' & E'). exists p'. split; [right; exact I'|exact E']. }
      destruct E as (p & Ip & E). destruct (Hd p Ip) as (_ & _ & Op). destruct Op as [Op|[Op _]]; [contradiction|].
      unfold s0. rewrite <- (sqrt_square (bpow radix2 (-475))) by apply bpow_ge_0. apply sqrt_le_1_alt.
      assert (Q : bpow radix2 (-900) <= q p).
      { unfold q. replace (fval (d p) * fval (d p)) with (Rabs (fval (d p)) * Rabs (fval (d p))) by (rewrite <- Rabs_mult; apply Rabs_pos_eq, Rle_0_sqr).
        change (-900)%Z with (-450 + -450)%Z. rewrite bpow_plus. apply Rmult_le_compat; try apply bpow_ge_0; exact Op. }
      assert (T : q p <= total (map q ps)) by (apply (total_member q); [exact Ip|intros p' _; apply Rle_0_sqr]).
      rewrite <- bpow_plus. change (-475 + -475)%Z with (-900 + -50)%Z. rewrite bpow_plus. unfold Rdiv. apply Rmult_le_compat; try apply bpow_ge_0; [lra|].
      change (bpow radix2 (-50)) with (/ bpow radix2 50). apply Rinv_le_contravar; [lra|]. rewrite <- (IZR_Zpower radix2 50) by lia. apply IZR_le. change (radix2 ^ 50)%Z with (2 ^ 50)%Z. lia. }
    assert (Hi : Rabs (fval a / fval s) <= bpow radix2 900).
    { unfold Rdiv. rewrite Rabs_mult, Rabs_inv, (Rabs_pos_eq (fval s)) by lra.
      apply Rle_trans with (bpow radix2 350 * bpow radix2 476); [|rewrite <- bpow_plus; apply bpow_le; lia].
      apply Rmult_le_compat; [apply Rabs_pos|left; apply Rinv_0_lt_compat; pose proof (bpow_gt_0 radix2 (-475)); lra| |].
      - destruct O as [O|[_ O]]; [rewrite O, Rabs_R0; apply bpow_ge_0|exact O].
      - replace (bpow radix2 476) with (/ bpow radix2 (-476)) by (rewrite <- bpow_opp; reflexivity). apply Rinv_le_contravar; [apply bpow_gt_0|].
        replace (bpow radix2 (-476)) with (/ 2 * bpow radix2 (-475)) by (change (/ 2) with (bpow radix2 (-1)); rewrite <- bpow_plus; reflexivity). lra. }
    assert (Vd : is_value a (fval a)) by (split; [exact B|split; [exact F|reflexivity]]).
    assert (Vq : is_value (a /! s) (rnd (fval a / fval s))).
    { apply div_value; [exact Vd|exact V|lra|]. apply rnd_huge. apply Rle_trans with (1 := Hi). apply bpow_le. lia. }
    rewrite (value_val _ _ Vq). split; [exact Vq|]. split; [lra|].
    assert (Z : fval a / fval s = 0 \/ bpow radix2 (-1022) <= Rabs (fval a / fval s)).
    { destruct Lo as [->|L]; [left; unfold Rdiv; ring|right; apply Rle_trans with (2 := L), bpow_le; lia]. }
    pose proof (rnd_relative _ Z) as R2. change (rel u (rnd (fval a / fval s)) (fval a / fval s)) in R2.
    assert (K : 0 <= c + 5 * u <= / 2) by lra. pose proof (rel_div (c + 5 * u) (fval a) (fval s) s0 S0 K R) as R1. assert (K' : 0 <= 2 * (c + 5 * u)) by lra.
    apply (rel_weak (2 * (c + 5 * u) + u + 2 * (c + 5 * u) * u)); [|exact (rel_trans _ u _ _ _ K' R1 R2 (Rlt_le _ _ U0))].
    assert (2 * (c + 5 * u) * u <= 1 * u); [|lra]. apply Rmult_le_compat_r; lra.
  Qed.
End Std.

(** ** Rings *)
Lemma distance_value cy cx y x : let q := ((y - cy) * (y - cy) + (x - cx) * (x - cx))%Z in (q < 2 ^ 53)%Z ->
  is_value (distance cy cx y x) (rnd (sqrt (IZR q))).
Proof.
  intros q Hq. unfold distance. replace ((x - cx) * (x - cx) + (y - cy) * (y - cy))%Z with q by (unfold q; lia).
  assert (Q0 : (0 <= q)%Z) by (unfold q; pose proof (Z.square_nonneg (y - cy)); pose proof (Z.square_nonneg (x - cx)); lia).
  apply sqrt_value; [apply ofZ_value; lia|apply IZR_le; exact Q0].
Qed.
Lemma in_ring_exact cy cx r step y x : (0 <= r)%Z -> (0 < step)%Z -> (r + step < 2 ^ 25)%Z -> ((y - cy) * (y - cy) + (x - cx) * (x - cx) < 2 ^ 53)%Z ->
  (in_ring (A := b64) cy cx r step y x = true <-> IZR r < dist y x cy cx <= IZR (r + step)).
Proof.
  intros Hr Hs Hb Hq. pose proof (distance_value cy cx y x Hq) as V. unfold dist. set (q := ((y - cy) * (y - cy) + (x - cx) * (x - cx))%Z) in *.
  assert (Q0 : (0 <= q)%Z) by (unfold q; pose proof (Z.square_nonneg (y - cy)); pose proof (Z.square_nonneg (x - cx)); lia). clearbody q.
  unfold in_ring. rewrite andb_true_iff. assert (V1 : is_value (nofZ r) (IZR r)) by (apply ofZ_value; lia). assert (V2 : is_value (nofZ (r + step)) (IZR (r + step))) by (apply ofZ_value; lia).
  rewrite (ltb_value _ _ _ _ V1 V), (leb_value _ _ _ _ V V2).
  pose proof (rnd_root q r ltac:(lia) Q0) as A1. pose proof (rnd_root q (r + step) ltac:(lia) Q0) as A2.
  pose proof (root_floor q r ltac:(lia) Q0) as B1. pose proof (root_floor q (r + step) ltac:(lia) Q0) as B2.
  assert (E1 : Rlt_bool (IZR r) (rnd (sqrt (IZR q))) = true <-> IZR r < sqrt (IZR q)).
  { case Rlt_bool_spec; intros K; split; intros L; try reflexivity; try discriminate.
    - destruct (Rle_or_lt (sqrt (IZR q)) (IZR r)) as [M|M]; [exfalso|exact M]. apply B1, A1 in M. lra.
    - apply A1, B1 in K. lra. }
  assert (E2 : Rle_bool (rnd (sqrt (IZR q))) (IZR (r + step)) = true <-> sqrt (IZR q) <= IZR (r + step)).
  { case Rle_bool_spec; intros K; split; intros L; try reflexivity; try discriminate.
    - apply B2, A2, K.
    - apply B2, A2 in L. lra. }
  rewrite E1, E2. reflexivity.
Qed.

Lemma nrgf_full_cell plan (data : arr b64) cy cx rho_min rho_max step k y x :
  (0 <= rho_min)%Z -> (0 < step)%Z -> (rho_max + step < 2 ^ 25)%Z ->
  (0 <= k)%Z -> (rho_min + k * step < rho_max)%Z -> IZR (rho_min + k * step) < dist y x cy cx <= IZR (rho_min + (k + 1) * step) ->
  exists out, nrgf_full plan data cy cx rho_min rho_max step = Ok out /\ rows out = rows data /\ cols out = cols data /\
    cell out y x = ring_output data (plan (rho_min + k * step)%Z) (cell data y x).
Proof.
  intros Hm Hs Hb Hk Hlt Hd.
  assert (Hq : ((y - cy) * (y - cy) + (x - cx) * (x - cx) < 2 ^ 53)%Z).
  { destruct Hd as [_ Hd]. unfold dist in Hd. apply root_floor in Hd; [|nia|pose proof (Z.square_nonneg (y - cy)); pose proof (Z.square_nonneg (x - cx)); lia].
    assert (B : (0 <= rho_min + (k + 1) * step < 2 ^ 25)%Z) by nia. set (b := (rho_min + (k + 1) * step)%Z) in *. clearbody b. clear - Hd B. assert (b * b <= 2 ^ 25 * 2 ^ 25)%Z by (apply Z.mul_le_mono_nonneg; lia). lia. }
  pose (Inv := fun (j : Z) (s : arr b64) => rows s = rows data /\ cols s = cols data /\
    ((k < j)%Z -> cell s y x = ring_output data (plan (rho_min + k * step)%Z) (cell data y x))).
  unfold nrgf_full. match goal with |- exists out, for_range _ _ _ ?b ?s = _ /\ _ => set (body := b); set (s0 := s) end.
  destruct (for_range_inv Inv rho_min rho_max step body s0 Hs) as (out & Eo & (Ro & Co & Vo)).
  - unfold Inv, s0. cbn [full rows cols cell]. split; [reflexivity|]. split; [reflexivity|]. intros; lia.
  - intros j s Hj Hjl (Rs & Cs & Vs). unfold body. eexists. split; [reflexivity|]. unfold Inv. cbn [rows cols cell]. split; [reflexivity|]. split; [reflexivity|].
    intros Hkj. pose proof Hjl as Jr.
    pose proof (in_ring_exact cy cx (rho_min + j * step) step y x ltac:(nia) Hs ltac:(lia) Hq) as I.
    destruct (in_ring cy cx (rho_min + j * step) step y x) eqn:Er.
    + pose proof (proj1 I eq_refl) as [I1 I2]. assert (j = k) as ->; [|reflexivity].
      destruct (Z.eq_dec j k) as [->|Ne]; [reflexivity|exfalso]. assert (L : (rho_min + (k + 1) * step <= rho_min + j * step)%Z) by nia. apply IZR_le in L. lra.
    + destruct (Z.eq_dec j k) as [->|Ne]; [exfalso|apply Vs; lia].
      assert (false = true) by (apply I; replace (rho_min + k * step + step)%Z with (rho_min + (k + 1) * step)%Z by ring; exact Hd). discriminate.
  - exists out. split; [exact Eo|]. split; [exact Ro|]. split; [exact Co|]. apply Vo. apply range_len_lt; assumption.
Qed.

Lemma nrgf_full_zero plan (data : arr b64) cy cx rho_min rho_max step y x :
  (0 <= rho_min)%Z -> (0 < step)%Z -> (rho_max + step < 2 ^ 25)%Z -> ((y - cy) * (y - cy) + (x - cx) * (x - cx) < 2 ^ 53)%Z ->
  (forall k, (0 <= k)%Z -> (rho_min + k * step < rho_max)%Z -> ~ IZR (rho_min + k * step) < dist y x cy cx <= IZR (rho_min + (k + 1) * step)) ->
  exists out, nrgf_full plan data cy cx rho_min rho_max step = Ok out /\ cell out y x = n0.
Proof.
  intros Hm Hs Hb Hq Hn.
  pose (Inv := fun (j : Z) (s : arr b64) => cell s y x = n0).
  unfold nrgf_full. match goal with |- exists out, for_range _ _ _ ?b ?s = _ /\ _ => set (body := b); set (s0 := s) end.
  destruct (for_range_inv Inv rho_min rho_max step body s0 Hs) as (out & Eo & Vo).
  - reflexivity.
  - intros j s Hj Hjl Vs. unfold body. eexists. split; [reflexivity|]. unfold Inv. cbn [cell].
    pose proof Hjl as Jr.
    pose proof (in_ring_exact cy cx (rho_min + j * step) step y x ltac:(nia) Hs ltac:(lia) Hq) as I.
    destruct (in_ring cy cx (rho_min + j * step) step y x) eqn:Er; [exfalso|exact Vs].
    apply (Hn j Hj Jr). replace (rho_min + (j + 1) * step)%Z with (rho_min + j * step + step)%Z by ring. apply I. reflexivity.
  - exists out. split; [exact Eo|exact Vo].
Qed.

(** ** Root mean squares *)
Definition rms {A} (ps : list A) (f : A -> R) : R := sqrt (total (map (fun p => f p * f p) ps) / INR (length ps)).

Lemma total_lin {A} (f g : A -> R) a b l : total (map (fun p => a * f p + b * g p) l) = a * total (map f l) + b * total (map g l).
Proof. induction l as [|x l IH]; [unfold total; cbn; lra|]. cbn [map]. rewrite !total_cons, IH. lra. Qed.
Lemma total_const {A} a (l : list A) : total (map (fun _ => a) l) = INR (length l) * a.
Proof. induction l as [|x l IH]; [unfold total; cbn; lra|]. cbn [map length]. rewrite total_cons, IH, S_INR. lra. Qed.
Lemma total_mono {A} (f g : A -> R) l : (forall x, In x l -> f x <= g x) -> total (map f l) <= total (map g l).
Proof.
  induction l as [|x l IH]; intros H; [unfold total; cbn; lra|]. cbn [map]. rewrite !total_cons.
  pose proof (H x (or_introl eq_refl)). pose proof (IH (fun y Hy => H y (or_intror Hy))). lra.
Qed.

Lemma mean_rms {A} (ps : list A) f : ps <> [] -> (forall p, In p ps -> 0 <= f p) -> total (map f ps) / INR (length ps) <= rms ps f.
Proof.
  intros Hne Hf. assert (N : 0 < INR (length ps)) by (apply lt_0_INR; destruct ps; [congruence|cbn; lia]).
  set (n := INR (length ps)) in *. set (t := total (map f ps) / n).
  assert (T0 : 0 <= t) by (apply Rmult_le_pos; [apply total_pos, Hf|left; apply Rinv_0_lt_compat, N]).
  unfold rms. fold n. rewrite <- (sqrt_square t) by exact T0. apply sqrt_le_1_alt.
  apply Rmult_le_reg_r with n; [exact N|]. replace (total (map (fun p => f p * f p) ps) / n * n) with (total (map (fun p => f p * f p) ps)) by (field; lra).
  assert (P : 0 <= total (map (fun p => (f p - t) * (f p - t)) ps)) by (apply total_pos; intros; apply Rle_0_sqr).
  assert (E : total (map (fun p => (f p - t) * (f p - t)) ps) = total (map (fun p => f p * f p) ps) - t * t * n).
  { transitivity (total (map (fun p => 1 * (1 * (f p * f p) + (- 2 * t) * f p) + 1 * (t * t)) ps)); [f_equal; apply map_ext; intros; ring|].
    rewrite (total_lin (fun p => 1 * (f p * f p) + (- 2 * t) * f p) (fun _ => t * t)), total_lin, total_const. fold n.
    assert (total (map f ps) = t * n) as -> by (unfold t; field; lra). ring. }
  lra.
Qed.

Lemma minkowski {A} (ps : list A) a b d : ps <> [] -> 0 <= d -> (forall p, In p ps -> Rabs (a p) <= Rabs (b p) + d) -> rms ps a <= rms ps b + d.
Proof.
  intros Hne Hd H. assert (N : 0 < INR (length ps)) by (apply lt_0_INR; destruct ps; [congruence|cbn; lia]).
  assert (Sq : forall r, r * r = Rabs r * Rabs r) by (intros r; rewrite <- Rabs_mult; symmetry; apply Rabs_pos_eq, Rle_0_sqr).
  assert (S : 0 <= rms ps b) by apply sqrt_pos.
  unfold rms at 1. rewrite <- (sqrt_square (rms ps b + d)) by lra. apply sqrt_le_1_alt.
  assert (B : rms ps b * rms ps b = total (map (fun p => b p * b p) ps) / INR (length ps)).
  { apply sqrt_sqrt. apply Rmult_le_pos; [apply total_pos; intros; apply Rle_0_sqr|left; apply Rinv_0_lt_compat, N]. }
  assert (M : total (map (fun p => Rabs (b p)) ps) / INR (length ps) <= rms ps b).
  { replace (rms ps b) with (rms ps (fun p => Rabs (b p))); [apply mean_rms; [exact Hne|intros; apply Rabs_pos]|].
    unfold rms. do 2 f_equal. f_equal. apply map_ext. intros p. symmetry. apply Sq. }
  assert (T : total (map (fun p => a p * a p) ps) <= total (map (fun p => 1 * (1 * (b p * b p) + (2 * d) * Rabs (b p)) + 1 * (d * d)) ps)).
  { apply total_mono. intros p Ip. specialize (H p Ip). rewrite (Sq (a p)), (Sq (b p)). pose proof (Rabs_pos (a p)). pose proof (Rabs_pos (b p)).
    assert (Rabs (a p) * Rabs (a p) <= (Rabs (b p) + d) * (Rabs (b p) + d)) by (apply Rmult_le_compat; lra). lra. }
  rewrite (total_lin (fun p => 1 * (b p * b p) + (2 * d) * Rabs (b p)) (fun _ => d * d)), total_lin, total_const in T.
  set (n := INR (length ps)) in *. apply Rmult_le_reg_r with n; [exact N|]. unfold Rdiv in *. rewrite Rmult_assoc, Rinv_l, Rmult_1_r by lra.
  apply Rle_trans with (1 := T). replace ((rms ps b + d) * (rms ps b + d) * n) with (rms ps b * rms ps b * n + 2 * d * (rms ps b * n) + n * (d * d)) by ring. rewrite B. replace (total (map (fun p => b p * b p) ps) * / n * n) with (total (map (fun p => b p * b p) ps)) by (field; lra).
  assert (total (map (fun p => Rabs (b p)) ps) <= rms ps b * n).
  { apply Rmult_le_reg_r with (/ n); [apply Rinv_0_lt_compat, N|]. rewrite Rmult_assoc, Rinv_r, Rmult_1_r by lra. exact M. }
  assert (2 * d * total (map (fun p => Rabs (b p)) ps) <= 2 * d * (rms ps b * n)) by (apply Rmult_le_compat_l; lra). lra.
Qed.

Lemma quotient_moved {A} (ps : list A) (d e : A -> R) dl p : ps <> [] -> Rabs (d p - e p) <= dl -> 0 <= dl -> (forall p, In p ps -> Rabs (d p - e p) <= dl) ->
  0 < rms ps e -> dl <= rms ps e / 2 ->
  0 < rms ps d /\ Rabs (d p / rms ps d - e p / rms ps e) <= 2 * dl / rms ps e * (1 + Rabs (e p / rms ps e)).
Proof.
  intros Ne Hp Hd Hc S0 Hh.
  assert (M1 : rms ps d <= rms ps e + dl).
  { apply minkowski; [exact Ne|exact Hd|]. intros p' Ip'. replace (d p') with ((d p' - e p') + e p') by ring. pose proof (Rabs_triang (d p' - e p') (e p')). pose proof (Hc p' Ip'). lra. }
  assert (M2 : rms ps e <= rms ps d + dl).
  { apply minkowski; [exact Ne|exact Hd|]. intros p' Ip'. replace (e p') with (d p' - (d p' - e p')) at 1 by ring. pose proof (Rabs_triang (d p') (- (d p' - e p'))) as T. rewrite Rabs_Ropp in T. pose proof (Hc p' Ip'). unfold Rminus at 1. lra. }
  set (s := rms ps e) in *. set (t := rms ps d) in *. assert (T : s / 2 <= t) by lra. split; [lra|].
  set (z := e p / s). replace (d p / t - z) with (((d p - e p) + z * (s - t)) / t) by (unfold z; field; lra).
  unfold Rdiv at 1. rewrite Rabs_mult, Rabs_inv, (Rabs_pos_eq t) by lra.
  assert (Rabs ((d p - e p) + z * (s - t)) <= dl * (1 + Rabs z)) as K.
  { apply Rle_trans with (1 := Rabs_triang _ _). rewrite Rabs_mult. assert (Rabs (s - t) <= dl) by (apply Rabs_le; lra).
    assert (Rabs z * Rabs (s - t) <= Rabs z * dl) by (apply Rmult_le_compat_l; [apply Rabs_pos|assumption]). lra. }
  replace (2 * dl / s * (1 + Rabs z)) with (dl * (1 + Rabs z) * (2 / s)) by (field; lra).
  pose proof (Rabs_pos z). apply Rmult_le_compat; [apply Rabs_pos|left; apply Rinv_0_lt_compat; lra|exact K|].
  replace (2 / s) with (/ (s / 2)) by (field; lra). apply Rinv_le_contravar; lra.
Qed.

(** ** The output of a ring *)
Lemma rms_perm {A} (ps ps' : list A) f : Permutation ps ps' -> rms ps f = rms ps' f.
Proof. intros P. unfold rms. rewrite (Permutation_length P), (total_perm _ _ (Permutation_map _ P)). reflexivity. Qed.
Lemma rms_ext {A} (ps : list A) f g : (forall p, In p ps -> f p = g p) -> rms ps f = rms ps g.
Proof. intros H. unfold rms. do 2 f_equal. f_equal. apply map_ext_in. intros p Ip. rewrite (H p Ip). reflexivity. Qed.
Lemma rms_zero {A} (ps : list A) f : ps <> [] -> rms ps f = 0 -> forall p, In p ps -> f p = 0.
Proof.
  intros Hne H p Ip. assert (N : 0 < INR (length ps)) by (apply lt_0_INR; destruct ps; [congruence|cbn; lia]).
  assert (P : 0 <= total (map (fun p => f p * f p) ps)) by (apply total_pos; intros; apply Rle_0_sqr).
  assert (Z : total (map (fun p => f p * f p) ps) / INR (length ps) = 0).
  { apply sqrt_eq_0; [|exact H]. apply Rmult_le_pos; [exact P|left; apply Rinv_0_lt_compat, N]. }
  assert (Z' : total (map (fun p => f p * f p) ps) = 0).
  { apply Rmult_eq_reg_r with (/ INR (length ps)); [rewrite Rmult_0_l; exact Z|apply Rinv_neq_0_compat; lra]. }
  pose proof (total_member (fun p => f p * f p) ps p Ip (fun p _ => Rle_0_sqr (f p))) as M. cbv beta in M. rewrite Z' in M.
  pose proof (Rle_0_sqr (f p)) as Q. unfold Rsqr in Q. apply Rsqr_0_uniq. unfold Rsqr. lra.
Qed.

Lemma ring_near (data : arr b64) ps dd pl rm p (v : Z * Z -> R) :
  plan_for ps dd pl -> (Z.of_nat dd <= 2 ^ 40)%Z -> (Z.of_nat (length ps) < 2 ^ 50)%Z -> ps <> [] ->
  is_value (ring_mean data (sum_mean pl) (ring_size pl)) rm ->
  is_value (pixel data p) (v p) /\ ordinary (rnd (v p - rm)) ->
  (forall p, In p ps -> is_value (pixel data p) (v p) /\ ordinary (rnd (v p - rm))) ->
  let d p := rnd (v p - rm) in
  let out := ring_output data (Some pl) (pixel data p) in
  (rms ps d = 0 -> out = n0) /\
  (0 < rms ps d -> is_value out (fval out) /\ rel (2 * (INR dd * (2 * u)) + 12 * u) (fval out) (d p / rms ps d)).
Proof.
  intros (Hn & _ & (Hp & Hdd)) HD HN Ne Vm Hvp Hv d out.
  set (o := sum_squares pl) in *. set (m := ring_mean data (sum_mean pl) (ring_size pl)) in *.
  pose (db := fun p => pixel data p -! m).
  assert (Vd' : forall p, is_value (pixel data p) (v p) /\ ordinary (rnd (v p - rm)) -> is_value (db p) (d p)).
  { intros p' [V O]. apply sub_value; [exact V|exact Vm|].
    destruct O as [->|[_ O]]; [rewrite Rabs_R0; apply bpow_gt_0|]. apply Rle_lt_trans with (1 := O). apply bpow_lt. lia. }
  assert (Vd : forall p, In p ps -> is_value (db p) (d p)) by (intros p' Ip'; apply Vd', Hv, Ip').
  pose proof (Vd' p Hvp) as Vp.
  assert (L : length (order_pixels o) = length ps) by (apply Permutation_length, Hp).
  assert (Hd : forall p, In p (order_pixels o) -> is_binary64 (db p) /\ finite64 (db p) /\ ordinary (fval (db p))).
  { intros p' Ip'. apply (Permutation_in _ Hp) in Ip'. destruct (Vd p' Ip') as (B & F & E). split; [exact B|]. split; [exact F|]. rewrite E. apply Hv, Ip'. }
  assert (N1 : (1 <= Z.of_nat (length (order_pixels o)) < 2 ^ 50)%Z) by (rewrite L; destruct ps; [congruence|cbn [length] in *; lia]).
  assert (D1 : (Z.of_nat (depth o) <= 2 ^ 40)%Z) by lia.
  assert (S : sqrt (total (map (fun p => fval (db p) * fval (db p)) (order_pixels o)) / IZR (Z.of_nat (length (order_pixels o)))) = rms ps d).
  { transitivity (rms (order_pixels o) (fun p => fval (db p))); [unfold rms; rewrite INR_IZR_INZ; reflexivity|].
    rewrite (rms_perm _ _ _ Hp). apply rms_ext. intros p' Ip'. apply value_val, Vd, Ip'. }
  pose proof (std_near o db D1 N1 Hd) as SN. assert (Op : ordinary (fval (db p))) by (rewrite (value_val _ _ Vp); apply Hvp). pose proof (quotient_near o db D1 N1 Hd (db p) (proj1 Vp) (proj1 (proj2 Vp)) Op) as QN. cbv zeta in SN, QN.
  rewrite S in SN, QN.
  assert (Eo : out = (if nltb n0 (nsqrt (mean_in_order (order_map (fun p => db p *! db p) o) (Z.of_nat (length (order_pixels o))))) then
    db p /! nsqrt (mean_in_order (order_map (fun p => db p *! db p) o) (Z.of_nat (length (order_pixels o)))) else n0)).
  { rewrite L, <- Hn. reflexivity. }
  set (s := nsqrt (mean_in_order (order_map (fun p => db p *! db p) o) (Z.of_nat (length (order_pixels o))))) in *.
  assert (V0 : is_value n0 0) by (split; [reflexivity|split; [exact I|reflexivity]]).
  destruct SN as (Vs & Rs). split.
  - intros Z. rewrite Z in Rs. unfold rel in Rs. rewrite Rabs_R0, Rmult_0_r, Rminus_0_r in Rs.
    assert (E0 : fval s = 0) by (destruct (Req_dec (fval s) 0) as [E|E]; [exact E|apply Rabs_pos_lt in E; lra]).
    rewrite Eo, (ltb_value _ _ _ _ V0 Vs), E0, Rlt_bool_false by lra. reflexivity.
  - intros P. destruct (QN P) as (Vq & Ps & Rq). assert (Eo' : out = db p /! s) by (rewrite Eo, (ltb_value _ _ _ _ V0 Vs), Rlt_bool_true by lra; reflexivity).
    rewrite Eo'. split; [exact Vq|]. rewrite (value_val _ _ Vp) in Rq. refine (rel_weak _ _ _ _ _ Rq). pose proof u_half as [U0 _]. assert (INR (depth o) * (2 * u) <= INR dd * (2 * u)) by (apply Rmult_le_compat_r; [lra|apply le_INR, Hdd]). lra.
Qed.

(** ** Differences do not underflow *)
Lemma on_grid x e : generic_format radix2 fexp64 x -> x = 0 \/ bpow radix2 e <= Rabs x -> exists k, x = IZR k * bpow radix2 (e - 52).
Proof.
  intros F [->|H]; [exists 0%Z; lra|]. unfold generic_format in F. set (m := Ztrunc (scaled_mantissa radix2 fexp64 x)) in F. set (c := cexp radix2 fexp64 x) in F.
  assert (C : (e - 52 <= c)%Z).
  { unfold c, cexp. pose proof (mag_ge_bpow radix2 x (e + 1)) as M. replace (e + 1 - 1)%Z with e in M by lia. specialize (M H).
    unfold SpecFloat.fexp. lia. }
  exists (m * 2 ^ (c - (e - 52)))%Z. rewrite F at 1. unfold F2R. cbn [Fnum Fexp]. rewrite mult_IZR.
  change 2%Z with (radix_val radix2). rewrite IZR_Zpower by lia. rewrite Rmult_assoc, <- bpow_plus. f_equal. f_equal. lia.
Qed.
Lemma diff_ordinary x y e : generic_format radix2 fexp64 x -> generic_format radix2 fexp64 y ->
  x = 0 \/ bpow radix2 e <= Rabs x -> y = 0 \/ bpow radix2 e <= Rabs y -> (-398 <= e <= 300)%Z -> Rabs (x - y) <= bpow radix2 350 -> ordinary (rnd (x - y)).
Proof.
  intros Fx Fy Hx Hy He Hb. destruct (on_grid x e Fx Hx) as (k & Ek). destruct (on_grid y e Fy Hy) as (l & El).
  destruct (Z.eq_dec k l) as [->|Ne]; [left; replace (x - y) with 0 by (rewrite Ek, El; ring); apply round_0; typeclasses eauto|right].
  assert (B : forall q, (-1000 <= q <= 1000)%Z -> generic_format radix2 fexp64 (bpow radix2 q)) by (intros q Hq; apply generic_format_bpow; unfold SpecFloat.fexp, SpecFloat.emin; lia).
  split; [|apply abs_round_le_generic; [typeclasses eauto|typeclasses eauto|apply B; lia|exact Hb]].
  apply Rle_trans with (bpow radix2 (e - 52)); [apply bpow_le; lia|].
  apply abs_round_ge_generic; [typeclasses eauto|typeclasses eauto|apply B; lia|].
  replace (x - y) with (IZR (k - l) * bpow radix2 (e - 52)) by (rewrite minus_IZR, Ek, El; ring).
  rewrite Rabs_mult, (Rabs_pos_eq (bpow _ _)) by apply bpow_ge_0. rewrite <- (Rmult_1_l (bpow radix2 (e - 52))) at 1.
  apply Rmult_le_compat_r; [apply bpow_ge_0|]. rewrite <- abs_IZR. apply IZR_le. lia.
Qed.

(** ** Counts *)
Lemma added_counts (data : arr b64) (k : Z * Z -> Z) top : (0 <= top)%Z -> forall o,
  (forall p, In p (order_pixels o) -> is_value (pixel data p) (IZR (k p)) /\ (0 <= k p <= top)%Z) ->
  (Z.of_nat (length (order_pixels o)) * top < 2 ^ 53)%Z ->
  exists S, is_value (added (order_map (pixel data) o)) (IZR S) /\ (0 <= S <= Z.of_nat (length (order_pixels o)) * top)%Z /\
    IZR S = total (map (fun p => IZR (k p)) (order_pixels o)).
Proof.
  intros Ht o. induction o as [p|l IHl r IHr]; cbn [order_pixels order_map added]; intros H HN.
  - destruct (H p (or_introl eq_refl)) as [V B]. exists (k p). split; [exact V|]. split; [cbn [length]; lia|]. unfold total. cbn. lra.
  - rewrite app_length, Nat2Z.inj_add in *.
    destruct IHl as (S & VS & BS & ES); [intros p Ip; apply H, in_or_app; left; exact Ip|lia|].
    destruct IHr as (T & VT & BT & ET); [intros p Ip; apply H, in_or_app; right; exact Ip|lia|].
    exists (S + T)%Z. split; [|split; [lia|]].
    + rewrite plus_IZR. assert (F : generic_format radix2 fexp64 (IZR S + IZR T)) by (rewrite <- plus_IZR; apply int_fmt; lia).
      rewrite <- (rnd_same _ F). apply add_value; [exact VS|exact VT|]. rewrite (rnd_same _ F), <- plus_IZR, <- abs_IZR.
      apply Rle_lt_trans with (bpow radix2 53); [|apply bpow_lt; lia]. rewrite <- (IZR_Zpower radix2 53) by lia. apply IZR_le. change (radix2 ^ 53)%Z with (2 ^ 53)%Z. lia.
    + rewrite plus_IZR, map_app, total_app, ES, ET. reflexivity.
Qed.

Lemma over_total ps f : over ps f = total (map (fun p => f (fst p) (snd p)) ps).
Proof. induction ps as [|p ps IH]; [reflexivity|]. cbn [map]. rewrite total_cons, <- IH. reflexivity. Qed.
Lemma deviation_rms ps f : deviation ps f = rms ps (fun p => f (fst p) (snd p) - RingSpec.average ps f).
Proof. unfold deviation, RingSpec.average at 1. rewrite over_total. reflexivity. Qed.

Lemma counts_choice top ps (data : arr b64) : counts_at top ps data -> exists k : Z * Z -> Z,
  forall p, In p ps -> is_value (pixel data p) (IZR (k p)) /\ (0 <= k p <= top)%Z.
Proof.
  intros H. exists (fun p => Ztrunc (fval (pixel data p))). intros [y x] Ip. destruct (H y x Ip) as (m & Hm & V).
  unfold pixel. cbn [fst snd]. rewrite (value_val _ _ V), Ztrunc_IZR. split; [exact V|exact Hm].
Qed.

Section Counts.
  Context (data : arr b64) (ps : list (Z * Z)) (dd : nat) (pl : ring_plan) (top : Z).
  Let f y x := fval (cell data y x).
  Hypothesis Hpl : plan_for ps dd pl.
  Hypothesis HD : (Z.of_nat dd <= 2 ^ 40)%Z.
  Hypothesis HN : (Z.of_nat (length ps) < 2 ^ 50)%Z.
  Hypothesis Hc : counts_at top ps data.
  Hypothesis Ht : (0 <= top)%Z.
  Hypothesis HT : (Z.of_nat (length ps) * top < 2 ^ 53)%Z.
  Let mu := RingSpec.average ps f.

  Lemma counts_mean : ps <> [] -> exists rm, is_value (ring_mean data (sum_mean pl) (ring_size pl)) rm /\ rm = rnd mu /\
    0 <= mu <= IZR top /\ 0 <= rm <= IZR top /\ Rabs (rm - mu) <= u * IZR top /\
    (rm = 0 \/ bpow radix2 (-50) <= Rabs rm) /\ (top < 2 ^ 53)%Z.
  Proof using Hpl HD HN Hc Ht HT.
    intros Hne. destruct Hpl as (Hn & (Hp & _) & _). destruct (counts_choice _ _ _ Hc) as (k & Hk).
    assert (L : length (order_pixels (sum_mean pl)) = length ps) by (apply Permutation_length, Hp).
    assert (N1 : (1 <= Z.of_nat (length ps))%Z) by (destruct ps; [congruence|cbn [length]; lia]).
    destruct (added_counts data k top Ht (sum_mean pl)) as (S & VS & BS & ES).
    { intros p Ip. apply Hk, (Permutation_in _ Hp), Ip. }
    { rewrite L. exact HT. }
    rewrite L in BS. set (n := Z.of_nat (length ps)) in *.
    assert (Np : 1 <= IZR n) by (apply IZR_le; exact N1).
    assert (Em : mu = IZR S / IZR n).
    { unfold mu, RingSpec.average. rewrite over_total, INR_IZR_INZ. fold n. f_equal. rewrite ES, (total_perm _ _ (Permutation_map _ Hp)). f_equal.
      apply map_ext_in. intros p Ip. exact (value_val _ _ (proj1 (Hk p Ip))). }
    assert (Tb : (top < 2 ^ 53)%Z) by (clear - HT N1 Ht; nia).
    assert (S0 : 0 <= IZR S) by (apply IZR_le; lia).
    assert (Sb : IZR S <= IZR n * IZR top) by (rewrite <- mult_IZR; apply IZR_le; lia).
    assert (M : 0 <= mu <= IZR top).
    { rewrite Em. split; [apply Rmult_le_pos; [exact S0|left; apply Rinv_0_lt_compat; lra]|].
      apply Rmult_le_reg_r with (IZR n); [lra|]. replace (IZR S / IZR n * IZR n) with (IZR S) by (field; lra). lra. }
    assert (Z : mu = 0 \/ bpow radix2 (-50) <= Rabs mu).
    { destruct (Z.eq_dec S 0) as [E|E]; [left; rewrite Em, E; unfold Rdiv; ring|right]. rewrite Rabs_pos_eq by lra. rewrite Em.
      assert (1 <= IZR S) by (apply IZR_le; lia). change (bpow radix2 (-50)) with (/ bpow radix2 50).
      apply Rle_trans with (/ IZR n).
      - apply Rinv_le_contravar; [lra|]. rewrite <- (IZR_Zpower radix2 50) by lia. apply IZR_le. change (radix2 ^ 50)%Z with (2 ^ 50)%Z. lia.
      - unfold Rdiv. rewrite <- (Rmult_1_l (/ IZR n)) at 1. apply Rmult_le_compat_r; [left; apply Rinv_0_lt_compat; lra|assumption]. }
    assert (Ft : generic_format radix2 fexp64 (IZR top)) by (apply int_fmt; lia).
    assert (Rm : 0 <= rnd mu <= IZR top).
    { split; [rewrite <- (round_0 radix2 fexp64 (Znearest (fun t => negb (Z.even t)))); apply rnd_mono; lra|]. rewrite <- (rnd_same _ Ft). apply rnd_mono. lra. }
    assert (T53 : IZR top <= bpow radix2 53) by (rewrite <- (IZR_Zpower radix2 53) by lia; apply IZR_le; change (radix2 ^ 53)%Z with (2 ^ 53)%Z; lia).
    exists (rnd mu). split.
    { unfold ring_mean, mean_in_order. rewrite Hn. fold n. rewrite Em. apply div_value; [exact VS|apply ofZ_value; lia|lra|].
      rewrite <- Em, Rabs_pos_eq by lra. apply Rle_lt_trans with (IZR top); [lra|]. apply Rle_lt_trans with (1 := T53). apply bpow_lt. lia. }
    split; [reflexivity|]. split; [exact M|]. split; [exact Rm|]. split; [|split; [|exact Tb]].
    - apply Rle_trans with (u * Rabs mu).
      + apply rnd_relative. destruct Z as [Z|Z]; [left; exact Z|right; apply Rle_trans with (2 := Z), bpow_le; lia].
      + rewrite (Rabs_pos_eq mu) by lra. apply Rmult_le_compat_l; [pose proof u_half; lra|lra].
    - destruct Z as [Z|Z]; [left; rewrite Z; apply round_0; typeclasses eauto|right].
      apply abs_round_ge_generic; [typeclasses eauto|typeclasses eauto|apply generic_format_bpow; unfold SpecFloat.fexp, SpecFloat.emin; lia|exact Z].
  Qed.

  Lemma counts_dev rm p : (exists m, (0 <= m <= top)%Z /\ is_value (pixel data p) (IZR m)) -> is_value (ring_mean data (sum_mean pl) (ring_size pl)) rm -> 0 <= rm <= IZR top -> (rm = 0 \/ bpow radix2 (-50) <= Rabs rm) -> (top < 2 ^ 53)%Z ->
    is_value (pixel data p) (f (fst p) (snd p)) /\ ordinary (rnd (f (fst p) (snd p) - rm)) /\ Rabs (rnd (f (fst p) (snd p) - rm) - (f (fst p) (snd p) - rm)) <= u * IZR top.
  Proof using Hpl HD HN Hc Ht HT.
    intros (k & Bk & V) Vm Br Zr Tb. destruct p as [y x]. unfold pixel in V |- *. cbn [fst snd] in V |- *. unfold f. rewrite (value_val _ _ V). split; [exact V|].
    assert (K0 : 0 <= IZR k) by (apply IZR_le; lia). assert (K1 : IZR k <= IZR top) by (apply IZR_le; lia).
    assert (D : Rabs (IZR k - rm) <= IZR top) by (apply Rabs_le; lra).
    assert (T53 : IZR top <= bpow radix2 53) by (rewrite <- (IZR_Zpower radix2 53) by lia; apply IZR_le; change (radix2 ^ 53)%Z with (2 ^ 53)%Z; lia).
    split.
    - apply (diff_ordinary _ _ (-50)); [exact (value_fmt _ _ V)|exact (value_fmt _ _ Vm)| |exact Zr|lia|].
      + destruct (Z.eq_dec k 0) as [->|E]; [left; reflexivity|right]. rewrite Rabs_pos_eq by exact K0. apply Rle_trans with (bpow radix2 0); [apply bpow_le; lia|]. apply (IZR_le 1). lia.
      + apply Rle_trans with (1 := D). apply Rle_trans with (1 := T53). apply bpow_le. lia.
    - pose proof (rnd_sum (IZR k) (- rm) (value_fmt _ _ V) (generic_format_opp _ _ _ (value_fmt _ _ Vm))) as E. change (IZR k + - rm) with (IZR k - rm) in E.
      apply Rle_trans with (1 := E). apply Rmult_le_compat_l; [pose proof u_half; lra|exact D].
  Qed.

  Lemma among p : In p ps -> exists m, (0 <= m <= top)%Z /\ is_value (pixel data p) (IZR m).
  Proof using Hc. destruct p as [y x]. intros Ip. exact (Hc y x Ip). Qed.

  (** The pixel of the output need not be one of those of the mean. *)
  Lemma c132_uniform y x y0 x0 : (exists m, (0 <= m <= top)%Z /\ is_value (cell data y x) (IZR m)) -> In (y0, x0) ps -> (forall y' x', In (y', x') ps -> f y' x' = f y0 x0) -> ring_output data (Some pl) (cell data y x) = n0.
  Proof using Hpl HD HN Hc Ht HT.
    intros Iy Ip Hu. assert (Hne : ps <> []) by (intros E; rewrite E in Ip; destruct Ip).
    destruct (counts_mean Hne) as (rm & Vm & Em & _ & Br & _ & Zr & Tb).
    assert (N : 0 < INR (length ps)) by (apply lt_0_INR; destruct ps; [congruence|cbn; lia]).
    assert (E : mu = f y0 x0).
    { unfold mu, RingSpec.average. rewrite over_total. rewrite (map_ext_in _ (fun _ => f y0 x0) ps), total_const; [field; lra|]. intros [y' x'] I'. apply Hu, I'. }
    assert (Fv : generic_format radix2 fexp64 (f y0 x0)) by (destruct (counts_dev rm (y0, x0) (among _ Ip) Vm Br Zr Tb) as (V & _); exact (value_fmt _ _ V)).
    rewrite E, (rnd_same _ Fv) in Em.
    pose proof (ring_near data ps dd pl rm (y, x) (fun p => f (fst p) (snd p)) Hpl HD HN Hne Vm) as R.
    destruct R as [R _]; [destruct (counts_dev rm (y, x) Iy Vm Br Zr Tb) as (V & O & _); split; assumption|intros p I'; destruct (counts_dev rm p (among p I') Vm Br Zr Tb) as (V & O & _); split; assumption|].
    apply R. rewrite (rms_ext _ _ (fun _ => 0)).
    - unfold rms. rewrite Rmult_0_l, total_zeros. unfold Rdiv. rewrite Rmult_0_l. apply sqrt_0.
    - intros [y' x'] I'. cbn [fst snd]. rewrite (Hu y' x' I'), Em, Rminus_eq_0. apply round_0; typeclasses eauto.
  Qed.

  Lemma c132_counts y x : (exists m, (0 <= m <= top)%Z /\ is_value (cell data y x) (IZR m)) -> ps <> [] -> let s := deviation ps f in let z := (f y x - mu) / s in
    0 < s -> 4 * IZR top * u <= s ->
    is_value (ring_output data (Some pl) (cell data y x)) (fval (ring_output data (Some pl) (cell data y x))) /\
    Rabs (fval (ring_output data (Some pl) (cell data y x)) - z) <= (4 * IZR top / s + 8 * INR dd + 24) * u * (1 + Rabs z).
  Proof using Hpl HD HN Hc Ht HT.
    intros Iy Hne s z Hs Hb.
    destruct (counts_mean Hne) as (rm & Vm & Em & Bm & Br & Er & Zr & Tb). pose proof u_half as [U0 U1].
    pose proof (ring_near data ps dd pl rm (y, x) (fun p => f (fst p) (snd p)) Hpl HD HN Hne Vm) as R.
    destruct R as [_ R]; [destruct (counts_dev rm (y, x) Iy Vm Br Zr Tb) as (V & O & _); split; assumption|intros p I'; destruct (counts_dev rm p (among p I') Vm Br Zr Tb) as (V & O & _); split; assumption|].
    cbv beta in R. change (pixel data (y, x)) with (cell data y x) in R. set (d := fun p : Z * Z => rnd (f (fst p) (snd p) - rm)) in *.
    assert (Es : s = rms ps (fun p => f (fst p) (snd p) - mu)) by (unfold s; apply deviation_rms).
    assert (T0 : 0 <= IZR top) by (apply IZR_le, Ht).
    assert (Dv : forall p, (exists m, (0 <= m <= top)%Z /\ is_value (pixel data p) (IZR m)) -> Rabs (d p - (f (fst p) (snd p) - mu)) <= 2 * (u * IZR top)).
    { intros p I'. destruct (counts_dev rm p I' Vm Br Zr Tb) as (_ & _ & E). unfold d.
      replace (rnd (f (fst p) (snd p) - rm) - (f (fst p) (snd p) - mu)) with ((rnd (f (fst p) (snd p) - rm) - (f (fst p) (snd p) - rm)) - (rm - mu)) by ring.
      apply Rle_trans with (1 := Rabs_triang _ _). rewrite Rabs_Ropp. lra. }
    destruct (quotient_moved ps d (fun p => f (fst p) (snd p) - mu) (2 * (u * IZR top)) (y, x) Hne (Dv (y, x) Iy)) as [P Q].
    { assert (0 <= u * IZR top) by (apply Rmult_le_pos; lra). lra. }
    { intros p I'. apply Dv, among, I'. }
    { rewrite <- Es. exact Hs. }
    { rewrite <- Es. lra. }
    rewrite <- Es in Q. cbn [fst snd] in Q. fold z in Q. destruct (R P) as [Vo Ro]. split; [exact Vo|].
    set (out := fval (ring_output data (Some pl) (cell data y x))) in *. set (w := d (y, x) / rms ps d) in *.
    change (rnd (f (fst (y, x)) (snd (y, x)) - rm) / rms ps d) with w in Ro.
    set (t := 2 * (INR dd * (2 * u)) + 12 * u) in *. unfold rel in Ro.
    assert (Z0 : 0 <= Rabs z) by apply Rabs_pos.
    assert (S1 : 2 * (2 * (u * IZR top)) / s <= 1) by (apply Rmult_le_reg_r with s; [exact Hs|]; unfold Rdiv; rewrite Rmult_assoc, Rinv_l by lra; lra).
    assert (S2 : 0 <= 2 * (2 * (u * IZR top)) / s) by (apply Rmult_le_pos; [assert (0 <= u * IZR top) by (apply Rmult_le_pos; lra); lra|left; apply Rinv_0_lt_compat, Hs]).
    assert (W : Rabs w <= 2 * (1 + Rabs z)).
    { replace w with ((w - z) + z) by ring. apply Rle_trans with (1 := Rabs_triang _ _).
      assert (2 * (2 * (u * IZR top)) / s * (1 + Rabs z) <= 1 * (1 + Rabs z)) by (apply Rmult_le_compat_r; lra). lra. }
    assert (T1 : 0 <= t) by (unfold t; pose proof (pos_INR dd); assert (0 <= INR dd * (2 * u)) by (apply Rmult_le_pos; lra); lra).
    replace (out - z) with ((out - w) + (w - z)) by ring. apply Rle_trans with (1 := Rabs_triang _ _).
    pose proof (Rmult_le_compat_l t _ _ T1 W) as W'.
    replace ((4 * IZR top / s + 8 * INR dd + 24) * u * (1 + Rabs z)) with (t * (2 * (1 + Rabs z)) + 2 * (2 * (u * IZR top)) / s * (1 + Rabs z)); [lra|].
    unfold t. field. lra.
  Qed.

  (** A ring that is not uniform varies by at least 1 / n. *)
  Lemma counts_spread : 0 < deviation ps f -> / INR (length ps) <= deviation ps f.
  Proof using Hpl HD HN Hc Ht HT.
    intros Hs. destruct (counts_choice _ _ _ Hc) as (k & Hk). rewrite deviation_rms in Hs |- *. fold mu in Hs |- *.
    assert (Hne : ps <> []). { intros E. rewrite E in Hs. unfold rms, total in Hs. cbn in Hs. unfold Rdiv in Hs. rewrite Rmult_0_l, sqrt_0 in Hs. lra. }
    assert (N : 0 < INR (length ps)) by (apply lt_0_INR; destruct ps; [congruence|cbn; lia]).
    pose (S := fold_right (fun p s => (k p + s)%Z) 0%Z ps). pose (Q := fold_right (fun p s => (k p * k p + s)%Z) 0%Z ps).
    assert (ES : total (map (fun p => f (fst p) (snd p)) ps) = IZR S).
    { rewrite (map_ext_in _ (fun p => IZR (k p)) ps) by (intros p Ip; exact (value_val _ _ (proj1 (Hk p Ip)))). unfold S. clear. induction ps as [|p l IH]; [reflexivity|]. cbn [map fold_right]. rewrite total_cons, plus_IZR, IH. reflexivity. }
    assert (EQ : total (map (fun p => f (fst p) (snd p) * f (fst p) (snd p)) ps) = IZR Q).
    { rewrite (map_ext_in _ (fun p => IZR (k p) * IZR (k p)) ps) by (intros p Ip; cbv beta; rewrite <- (value_val _ _ (proj1 (Hk p Ip))); reflexivity). unfold Q. clear. induction ps as [|p l IH]; [reflexivity|]. cbn [map fold_right]. rewrite total_cons, plus_IZR, mult_IZR, IH. reflexivity. }
    assert (Em : mu = IZR S / INR (length ps)) by (unfold mu, RingSpec.average; rewrite over_total, ES; reflexivity).
    pose (g := fun p : Z * Z => f (fst p) (snd p)). change (total (map g ps) = IZR S) in ES. change (total (map (fun p => g p * g p) ps) = IZR Q) in EQ.
    assert (V : total (map (fun p => (g p - mu) * (g p - mu)) ps) = IZR Q - INR (length ps) * (mu * mu)).
    { transitivity (total (map (fun p => 1 * (1 * (g p * g p) + (- 2 * mu) * g p) + 1 * (mu * mu)) ps)); [f_equal; apply map_ext; intros; ring|].
      rewrite (total_lin (fun p => 1 * (g p * g p) + (- 2 * mu) * g p) (fun _ => mu * mu)), total_lin, total_const, EQ, ES, Em. field. lra. }
    change (rms ps (fun p => f (fst p) (snd p) - mu)) with (rms ps (fun p => g p - mu)) in Hs |- *. unfold rms in Hs |- *. rewrite V in Hs |- *.
    set (n := INR (length ps)) in N, Em, Hs |- *.
    assert (Ev : (IZR Q - n * (mu * mu)) / n = (IZR (Z.of_nat (length ps) * Q - S * S)) / (n * n)).
    { rewrite minus_IZR, !mult_IZR, <- INR_IZR_INZ. fold n. rewrite Em. field. lra. }
    rewrite Ev in Hs |- *. set (w := (Z.of_nat (length ps) * Q - S * S)%Z) in Hs |- *.
    assert (W : (1 <= w)%Z).
    { destruct (Z_le_gt_dec 1 w) as [L|L]; [exact L|exfalso]. rewrite sqrt_neg_0 in Hs; [lra|]. unfold Rdiv. assert (IZR w <= 0) by (apply IZR_le; lia).
      assert (0 < / (n * n)) by (apply Rinv_0_lt_compat, Rmult_lt_0_compat; exact N). assert (0 <= (- IZR w) * / (n * n)) by (apply Rmult_le_pos; lra). lra. }
    rewrite <- (sqrt_square (/ n)) by (left; apply Rinv_0_lt_compat, N). apply sqrt_le_1_alt.
    replace (/ n * / n) with (1 * / (n * n)) by (field; lra). apply Rmult_le_compat_r; [left; apply Rinv_0_lt_compat, Rmult_lt_0_compat; exact N|]. apply IZR_le. exact W.
  Qed.
End Counts.

(** ** A uniform ring of any value *)
Lemma c132_level (data : arr b64) ps dd pl r y x :
  plan_for ps dd pl -> (Z.of_nat dd <= 2 ^ 40)%Z -> (Z.of_nat (length ps) < 2 ^ 50)%Z -> In (y, x) ps ->
  0 < r -> moderate r -> (forall y' x', In (y', x') ps -> is_value (cell data y' x') r) ->
  let out := ring_output data (Some pl) (cell data y x) in
  out = n0 \/ (is_value out (fval out) /\ Rabs (Rabs (fval out) - 1) <= (4 * INR dd + 12) * u).
Proof.
  intros Hpl HD HN Ip Hr Hmod Hv out. pose proof Hpl as (Hn & (Hp & Hdm) & _). apply moderate_bpow in Hmod. rewrite Rabs_pos_eq in Hmod by lra.
  pose proof u_half as [U0 U1]. assert (Hne : ps <> []) by (intros E; rewrite E in Ip; destruct Ip).
  assert (N : 1 <= INR (length ps)) by (apply (le_INR 1); destruct ps; [congruence|cbn; lia]).
  assert (L : length (order_pixels (sum_mean pl)) = length ps) by (apply Permutation_length, Hp).
  set (o := sum_mean pl) in *. set (oo := order_map (pixel data) o).
  assert (Vp : forall p, In p (order_pixels o) -> is_value (pixel data p) r) by (intros [a b] I'; apply Hv, (Permutation_in _ Hp), I').
  assert (Hpx : order_pixels oo = map (pixel data) (order_pixels o)) by apply order_map_pixels.
  assert (X : exact_sum oo = INR (length ps) * r).
  { unfold exact_sum. rewrite Hpx, map_map, (map_ext_in _ (fun _ => r)), total_const, L; [reflexivity|]. intros p I'. apply value_val, Vp, I'. }
  assert (N50 : INR (length ps) <= bpow radix2 50) by (rewrite INR_IZR_INZ, <- (IZR_Zpower radix2 50) by lia; apply IZR_le; change (radix2 ^ 50)%Z with (2 ^ 50)%Z; lia).
  assert (Nr : 0 <= INR (length ps) * r) by (apply Rmult_le_pos; lra).
  assert (Xb : INR (length ps) * r <= bpow radix2 350) by (change 350%Z with (50 + 300)%Z; rewrite bpow_plus; apply Rmult_le_compat; lra).
  assert (C : 0 <= INR (depth o) * (2 * u) <= / 16) by (apply c_small; lia).
  assert (Pw : (1 + u) ^ depth oo <= 1 + INR (depth o) * (2 * u)).
  { unfold oo. rewrite order_map_depth. replace (2 * u) with (bpow radix2 (-52)); [apply pow_u_bound; lia|].
    change (2 * u) with (bpow radix2 1 * bpow radix2 (-53)). rewrite <- bpow_plus. reflexivity. }
  destruct (added_near oo (depth oo) (bpow radix2 350) (le_n _)) as (Va & A0 & E0 & Ea).
  { intros v Iv. rewrite Hpx in Iv. apply in_map_iff in Iv as (p & <- & I'). destruct (Vp p I') as (B & F & E). split; [exact B|]. split; [exact F|]. rewrite E. lra. }
  { rewrite X. exact Xb. }
  { apply Rle_trans with (2 * bpow radix2 350); [apply Rmult_le_compat_r; [apply bpow_ge_0|lra]|]. change 2 with (bpow radix2 1). rewrite <- bpow_plus. apply bpow_le. lia. }
  rewrite X in Ea. set (a := fval (added oo)) in *. set (n := Z.of_nat (length ps)) in *.
  assert (In' : INR (length ps) = IZR n) by apply INR_IZR_INZ. rewrite In' in *.
  assert (Ab : / 2 * (IZR n * r) <= a <= 3 / 2 * (IZR n * r)).
  { apply Rabs_le_inv in Ea. assert (((1 + u) ^ depth oo - 1) * (IZR n * r) <= / 2 * (IZR n * r)) by (apply Rmult_le_compat_r; lra). lra. }
  assert (Aq : / 2 * r <= a / IZR n <= 3 / 2 * r).
  { split; (apply Rmult_le_reg_r with (IZR n); [lra|]); replace (a / IZR n * IZR n) with a by (field; lra); lra. }
  set (rm := rnd (a / IZR n)).
  assert (B : forall q, (-1000 <= q <= 1000)%Z -> generic_format radix2 fexp64 (bpow radix2 q)) by (intros q Hq; apply generic_format_bpow; unfold SpecFloat.fexp, SpecFloat.emin; lia).
  assert (Lo : bpow radix2 (-301) <= / 2 * r) by (change (-301)%Z with (-1 + -300)%Z; rewrite bpow_plus; change (bpow radix2 (-1)) with (/ 2); lra).
  assert (Hi : 3 / 2 * r <= bpow radix2 301) by (change 301%Z with (1 + 300)%Z; rewrite bpow_plus; change (bpow radix2 1) with 2; lra).
  assert (Rm : bpow radix2 (-301) <= rm <= bpow radix2 301).
  { unfold rm. split; [rewrite <- (rnd_same (bpow radix2 (-301))) by (apply B; lia)|rewrite <- (rnd_same (bpow radix2 301)) by (apply B; lia)]; apply rnd_mono; lra. }
  pose proof (bpow_gt_0 radix2 (-301)) as Pb.
  assert (Vm : is_value (ring_mean data (sum_mean pl) (ring_size pl)) rm).
  { unfold ring_mean, mean_in_order. rewrite Hn. fold n. fold o. fold oo. apply div_value; [exact Va|apply ofZ_value; lia|lra|]. fold rm. rewrite Rabs_pos_eq by lra.
    apply Rle_lt_trans with (bpow radix2 301); [lra|apply bpow_lt; lia]. }
  assert (Fr : generic_format radix2 fexp64 r) by (exact (value_fmt _ _ (Hv y x Ip))).
  assert (O : ordinary (rnd (r - rm))).
  { apply (diff_ordinary _ _ (-301)); [exact Fr|exact (value_fmt _ _ Vm)|right; rewrite Rabs_pos_eq by lra; apply Rle_trans with (bpow radix2 (-300)); [apply bpow_le; lia|lra]|right; rewrite Rabs_pos_eq by lra; lra|lia|].
    apply Rle_trans with (bpow radix2 301 + bpow radix2 301); [apply Rabs_le; lra|]. replace (bpow radix2 301 + bpow radix2 301) with (bpow radix2 302); [apply bpow_le; lia|]. change 302%Z with (1 + 301)%Z. rewrite bpow_plus. change (bpow radix2 1) with 2. ring. }
  destruct (ring_near data ps dd pl rm (y, x) (fun _ => r) Hpl HD HN Hne Vm) as [R1 R2].
  { split; [exact (Hv y x Ip)|exact O]. }
  { intros [y' x'] I'. split; [apply Hv, I'|exact O]. }
  cbv beta in R1, R2. change (ring_output data (Some pl) (pixel data (y, x))) with out in R1, R2. set (d := rnd (r - rm)) in *.
  assert (Es : rms ps (fun _ => d) = Rabs d).
  { unfold rms. rewrite total_const, In'. replace (IZR n * (d * d) / IZR n) with (d * d) by (field; lra). apply (sqrt_Rsqr_abs d). }
  rewrite Es in R1, R2. destruct (Req_dec d 0) as [Z|Z]; [left; apply R1; rewrite Z; apply Rabs_R0|right].
  pose proof (Rabs_pos_lt _ Z) as P. destruct (R2 P) as [Vo Ro]. split; [exact Vo|].
  assert (Q : Rabs (d / Rabs d) = 1) by (unfold Rdiv; rewrite Rabs_mult, Rabs_inv, Rabs_Rabsolu; field; lra).
  unfold rel in Ro. rewrite Q in Ro. rewrite <- Q at 1. apply Rle_trans with (1 := Rabs_triang_inv2 _ _). replace ((4 * INR dd + 12) * u) with ((2 * (INR dd * (2 * u)) + 12 * u) * 1) by ring. exact Ro.
Qed.

(** ** Camera counts *)
Lemma c132_camera plan (data : arr b64) cy cx rho_min rho_max step k y x ps dd pl :
  (0 <= rho_min)%Z -> (0 < step)%Z -> (rho_max + step < 2 ^ 25)%Z ->
  (0 <= k)%Z -> (rho_min + k * step < rho_max)%Z -> IZR (rho_min + k * step) < dist y x cy cx <= IZR (rho_min + (k + 1) * step) ->
  In (y, x) ps -> plan (rho_min + k * step)%Z = Some pl -> plan_for ps dd pl -> (Z.of_nat dd <= 65536)%Z -> (Z.of_nat (length ps) <= 65536)%Z ->
  counts_at 65535 ps data ->
  let f y x := fval (cell data y x) in
  exists out, nrgf_full plan data cy cx rho_min rho_max step = Ok out /\
    ((forall y' x', In (y', x') ps -> f y' x' = f y x) -> cell out y x = n0) /\
    ((exists y' x', In (y', x') ps /\ f y' x' <> f y x) ->
     let z := (f y x - RingSpec.average ps f) / deviation ps f in
     0 < deviation ps f /\ finite64 (cell out y x) /\ Rabs (fval (cell out y x) - z) <= powerRZ 2 (-18) * (1 + Rabs z)).
Proof.
  intros Hm Hs Hb Hk Hlt Hd Ip Epl Hpl HD HN Hc f.
  destruct (nrgf_full_cell plan data cy cx rho_min rho_max step k y x Hm Hs Hb Hk Hlt Hd) as (out & Eo & _ & _ & Co).
  exists out. split; [exact Eo|]. rewrite Epl in Co. rewrite Co.
  assert (HT : (Z.of_nat (length ps) * 65535 < 2 ^ 53)%Z) by lia.
  split; [intros Hu; apply (c132_uniform data ps dd pl 65535 Hpl ltac:(lia) ltac:(lia) Hc ltac:(lia) HT y x y x (Hc y x Ip) Ip Hu)|].
  intros (y' & x' & I' & Ne) z.
  assert (Hne : ps <> []) by (intros E; rewrite E in Ip; destruct Ip).
  assert (S0 : 0 < deviation ps f).
  { rewrite deviation_rms. destruct (sqrt_pos (total (map (fun p => (f (fst p) (snd p) - RingSpec.average ps f) * (f (fst p) (snd p) - RingSpec.average ps f)) ps) / INR (length ps))) as [P|Z]; [exact P|exfalso].
    symmetry in Z. pose proof (rms_zero ps (fun p => f (fst p) (snd p) - RingSpec.average ps f) Hne Z) as A.
    pose proof (A _ Ip) as A1. pose proof (A _ I') as A2. cbn [fst snd] in A1, A2. lra. }
  assert (N : 1 <= INR (length ps)) by (apply (le_INR 1); destruct ps; [congruence|cbn; lia]).
  assert (N' : INR (length ps) <= 65536) by (rewrite INR_IZR_INZ; apply IZR_le; lia).
  pose proof (counts_spread data ps dd pl 65535 Hpl ltac:(lia) ltac:(lia) Hc ltac:(lia) HT S0) as Sp. fold f in Sp.
  set (s := deviation ps f) in *. set (n := INR (length ps)) in *.
  assert (Uv : u = / 9007199254740992) by reflexivity.
  assert (Si : / s <= n) by (rewrite <- (Rinv_inv n); apply Rinv_le_contravar; [apply Rinv_0_lt_compat; lra|exact Sp]).
  assert (Sl : / 65536 <= s) by (apply Rle_trans with (2 := Sp), Rinv_le_contravar; lra).
  destruct (c132_counts data ps dd pl 65535 Hpl ltac:(lia) ltac:(lia) Hc ltac:(lia) HT y x (Hc y x Ip) Hne) as [V B]; [exact S0|fold f; fold s; rewrite Uv; lra|].
  fold f in B. fold s in B. fold z in B. split; [exact S0|]. split; [exact (proj1 (proj2 V))|]. apply Rle_trans with (1 := B).
  apply Rmult_le_compat_r; [pose proof (Rabs_pos z); lra|]. assert (P18 : powerRZ 2 (-18) = / 262144) by (rewrite <- (bpow_powerRZ radix2); reflexivity). rewrite P18, Uv.
  assert (D : INR dd <= 65536) by (rewrite INR_IZR_INZ; apply IZR_le; lia).
  assert (T : 4 * 65535 / s <= 4 * 65535 * 65536) by (unfold Rdiv; apply Rmult_le_compat_l; lra). lra.
Qed.

(** ** Eight pixels of 0.1 *)
Lemma eight_ring y x : (0 <= y < 5)%Z -> (0 <= x < 5)%Z -> (In (y, x) eight <-> IZR 1 < dist y x 2 2 <= IZR 2).
Proof.
  intros Hy Hx. unfold dist. set (q := ((y - 2) * (y - 2) + (x - 2) * (x - 2))%Z).
  assert (Q0 : (0 <= q)%Z) by (unfold q; pose proof (Z.square_nonneg (y - 2)); pose proof (Z.square_nonneg (x - 2)); lia).
  pose proof (root_floor q 1 ltac:(lia) Q0) as A. pose proof (root_floor q 2 ltac:(lia) Q0) as B.
  assert (E : IZR 1 < sqrt (IZR q) <= IZR 2 <-> (1 < q <= 4)%Z).
  { split.
    - intros [H1 H2]. apply B in H2. destruct (Z_le_gt_dec q 1) as [L|L]; [apply A in L; lra|lia].
    - intros [H1 H2]. split; [destruct (Rle_or_lt (sqrt (IZR q)) (IZR 1)) as [L|L]; [apply A in L; lia|exact L]|apply B; lia]. }
  rewrite E. clear A B E. unfold q. clear q Q0.
  assert (C : (y = 0 \/ y = 1 \/ y = 2 \/ y = 3 \/ y = 4)%Z) by lia. assert (D : (x = 0 \/ x = 1 \/ x = 2 \/ x = 3 \/ x = 4)%Z) by lia.
  unfold eight. cbn [In]. destruct C as [->|[->|[->|[->| ->]]]]; destruct D as [->|[->|[->|[->| ->]]]]; (split; [intros H; repeat (destruct H as [H|H]; [first [discriminate H|lia]|]); destruct H|intros H; first [exfalso; lia|tauto]]).
Qed.
Lemma c132_tenth : let data := full 5 5 tenth in
  nearest tenth (1 / 10) /\ plan_for eight 7 in_turn_plan /\
  exists out, nrgf_full (fun _ => Some in_turn_plan) data 2 2 1 2 1 = Ok out /\ is_value (cell out 1 1) 1.
Proof.
  cbv zeta. split; [|split].
  - apply is_value_nearest. assert (E : tenth = @ndiv b64 _ (nofZ 1) (nofZ 10)) by (vm_compute; reflexivity). rewrite E.
    apply div_value; [apply ofZ_value; lia|apply ofZ_value; lia|lra|]. apply rnd_huge. apply Rle_trans with (bpow radix2 0); [rewrite Rabs_pos_eq by lra; cbn; lra|apply bpow_le; lia].
  - split; [reflexivity|]. split; (split; [apply Permutation_refl|vm_compute; lia]).
  - eexists. split; [reflexivity|]. match goal with |- is_value ?t _ => let v := eval vm_compute in t in change (is_value v 1) end.
    split; [reflexivity|split; [exact I|]]. cbn [fval]. rewrite <- (bpow_powerRZ radix2). cbn. lra.
Qed.

(** ** As stated *)
Lemma u_power : u = powerRZ 2 (-53).
Proof. apply (bpow_powerRZ radix2). Qed.
Lemma c132_counts_p (data : arr b64) ps dd pl top y x :
  plan_for ps dd pl -> (Z.of_nat dd <= 2 ^ 40)%Z -> (Z.of_nat (length ps) < 2 ^ 50)%Z -> counts_at top ps data -> (0 <= top)%Z ->
  (Z.of_nat (length ps) * top < 2 ^ 53)%Z -> In (y, x) ps ->
  let f y x := fval (cell data y x) in let s := deviation ps f in let z := (f y x - RingSpec.average ps f) / s in
  let out := ring_output data (Some pl) (cell data y x) in
  0 < s -> 4 * IZR top * powerRZ 2 (-53) <= s ->
  finite64 out /\ Rabs (fval out - z) <= (4 * IZR top / s + 8 * INR dd + 24) * powerRZ 2 (-53) * (1 + Rabs z).
Proof.
  intros Hpl HD HN Hc Ht HT Ip f s z out H1 H2. rewrite <- u_power in *.
  destruct (c132_counts data ps dd pl top Hpl HD HN Hc Ht HT y x (Hc y x Ip) ltac:(intros E; rewrite E in Ip; destruct Ip) H1 H2) as [V B]. split; [exact (proj1 (proj2 V))|exact B].
Qed.
Lemma c132_level_p (data : arr b64) ps dd pl r y x :
  plan_for ps dd pl -> (Z.of_nat dd <= 2 ^ 40)%Z -> (Z.of_nat (length ps) < 2 ^ 50)%Z -> In (y, x) ps ->
  0 < r -> moderate r -> (forall y' x', In (y', x') ps -> is_value (cell data y' x') r) ->
  let out := ring_output data (Some pl) (cell data y x) in
  out = n0 \/ (finite64 out /\ Rabs (Rabs (fval out) - 1) <= (4 * INR dd + 12) * powerRZ 2 (-53)).
Proof.
  intros Hpl HD HN Ip Hr Hm Hv out. rewrite <- u_power.
  destruct (c132_level data ps dd pl r y x Hpl HD HN Ip Hr Hm Hv) as [E|[V B]]; [left; exact E|right; split; [exact (proj1 (proj2 V))|exact B]].
Qed.
Lemma c132_refuted : let data := full 5 5 tenth in
  nearest tenth (1 / 10) /\ plan_for eight 7 in_turn_plan /\
  (forall y x, (0 <= y < 5)%Z -> (0 <= x < 5)%Z -> (In (y, x) eight <-> IZR 1 < dist y x 2 2 <= IZR 2)) /\
  exists out, nrgf_full (fun _ => Some in_turn_plan) data 2 2 1 2 1 = Ok out /\ is_value (cell out 1 1) 1.
Proof. cbv zeta. destruct c132_tenth as (A & B & C). split; [exact A|]. split; [exact B|]. split; [exact eight_ring|exact C]. Qed.
Lemma c132_case : let data := mkarr 5 5 (fun y x => nofZ (y + x)) in
  IZR (1 + 0 * 1) < dist 1 1 2 2 <= IZR (1 + (0 + 1) * 1) /\ In (1%Z, 1%Z) eight /\ plan_for eight 7 in_turn_plan /\ counts_at 65535 eight data /\
  (exists y' x', In (y', x') eight /\ fval (cell data y' x') <> fval (cell data 1 1)).
Proof.
  cbv zeta. split; [apply (eight_ring 1 1); [lia|lia|right; left; reflexivity]|]. split; [right; left; reflexivity|]. split; [exact (proj1 (proj2 c132_tenth))|].
  assert (V : forall y x, (0 <= y <= 4)%Z -> (0 <= x <= 4)%Z -> is_value (@nofZ b64 _ (y + x)) (IZR (y + x))) by (intros; apply ofZ_value; lia).
  split.
  - intros y x I'. cbn [cell]. exists (y + x)%Z. assert (B : (0 <= y <= 4 /\ 0 <= x <= 4)%Z) by (unfold eight in I'; cbn [In] in I'; repeat (destruct I' as [I'|I']; [injection I' as <- <-; lia|]); destruct I').
    split; [lia|apply V; apply B].
  - exists 4%Z, 2%Z. split; [unfold eight; cbn [In]; tauto|]. cbn [cell]. rewrite (value_val _ _ (V 4%Z 2%Z ltac:(lia) ltac:(lia))), (value_val _ _ (V 1%Z 1%Z ltac:(lia) ltac:(lia))). intros E. apply eq_IZR in E. lia.
Qed.
