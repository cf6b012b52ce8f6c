(** Bounds of pi from Machin's formula. *)
From Coq Require Import Reals Lra Lia Machin SeqSeries.
Local Open Scope R_scope.

Lemma atan_series x n : 0 < x < 1 ->
  sum_f_R0 (tg_alt (Ratan_seq x)) (S (2 * n)) <= atan x <= sum_f_R0 (tg_alt (Ratan_seq x)) (2 * n).
Proof.
  intros Hx. rewrite (atan_eq_ps_atan x Hx). assert (P : 0 <= x <= 1) by lra.
  apply alternated_series_ineq; [apply Ratan_seq_decreasing; exact P|apply Ratan_seq_converging; exact P|].
  unfold ps_atan. destruct (in_int x) as [h|h]; [|exfalso; apply h; lra].
  destruct (ps_atan_exists_1 x h) as [v Hv]. exact Hv.
Qed.

(** Partial sums with numbers of fixed form *)
Lemma term_val k n : (0 < k)%Z -> Ratan_seq (/ IZR k) n = / (IZR (k ^ (2 * Z.of_nat n + 1) * (2 * Z.of_nat n + 1))).
Proof.
  intros Hk. unfold Ratan_seq, Rdiv. rewrite mult_IZR. rewrite Rinv_mult. f_equal.
  - rewrite pow_inv. f_equal. rewrite pow_IZR. f_equal. f_equal. lia.
  - f_equal. rewrite INR_IZR_INZ. f_equal. lia.
Qed.

Lemma atan_5_bounds : 0.1973955598498807583 <= atan (/ IZR 5) <= 0.1973955598498807584.
Proof.
  pose proof (atan_series (/ IZR 5) 6 ltac:(lra)) as H.
  cbn [Nat.mul Nat.add sum_f_R0] in H. unfold tg_alt in H. rewrite !term_val in H by lia.
  cbn [pow Z.of_nat Pos.of_succ_nat Pos.succ] in H.
  repeat match type of H with context [IZR (?a ^ ?b * ?c)] => let v := eval vm_compute in (a ^ b * c)%Z in change (a ^ b * c)%Z with v in H end.
  lra.
Qed.
Lemma atan_239_bounds : 0.0041840760020747238 <= atan (/ IZR 239) <= 0.0041840760020747239.
Proof.
  pose proof (atan_series (/ IZR 239) 2 ltac:(lra)) as H.
  cbn [Nat.mul Nat.add sum_f_R0] in H. unfold tg_alt in H. rewrite !term_val in H by lia.
  cbn [pow Z.of_nat Pos.of_succ_nat Pos.succ] in H.
  repeat match type of H with context [IZR (?a ^ ?b * ?c)] => let v := eval vm_compute in (a ^ b * c)%Z in change (a ^ b * c)%Z with v in H end.
  lra.
Qed.
Lemma pi_bounds : 3.14159265358979323 <= PI <= 3.14159265358979325.
Proof. pose proof Machin_4_5_239 as M. pose proof atan_5_bounds. pose proof atan_239_bounds. change (IZR 5) with 5 in *. lra. Qed.
