(** Properties C86, C87 and C93: limits around the mean and the median, photometric units. *)
From Coq Require Import Reals Lra.
From Verif Require Import Base.Base Base.Num Model.Limits Spec.CleanSpec Spec.LimitSpec Proofs.LimitFacts.
Local Open Scope R_scope.

(** ** C86 *)
Theorem C86_limits data n :
  values data <> [] -> 0 < n ->
  exists lo hi, mean_minus_std data n = Some lo /\ mean_plus_std data n = Some hi /\
    (lo + hi) / 2 = average (values data) /\ lo <= hi /\
    (lo = hi <-> forall u v, In u (values data) -> In v (values data) -> u = v) /\
    forall k, count (outside lo hi) (values data) k -> INR k * (n * n) <= INR (length (values data)).
Proof. exact (chebyshev data n). Qed.
Print Assumptions C86_limits.

(** The distance of the limits is twice n standard deviations. *)
Theorem C86_deviation data n :
  values data <> [] ->
  mean_minus_std data n = Some (average (values data) - n * deviation (values data)) /\
  mean_plus_std data n = Some (average (values data) + n * deviation (values data)).
Proof. exact (limits_mean data n). Qed.
Print Assumptions C86_deviation.

Theorem C86_empty data n :
  values data = [] ->
  mean_minus_std data n = None /\ mean_plus_std data n = None /\
  median_minus_std data n = None /\ median_plus_std data n = None.
Proof. exact (limits_empty data n). Qed.
Print Assumptions C86_empty.

Example C86_case :
  values (mkarr 2 2 (fun y x => IZR (y - x))) = [0; -1; 1; 0] /\
  count (outside (-1/2) (1/2)) [0; -1; 1; 0] 2 /\ values (full 0 3 1%R) = [].
Proof.
  split; [reflexivity|]. split; [|reflexivity]. unfold outside.
  apply count_no; [lra|]. apply count_yes; [lra|]. apply count_yes; [lra|]. apply count_no; [lra|]. constructor.
Qed.

(** ** C87 *)
Theorem C87_limits data n :
  values data <> [] -> 1 <= n ->
  exists m lo hi, median_minus_std data n = Some lo /\ median_plus_std data n = Some hi /\
    middle (values data) m /\ (lo + hi) / 2 = m /\ lo <= hi /\
    forall k, count (inside lo hi) (values data) k -> (length (values data) <= 2 * k)%nat.
Proof. exact (median_limits data n). Qed.
Print Assumptions C87_limits.

Example C87_case : values (full 3 5 2%R) <> [] /\ count (inside 2 2) [2; 2; 3] 2.
Proof.
  split; [discriminate|]. unfold inside.
  apply count_yes; [lra|]. apply count_yes; [lra|]. apply count_no; [lra|]. constructor.
Qed.

(** ** C93: [rate] and [rate_d] counts per second of image and diffuser *)
Theorem C93_units rate rate_d ti td :
  ti <> 0 -> td <> 0 -> rate_d <> 0 ->
  exists u, get_Bsun_units (rate_d * td) ti td = Ok u /\
    rate * ti * u = (28 / 100) * (1083 / 100000000) * (rate / rate_d).
Proof. exact (bsun_units rate rate_d ti td). Qed.
Print Assumptions C93_units.

Theorem C93_zero i ti td : ti = 0 \/ td = 0 \/ i = 0 -> get_Bsun_units i ti td = Raise ZeroDivisionError.
Proof. exact (bsun_raises i ti td). Qed.
Print Assumptions C93_zero.

Theorem C93_noise v : 0 <= v -> sigma_DN v * sigma_DN v * (693 / 100) = v /\ 0 <= sigma_DN v.
Proof. exact (sigma_noise v). Qed.
Print Assumptions C93_noise.

Example C93_case : exists u, get_Bsun_units (3 * 2) 5 2 = Ok u /\ u <> 0.
Proof.
  destruct (bsun_units 1 3 5 2 ltac:(lra) ltac:(lra) ltac:(lra)) as (u & E & V). exists u. split; [exact E|].
  intros ->. lra.
Qed.
