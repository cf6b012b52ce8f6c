(** Property C68: the normalising signal estimated from a histogram. *)
From Coq Require Import Reals Lra.
From Verif Require Import Base.Base Base.Num Model.Demosaic Model.Histogram Spec.HistSpec Proofs.HistFacts.

(** ** C68.  There is always a first fullest bin of the 1000; what follows depends on where it is. *)
Theorem C68_modal_bin (S_max : list R) :
  exists i, first_modal (fst (histogram S_max 1000)) i /\ 0 <= i < 1000.
Proof. exact (modal_exists S_max). Qed.
Print Assumptions C68_modal_bin.

(** It is the histogram of half the sum of the four images. *)
Theorem C68_half_sum fit (q : quad R) (a : arr R) :
  rows a = rows (q0 q) -> cols a = cols (q0 q) ->
  (forall y x, 0 <= y < rows a -> 0 <= x < cols a ->
     cell a y x = ((cell (q0 q) y x + cell (q1 q) y x + cell (q2 q) y x + cell (q3 q) y x) / 2)%R) ->
  get_malus_normalization fit q = normalizing_signal fit (pixels a).
Proof. exact (c68_half_sum fit q a). Qed.
Print Assumptions C68_half_sum.

(** With ten bins on either side, twenty (bin centre, relative count) points go to the fit. *)
Theorem C68_window_partial fit (S_max : list R) i :
  first_modal (fst (histogram S_max 1000)) i -> 10 <= i <= 990 ->
  exists xs ys p,
    (length xs = 20%nat /\ length ys = 20%nat) /\
    (forall k, (k < 20)%nat -> exists c, nth_error (fst (histogram S_max 1000)) (Z.to_nat (i - 10) + k) = Some c /\
       nth_error ys k = Some (IZR c / IZR (fold_right Z.add 0%Z (pyslice (fst (histogram S_max 1000)) (i - 10) (i + 10))))%R) /\
    (forall k, (k < 20)%nat -> nth_error xs k =
       Some ((edge S_max 1000 (i - 10 + Z.of_nat k) + edge S_max 1000 (i - 10 + Z.of_nat k + 1)) / 2)%R) /\
    normalizing_signal fit S_max = bind (fit xs ys p) (fun '(_, x_0, sigma) => Ok (x_0 + 4 * sigma)%R).
Proof. exact (signal_mid fit S_max i). Qed.
Print Assumptions C68_window_partial.

(** Closer to the left edge the window is empty, closer to the right edge the two windows differ in
    length: no fit can help. *)
Theorem C68_left_refuted fit (S_max : list R) i :
  first_modal (fst (histogram S_max 1000)) i -> i < 10 -> normalizing_signal fit S_max = Raise IndexError.
Proof. exact (signal_low fit S_max i). Qed.
Print Assumptions C68_left_refuted.

Theorem C68_right_refuted fit (S_max : list R) i :
  first_modal (fst (histogram S_max 1000)) i -> 990 < i -> normalizing_signal fit S_max = Raise ValueError.
Proof. exact (signal_high fit S_max i). Qed.
Print Assumptions C68_right_refuted.

(** So more than half of the pixels at the lowest value (a masked field), or at the highest (a
    saturated one), always raise. *)
Theorem C68_masked_refuted fit (S_max : list R) a b :
  is_min a S_max -> is_max b S_max -> a <> b -> Z.of_nat (length S_max) < 2 * occurrences a S_max ->
  normalizing_signal fit S_max = Raise IndexError.
Proof. exact (c68_dark fit S_max a b). Qed.
Print Assumptions C68_masked_refuted.

Theorem C68_saturated_refuted fit (S_max : list R) a b :
  is_min a S_max -> is_max b S_max -> a <> b -> Z.of_nat (length S_max) < 2 * occurrences b S_max ->
  normalizing_signal fit S_max = Raise ValueError.
Proof. exact (c68_bright fit S_max a b). Qed.
Print Assumptions C68_saturated_refuted.

(** Cases: a quarter-lit image, and one with a peak in the middle. *)
Definition four (f : Z -> R) : quad R := mkquad (mkarr 2 2 (fun y x => f (2 * y + x))) (mkarr 2 2 (fun y x => f (2 * y + x)))
  (mkarr 2 2 (fun _ _ => 0%R)) (mkarr 2 2 (fun _ _ => 0%R)).
Example C68_quarter_lit fit :
  get_malus_normalization fit (four (fun k => if k =? 3 then 1%R else 0%R)) = Raise IndexError.
Proof.
  unfold get_malus_normalization. set (l := pixels _).
  assert (E : l = [0; 0; 0; 1]%R).
  { unfold l, pixels, to_list, four. cbn [q0 q1 q2 q3 rows cols cell]. change (zrange 2) with [0; 1].
    cbn [map concat app Z.mul Z.add Z.eqb Pos.eqb Pos.add Pos.mul].
    repeat (apply f_equal2; [lra|]); reflexivity. }
  rewrite E. apply (C68_masked_refuted fit _ 0%R 1%R).
  - split; [cbn; tauto|]. intros u Hu. cbn in Hu. decompose [or] Hu; subst; lra || contradiction.
  - split; [cbn; tauto|]. intros u Hu. cbn in Hu. decompose [or] Hu; subst; lra || contradiction.
  - lra.
  - unfold occurrences. cbn [filter]. destruct (Req_EM_T 0 0); [|lra]. destruct (Req_EM_T 1 0); [lra|]. cbn. lia.
Qed.
Example C68_middle : first_modal (fst (histogram [0; 1 / 2; 1 / 2; 1 / 2; 1]%R 1000)) 500.
Proof.
  apply (majority_modal _ 0%R 1%R (1 / 2)%R).
  - split; [cbn; tauto|]. intros u Hu. cbn in Hu. decompose [or] Hu; subst; lra || contradiction.
  - split; [cbn; tauto|]. intros u Hu. cbn in Hu. decompose [or] Hu; subst; lra || contradiction.
  - lra.
  - lia.
  - change (500 + 1) with 501. lra.
  - unfold occurrences. cbn [filter]. destruct (Req_EM_T 0 (1 / 2)); [lra|]. destruct (Req_EM_T (1 / 2) (1 / 2)); [|lra].
    destruct (Req_EM_T 1 (1 / 2)); [lra|]. cbn. lia.
Qed.
