From Coq Require Import ZifyBool.
From Verif Require Import Base.Base Base.BaseFacts Base.Num Model.Demosaic.
Ltac Zify.zify_post_hook ::= Z.div_mod_to_equations.

Lemma split_ok {A} (d : arr A) :
  rows d mod 2 = 0 -> cols d mod 2 = 0 ->
  split_polarizations d =
    Ok (mkquad (stride2 d 0 0) (stride2 d 0 1) (stride2 d 1 0) (stride2 d 1 1)).
Proof.
  intros Hr Hc. unfold split_polarizations. rewrite Hr, Hc. reflexivity.
Qed.

Lemma split_raise {A} (d : arr A) :
  (rows d mod 2 <> 0 \/ cols d mod 2 <> 0) -> split_polarizations d = Raise ValueError.
Proof.
  intros H. unfold split_polarizations.
  replace (negb (rows d mod 2 =? 0) || negb (cols d mod 2 =? 0)) with true by lia.
  reflexivity.
Qed.

Lemma split_spec {A} (d : arr A) :
  wf d -> rows d mod 2 = 0 -> cols d mod 2 = 0 ->
  exists s, split_polarizations d = Ok s /\
    forall k, 0 <= k < 4 ->
      rows (qnth s k) = rows d / 2 /\ cols (qnth s k) = cols d / 2 /\
      forall y x, cell (qnth s k) y x = cell d (2 * y + k / 2) (2 * x + k mod 2).
Proof.
  intros [Hr Hc] Er Ec. rewrite split_ok by assumption. eexists; split; [reflexivity|].
  intros k Hk. assert (k = 0 \/ k = 1 \/ k = 2 \/ k = 3) as D by lia.
  destruct D as [-> | [-> | [-> | ->]]]; cbn [qnth q0 q1 q2 q3 Z.eqb Pos.eqb stride2 rows cols cell];
    (split; [apply stride2_len_even; lia|]; split; [apply stride2_len_even; lia|]);
    intros y x; reflexivity.
Qed.

Lemma merge_cell {A} `{Num A} (s : quad A) y x :
  cell (merge_polarizations s) y x = cell (qnth s (2 * (y mod 2) + x mod 2)) (y / 2) (x / 2).
Proof.
  unfold merge_polarizations, set_stride2; cbn [cell].
  assert (Hy : y mod 2 = 0 \/ y mod 2 = 1) by lia.
  assert (Hx : x mod 2 = 0 \/ x mod 2 = 1) by lia.
  destruct Hy as [->| ->], Hx as [->| ->]; reflexivity.
Qed.

Lemma merge_rows {A} `{Num A} (s : quad A) : rows (merge_polarizations s) = 2 * rows (q0 s).
Proof. unfold merge_polarizations, set_stride2, full; cbn [rows]. lia. Qed.
Lemma merge_cols {A} `{Num A} (s : quad A) : cols (merge_polarizations s) = 2 * cols (q0 s).
Proof. unfold merge_polarizations, set_stride2, full; cbn [cols]. lia. Qed.

Lemma qnth_0 {A} (s : quad A) : qnth s 0 = q0 s. Proof. reflexivity. Qed.

Lemma merge_split {A} `{Num A} (d : arr A) :
  wf d -> rows d mod 2 = 0 -> cols d mod 2 = 0 ->
  exists s, split_polarizations d = Ok s /\ merge_polarizations s =a= d.
Proof.
  intros Hw Er Ec. destruct (split_spec d Hw Er Ec) as (s & E & Hs).
  exists s; split; [exact E|].
  destruct (Hs 0 ltac:(lia)) as (R0 & C0 & _). rewrite qnth_0 in R0, C0.
  split; [rewrite merge_rows; lia|]. split; [rewrite merge_cols; lia|].
  intros y x _ _. rewrite merge_cell.
  destruct (Hs (2 * (y mod 2) + x mod 2) ltac:(lia)) as (_ & _ & ->).
  f_equal; lia.
Qed.

Lemma quad_wf_nth {A} (s : quad A) k :
  quad_wf s -> rows (qnth s k) = rows (q0 s) /\ cols (qnth s k) = cols (q0 s).
Proof.
  intros (_ & [R1 C1] & [R2 C2] & [R3 C3]). unfold qnth.
  destruct (k =? 0); [auto|]. destruct (k =? 1); [auto|]. destruct (k =? 2); auto.
Qed.

Lemma split_merge {A} `{Num A} (s : quad A) :
  quad_wf s ->
  exists t, split_polarizations (merge_polarizations s) = Ok t /\
    forall k, 0 <= k < 4 -> qnth t k =a= qnth s k.
Proof.
  intros Hw. pose proof Hw as ([Hr Hc] & _).
  destruct (split_spec (merge_polarizations s)) as (t & E & Ht).
  - split; [rewrite merge_rows|rewrite merge_cols]; lia.
  - rewrite merge_rows; lia.
  - rewrite merge_cols; lia.
  - exists t; split; [exact E|]. intros k Hk.
    destruct (Ht k Hk) as (R & C & Hcell).
    destruct (quad_wf_nth s k Hw) as [R' C'].
    rewrite merge_rows in R. rewrite merge_cols in C.
    split; [lia|]. split; [lia|]. intros y x _ _. rewrite Hcell, merge_cell.
    replace (2 * ((2 * y + k / 2) mod 2) + (2 * x + k mod 2) mod 2) with k by lia.
    f_equal; lia.
Qed.
