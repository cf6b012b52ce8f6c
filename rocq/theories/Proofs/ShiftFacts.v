From Coq Require Import ZifyBool.
From Verif Require Import Base.Base Base.BaseFacts Base.Num Model.Demosaic Model.Shift
  Proofs.DemosaicFacts.
Ltac Zify.zify_post_hook ::= Z.div_mod_to_equations.

Lemma b2z_pos y : b2z (y >? 0) * y = Z.max 0 y.
Proof. unfold b2z. destruct (y >? 0) eqn:E; lia. Qed.
Lemma b2z_neg y : Z.abs y * b2z (y <? 0) = Z.max 0 (- y).
Proof. unfold b2z. destruct (y <? 0) eqn:E; lia. Qed.

Section ShiftFacts.
  Context {A : Type} `{Num A}.

  Lemma shift_spec (d : arr A) y x m :
    exists r, shift d y x m = Ok r /\ rows r = rows d /\ cols r = cols d /\
      forall j i, 0 <= j < rows d -> 0 <= i < cols d ->
        cell r j i = if (0 <=? j - y) && (j - y <? rows d) && (0 <=? i - x) && (i - x <? cols d)
                     then cell d (j - y) (i - x) else m.
  Proof.
    unfold shift. cbn [full_like full rows cols].
    rewrite !b2z_pos, !b2z_neg.
    destruct (for_set_rect (full_like d m)
      (Z.max 0 y) (rows d - Z.max 0 (- y)) (Z.max 0 x) (cols d - Z.max 0 (- x))
      (fun j i => cell d (j - y) (i - x))
      (fun j i newdata => let* v := get d (j - y) (i - x) in set newdata j i v))
      as (r & E & R & C & Hcell); cbn [full_like full rows cols] in *.
    - lia.
    - lia.
    - lia.
    - lia.
    - intros j i s Hj Hi Hr Hc. rewrite get_in by lia. reflexivity.
    - exists r; split; [exact E|]. split; [lia|]. split; [lia|].
      intros j i Hj Hi. rewrite Hcell. cbn [full_like full cell].
      match goal with |- (if ?a then _ else _) = (if ?b then _ else _) => replace a with b by lia end.
      reflexivity.
  Qed.

  Lemma shift_micropol_spec (d : arr A) y x m :
    wf d -> rows d mod 2 = 0 -> cols d mod 2 = 0 ->
    exists r, shift_micropol d y x m = Ok r /\ rows r = rows d /\ cols r = cols d /\
      forall j i, 0 <= j < rows d -> 0 <= i < cols d ->
        cell r j i = if (0 <=? j - 2 * y) && (j - 2 * y <? rows d)
                        && (0 <=? i - 2 * x) && (i - 2 * x <? cols d)
                     then cell d (j - 2 * y) (i - 2 * x) else m.
  Proof.
    intros Hw Er Ec. unfold shift_micropol.
    destruct (split_spec d Hw Er Ec) as (s & E & Hs). rewrite E. cbn [bind].
    destruct (Hs 0 ltac:(lia)) as (R0 & C0 & S0). destruct (Hs 1 ltac:(lia)) as (R1 & C1 & S1).
    destruct (Hs 2 ltac:(lia)) as (R2 & C2 & S2). destruct (Hs 3 ltac:(lia)) as (R3 & C3 & S3).
    cbn [qnth Z.eqb Pos.eqb] in *.
    destruct (shift_spec (q0 s) y x m) as (s0 & -> & R0' & C0' & T0).
    destruct (shift_spec (q1 s) y x m) as (s1 & -> & R1' & C1' & T1).
    destruct (shift_spec (q2 s) y x m) as (s2 & -> & R2' & C2' & T2).
    destruct (shift_spec (q3 s) y x m) as (s3 & -> & R3' & C3' & T3).
    cbn [bind]. eexists; split; [reflexivity|].
    rewrite merge_rows, merge_cols. cbn [q0]. split; [lia|]. split; [lia|].
    intros j i Hj Hi. rewrite merge_cell.
    assert (Hyy : j mod 2 = 0 \/ j mod 2 = 1) by lia.
    assert (Hxx : i mod 2 = 0 \/ i mod 2 = 1) by lia.
    destruct Hyy as [Ey|Ey], Hxx as [Ex|Ex]; rewrite Ey, Ex;
      match goal with |- cell (qnth _ ?k) _ _ = _ => let k' := eval cbv in k in change k with k' end;
      cbn [qnth Z.eqb Pos.eqb q0 q1 q2 q3];
      [rewrite T0 by lia; rewrite S0|rewrite T1 by lia; rewrite S1
      |rewrite T2 by lia; rewrite S2|rewrite T3 by lia; rewrite S3];
      cbn [Z.div Z.modulo Z.div_eucl Z.pos_div_eucl Z.leb Z.ltb Z.compare Pos.compare Pos.compare_cont];
      match goal with |- (if ?a then cell _ ?u ?v else _) = (if ?b then cell _ ?w ?z else _) =>
         replace a with b by lia; replace u with w by lia; replace v with z by lia end;
      reflexivity.
  Qed.
End ShiftFacts.
