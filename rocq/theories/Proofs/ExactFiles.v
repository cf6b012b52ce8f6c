(** Sums and means of camera images read from files are exact in binary64. *)
From Coq Require Import String ZArith Reals Lra Lia.
From Verif Require Import Base.Base Base.Num Base.BaseFacts Model.Keywords Model.FileInit Spec.AngleSpec Spec.FloatSpec
  Spec.FilesSpec Spec.CleanSpec Proofs.FilesFacts Proofs.ExactFacts.
Local Open Scope R_scope.

Lemma fold_fx n j k (names : list string) (f : string -> b64) (g : string -> R) :
  (forall name, In name names -> fx n 0 (f name) (g name)) -> (0 <= n)%Z -> (0 <= j)%Z -> k = (2 ^ j)%Z -> (k < 2 ^ 53)%Z ->
  forall acc racc c, (0 <= c)%Z -> fx c j acc racc -> (c + Z.of_nat (length names) * n < 2 ^ 53)%Z ->
    fx (c + Z.of_nat (length names) * n) j (fold_left (fun acc name => acc +! (f name /! nofZ k)) names acc)
       (fold_left (fun acc name => acc + g name / IZR k) names racc).
Proof.
  intros Hf Hn Hj -> Hk. induction names as [|name names IH]; intros acc racc c Hc Ha Hs; cbn [fold_left].
  - cbn [length Z.of_nat] in *. replace (c + 0 * n)%Z with c by lia. exact Ha.
  - replace (Z.of_nat (length (name :: names))) with (Z.of_nat (length names) + 1)%Z in * by (cbn [length]; lia).
    replace (c + (Z.of_nat (length names) + 1) * n)%Z with ((c + n) + Z.of_nat (length names) * n)%Z in * by lia.
    apply IH; [intros; apply Hf; right; assumption|lia| |lia].
    assert (0 <= Z.of_nat (length names) * n)%Z by (apply Z.mul_nonneg_nonneg; lia).
    pose proof Ha as (_ & _ & _ & _ & _ & Jj).
    apply fx_add; [exact Ha| |lia]. change j with (0 + j)%Z at 1. apply fx_div_pow; [apply Hf; left; reflexivity|lia|lia|exact Hk].
Qed.
Lemma c101_files (rd : reader b64) names (avg : bool) ht wd content head time n j :
  series rd names ht wd content head time -> (2 <= length names)%nat -> (forall name, In name names -> counts n (content name)) ->
  (0 <= n)%Z -> (Z.of_nat (length names) * (n + 1) < 2 ^ 53)%Z -> (0 <= j)%Z -> (avg = true -> Z.of_nat (length names) = 2 ^ j)%Z ->
  exists im, image_from_list rd names avg = Ok im /\ rows (l_data im) = ht /\ cols (l_data im) = wd /\
    forall y x, (0 <= y < ht)%Z -> (0 <= x < wd)%Z ->
      is_value (cell (l_data im) y x)
        (let s := total (map (fun name => fval (cell (content name) y x)) names) in if avg then s / INR (length names) else s).
Proof.
  intros Hs Hn Hc H0 Hb Hj Hp. destruct names as [|first [|second rest]] eqn:E; [cbn in Hn; lia|cbn in Hn; lia|]. rewrite <- E in *.
  destruct (list_ok rd names ht wd content head time Hs first second rest avg E) as (im & Ei & R1 & C1 & V & _).
  exists im. split; [exact Ei|]. split; [exact R1|]. split; [exact C1|]. intros y x Hy Hx. rewrite (V y x Hy Hx).
  set (f := fun name => cell (content name) y x). change (cell (content first) y x) with (f first).
  set (g := fun name => fval (f name)). change (fun name => fval (cell (content name) y x)) with g.
  set (k := if avg then Z.of_nat (length names) else 1%Z).
  destruct Hs as (_ & Hs).
  assert (Hf : forall name, In name names -> fx n 0 (f name) (g name)).
  { intros name Hin. destruct (Hs name Hin) as (_ & Rn & Cn & _). apply (counts_fimg n (content name)); [nia|apply Hc, Hin|..];
      change (rows (values (content name))) with (rows (content name)); change (cols (values (content name))) with (cols (content name)); lia. }
  assert (Hk : exists i, (0 <= i <= 1000)%Z /\ k = (2 ^ i)%Z /\ (k < 2 ^ 53)%Z).
  { unfold k. destruct avg; [|exists 0%Z; split; [lia|]; split; [reflexivity|lia]]. specialize (Hp eq_refl). exists j.
    assert (Hlt : (2 ^ j < 2 ^ 53)%Z) by (rewrite <- Hp; nia). apply Z.pow_lt_mono_r_iff in Hlt; [|lia|lia]. split; [lia|].
    split; [exact Hp|]. rewrite Hp. apply Z.pow_lt_mono_r; lia. }
  destruct Hk as (i & Hi & Ek & Kb).
  assert (L : Z.of_nat (length names) = (Z.of_nat (length (second :: rest)) + 1)%Z) by (rewrite E; cbn [length]; lia).
  assert (F0 : fx n i (f first /! nofZ k) (g first / IZR k)).
  { change i with (0 + i)%Z. rewrite Ek in *. apply fx_div_pow; [apply Hf; rewrite E; left; reflexivity|lia|lia|exact Kb]. }
  pose proof (fold_fx n i k (second :: rest) f g) as F.
  specialize (F ltac:(intros; apply Hf; rewrite E; right; assumption) H0 ltac:(lia) Ek Kb _ _ n H0 F0 ltac:(nia)).
  apply fx_value in F.
  rewrite (fold_div (second :: rest) g) in F.
  replace (let s := total (map g names) in if avg then s / INR (length names) else s)
    with (g first / IZR k + total (map g (second :: rest)) / IZR k); [exact F|].
  assert (T : total (map g names) = g first + total (map g (second :: rest))) by (rewrite E; reflexivity).
  cbv zeta. rewrite T. unfold k. destruct avg; [rewrite INR_IZR_INZ|]; lra.
Qed.
