(** Fuel-free forms of the binning lemmas and the remaining Stokes corollaries. *)
From Coq Require Import ZifyBool Reals Lra.
From Verif Require Import Base.Base Base.BaseFacts Base.Num Model.Demosaic Model.Ifov Model.Stokes
  Model.Rebin Model.Shift Spec.MosaicSpec Spec.SumSpec Spec.StokesSpec Spec.Terminates
  Proofs.DemosaicFacts Proofs.RebinFacts Proofs.RebinAlg Proofs.SumFacts Proofs.MosaicFacts
  Proofs.ShiftFacts Proofs.StokesFacts Proofs.MosaicProps.
Local Open Scope Z_scope.
Ltac Zify.zify_post_hook ::= idtac.

Lemma evaluates_at {A} (f : nat -> result A) r m :
  evaluates f r -> exists fuel, (m <= fuel)%nat /\ f fuel = Ok r.
Proof.
  intros [n Hn]. exists (Nat.max n m). split; [lia|]. apply Hn. lia.
Qed.

Lemma evaluates_agree {A} (f : nat -> result A) r P :
  evaluates f r -> returns f P -> P r.
Proof.
  intros [n Hn] (r' & Hr' & n' & Hn').
  specialize (Hn (Nat.max n n') ltac:(lia)). specialize (Hn' (Nat.max n n') ltac:(lia)).
  congruence.
Qed.

Lemma returns_evaluates {A} (f : nat -> result A) P :
  returns f P -> exists r, evaluates f r /\ P r.
Proof. intros (r & Hr & n & Hn). exists r. split; [exists n; exact Hn|exact Hr]. Qed.

Lemma c06_conserves (d r : arr R) b p q :
  mosaic d -> 1 <= b -> 0 <= p < 2 -> 0 <= q < 2 ->
  evaluates (fun fuel => micropolarray_rebin fuel d b) r ->
  rsum2 (rows r / 2) (cols r / 2) (fun Y X => cell r (2 * Y + p) (2 * X + q)) =
  rsum2 (b * (rows d / (2 * b))) (b * (cols d / (2 * b)))
        (fun y x => cell d (2 * y + p) (2 * x + q)).
Proof.
  intros Hm Hb Hp Hq He. destruct (mosaic_wf d Hm) as (Hw & Er & Ec).
  destruct (evaluates_at _ _ (Z.to_nat (Z.max (rows d) (cols d))) He) as (fuel & Hf & E).
  exact (rebin_conserves d r b fuel p q Hw Hb Er Ec Hp Hq Hf E).
Qed.

Lemma c09_conserves (d r : arr R) b :
  0 <= rows d -> 0 <= cols d -> 1 <= b ->
  evaluates (fun fuel => standard_rebin fuel d b) r ->
  rsum2 (rows r) (cols r) (cell r) =
  rsum2 (b * (rows d / b)) (b * (cols d / b)) (cell d).
Proof.
  intros Hr Hc Hb He.
  destruct (evaluates_at _ _ (Z.to_nat (Z.max (rows d) (cols d))) He) as (fuel & Hf & E).
  exact (std_conserves d r b fuel (conj Hr Hc) Hb Hf E).
Qed.

Lemma c07_compose (d : arr R) a b :
  mosaic d -> 1 <= a -> 1 <= b ->
  exists ra rb rab,
    evaluates (fun fuel => micropolarray_rebin fuel d a) ra /\
    evaluates (fun fuel => micropolarray_rebin fuel ra b) rb /\
    evaluates (fun fuel => micropolarray_rebin fuel d (a * b)) rab /\
    rb =a= rab.
Proof.
  intros Hm Ha Hb. destruct (mosaic_wf d Hm) as (Hw & Er & Ec).
  destruct (returns_evaluates _ _ (c04_rebin d a Hm Ha)) as (ra & Ea & Ra & Ca & _).
  assert (Hma : mosaic ra).
  { destruct (evaluates_at _ _ (Z.to_nat (Z.max (rows d) (cols d))) Ea) as (fuel & Hf & E).
    exact (proj1 (mosaic_rebin d ra a fuel Hm Ha Hf E)). }
  destruct (returns_evaluates _ _ (c04_rebin ra b Hma Hb)) as (rb & Eb & _).
  destruct (returns_evaluates _ _ (c04_rebin d (a * b) Hm ltac:(nia))) as (rab & Eab & _).
  exists ra, rb, rab. repeat (split; [assumption|]).
  set (n := Z.to_nat (Z.max (rows d) (cols d))).
  destruct (evaluates_at _ _ n Ea) as (f1 & H1 & E1).
  destruct (evaluates_at _ _ n Eb) as (f2 & H2 & E2).
  destruct (evaluates_at _ _ n Eab) as (f3 & H3 & E3).
  exact (rebin_compose d ra rb rab a b f1 f2 f3 Hw Ha Hb Er Ec H1 H2 H3 E1 E2 E3).
Qed.

Lemma c07_compose_std (d : arr R) a b :
  0 <= rows d -> 0 <= cols d -> 1 <= a -> 1 <= b ->
  exists ra rb rab,
    evaluates (fun fuel => standard_rebin fuel d a) ra /\
    evaluates (fun fuel => standard_rebin fuel ra b) rb /\
    evaluates (fun fuel => standard_rebin fuel d (a * b)) rab /\
    rb =a= rab.
Proof.
  intros Hr Hc Ha Hb.
  destruct (returns_evaluates _ _ (c09_rebin d a Hr Hc Ha)) as (ra & Ea & Ra & Ca & _).
  assert (Hra : 0 <= rows ra) by (rewrite Ra; apply Z.div_pos; lia).
  assert (Hca : 0 <= cols ra) by (rewrite Ca; apply Z.div_pos; lia).
  destruct (returns_evaluates _ _ (c09_rebin ra b Hra Hca Hb)) as (rb & Eb & _).
  destruct (returns_evaluates _ _ (c09_rebin d (a * b) Hr Hc ltac:(nia))) as (rab & Eab & _).
  exists ra, rb, rab. repeat (split; [assumption|]).
  set (n := Z.to_nat (Z.max (rows d) (cols d))).
  destruct (evaluates_at _ _ n Ea) as (f1 & H1 & E1).
  destruct (evaluates_at _ _ n Eb) as (f2 & H2 & E2).
  destruct (evaluates_at _ _ n Eab) as (f3 & H3 & E3).
  exact (std_compose d ra rb rab a b f1 f2 f3 (conj Hr Hc) Ha Hb H1 H2 H3 E1 E2 E3).
Qed.

Lemma standard_fuel_mono {A} `{Num A} (d u : arr A) b fuel fuel' :
  0 <= rows d -> 0 <= cols d -> 1 <= b -> (Z.to_nat (Z.max (rows d) (cols d)) <= fuel)%nat ->
  standard_rebin fuel d b = Ok u -> (fuel <= fuel')%nat -> standard_rebin fuel' d b = Ok u.
Proof.
  intros Hr Hc Hb Hf E Hle. rewrite <- E. unfold standard_rebin.
  rewrite !trim_std_ok by lia. reflexivity.
Qed.

Lemma c08_split {A} `{Num A} (d : arr A) b :
  mosaic d -> 1 <= b ->
  exists r s t,
    evaluates (fun fuel => micropolarray_rebin fuel d b) r /\
    split_polarizations d = Ok s /\ split_polarizations r = Ok t /\
    forall k, 0 <= k < 4 ->
      exists u, evaluates (fun fuel => standard_rebin fuel (qnth s k) b) u /\ qnth t k =a= u.
Proof.
  intros Hm Hb. destruct (mosaic_wf d Hm) as (Hw & Er & Ec).
  destruct (returns_evaluates _ _ (c04_rebin d b Hm Hb)) as (r & Ev & _).
  destruct (split_spec d Hw Er Ec) as (s & Es & Hs).
  destruct (evaluates_at _ _ (Z.to_nat (Z.max (rows d) (cols d))) Ev) as (fuel & Hf & E).
  destruct (split_rebin d r s b fuel Hw Hb Er Ec Hf E Es) as (t & Et & Ht).
  exists r, s, t. repeat (split; [assumption|]).
  intros k Hk. destruct (Ht k Hk) as (u & Eu & Hu). exists u. split; [|exact Hu].
  destruct (Hs k Hk) as (Rk & Ck & _).
  destruct Hw as [Hr Hc].
  assert (0 <= rows d / 2) by (apply Z.div_pos; lia).
  assert (0 <= cols d / 2) by (apply Z.div_pos; lia).
  assert (rows d / 2 <= rows d) by (apply Z.div_le_upper_bound; lia).
  assert (cols d / 2 <= cols d) by (apply Z.div_le_upper_bound; lia).
  exists fuel. intros fuel' Hle.
  apply (standard_fuel_mono (qnth s k) u b fuel fuel'); [lia|lia|lia|lia|exact Eu|exact Hle].
Qed.

Lemma c08_stokes dic a (d : arr R) b :
  describes dic a -> mosaic d -> 1 <= b ->
  exists r s t tI tQ tU,
    evaluates (fun fuel => micropolarray_rebin fuel d b) r /\
    data_stokes dic d = Ok s /\ data_stokes dic r = Ok t /\
    evaluates (fun fuel => standard_rebin fuel (sI s) b) tI /\
    evaluates (fun fuel => standard_rebin fuel (sQ s) b) tQ /\
    evaluates (fun fuel => standard_rebin fuel (sU s) b) tU /\
    sI t =a= tI /\ sQ t =a= tQ /\ sU t =a= tU.
Proof.
  intros Hd Hm Hb. destruct (mosaic_wf d Hm) as (Hw & Er & Ec).
  destruct (returns_evaluates _ _ (c04_rebin d b Hm Hb)) as (r & Ev & _).
  destruct (data_stokes_spec dic a d Hd Hm) as (s & Es & Hs).
  destruct (evaluates_at _ _ (Z.to_nat (Z.max (rows d) (cols d))) Ev) as (fuel & Hf & E).
  destruct (stokes_rebin dic a d r s b fuel Hd Hm Hb Hf E Es)
    as (t & tI & tQ & tU & Et & EI & EQ & EU & AI & AQ & AU).
  exists r, s, t, tI, tQ, tU.
  destruct Hs as ((RI & CI) & (RQ & CQ) & (RU & CU) & _).
  destruct Hw as [Hr Hc].
  assert (0 <= rows d / 2) by (apply Z.div_pos; lia).
  assert (0 <= cols d / 2) by (apply Z.div_pos; lia).
  assert (rows d / 2 <= rows d) by (apply Z.div_le_upper_bound; lia).
  assert (cols d / 2 <= cols d) by (apply Z.div_le_upper_bound; lia).
  repeat (split; [first [assumption
    | exists fuel; intros fuel' Hle;
      eapply standard_fuel_mono; [| | | | eassumption | exact Hle]; lia]|]).
  assumption.
Qed.

Lemma c11_shift {A} (d : arr A) y x m :
  exists r, shift d y x m = Ok r /\ rows r = rows d /\ cols r = cols d /\
    forall j i, 0 <= j < rows d -> 0 <= i < cols d ->
      (0 <= j - y < rows d /\ 0 <= i - x < cols d -> cell r j i = cell d (j - y) (i - x)) /\
      (~ (0 <= j - y < rows d /\ 0 <= i - x < cols d) -> cell r j i = m).
Proof.
  destruct (shift_spec d y x m) as (r & E & Hr & Hc & Hcell).
  exists r. repeat (split; [assumption|]). intros j i Hj Hi. rewrite Hcell by assumption.
  split; intros Hin.
  - match goal with |- (if ?c then _ else _) = _ => replace c with true by lia end. reflexivity.
  - match goal with |- (if ?c then _ else _) = _ => replace c with false by lia end. reflexivity.
Qed.

Lemma c18_linear dic a (d1 d2 : arr R) (c1 c2 : R) :
  describes dic a -> mosaic d1 -> same_shape d1 d2 ->
  exists s1 s2 s, data_stokes dic d1 = Ok s1 /\ data_stokes dic d2 = Ok s2 /\
    data_stokes dic (amap2 (fun u v => c1 * u + c2 * v)%R d1 d2) = Ok s /\
    stokes_is s (rows d1 / 2) (cols d1 / 2)
      (fun y x => c1 * cell (sI s1) y x + c2 * cell (sI s2) y x)%R
      (fun y x => c1 * cell (sQ s1) y x + c2 * cell (sQ s2) y x)%R
      (fun y x => c1 * cell (sU s1) y x + c2 * cell (sU s2) y x)%R.
Proof.
  intros Hd Hm Hs.
  assert (Hm2 : mosaic d2) by (destruct Hs as [E1 E2]; unfold mosaic; rewrite <- E1, <- E2; exact Hm).
  destruct (data_stokes_spec dic a d1 Hd Hm) as (s1 & E1 & _).
  destruct (data_stokes_spec dic a d2 Hd Hm2) as (s2 & E2 & _).
  destruct (stokes_linear dic a d1 d2 c1 c2 s1 s2 Hd Hm Hs E1 E2) as (s & E & HS).
  exists s1, s2, s. auto.
Qed.

Lemma c18_offset dic a (d1 : arr R) (c : R) :
  describes dic a -> mosaic d1 ->
  exists s1 s, data_stokes dic d1 = Ok s1 /\
    data_stokes dic (amap (fun u => u + c)%R d1) = Ok s /\
    stokes_is s (rows d1 / 2) (cols d1 / 2)
      (fun y x => cell (sI s1) y x + 2 * c)%R (cell (sQ s1)) (cell (sU s1)).
Proof.
  intros Hd Hm. destruct (data_stokes_spec dic a d1 Hd Hm) as (s1 & E1 & _).
  destruct (stokes_offset dic a d1 c s1 Hd Hm E1) as (s & E & HS). exists s1, s. auto.
Qed.

(** A camera that lacks one of the four angles is rejected. *)
Lemma dict_get_missing (d : angle_dic) k : ~ In k (map fst d) -> dict_get d k = Raise KeyError.
Proof.
  induction d as [|[k' v] d IH]; cbn [map fst dict_get In]; intros Hn; [reflexivity|].
  destruct (Z.eqb_spec k k') as [->|]; [tauto|]. apply IH. tauto.
Qed.
Lemma dict_get_cases (d : angle_dic) k : Forall (fun '(_, v) => 0 <= v < 4) d ->
  dict_get d k = Raise KeyError \/ exists v, dict_get d k = Ok v /\ 0 <= v < 4.
Proof.
  induction d as [|[k' v] d IH]; cbn [dict_get]; intros Hf; [left; reflexivity|].
  inversion Hf as [|? ? Hv Hf']; subst. destruct (k =? k'); [right; exists v; auto|auto].
Qed.
Lemma missing_angle {A} `{Num A} dic (d : arr A) k :
  mosaic d -> Forall (fun '(_, v) => 0 <= v < 4) dic -> In k [0; 45; -45; 90] -> ~ In k (map fst dic) ->
  data_stokes dic d = Raise KeyError.
Proof.
  intros Hm Hf Hk Hnot. destruct (mosaic_wf d Hm) as (Hw & Er & Ec).
  destruct (split_spec d Hw Er Ec) as (q & E & _). unfold data_stokes. rewrite E. cbn [bind]. unfold theo_stokes.
  apply dict_get_missing in Hnot.
  destruct (dict_get_cases dic 0 Hf) as [E0|(v0 & E0 & H0)]; rewrite E0; cbn [bind]; [reflexivity|].
  rewrite quad_get_ok by exact H0. cbn [bind].
  destruct (dict_get_cases dic 90 Hf) as [E1|(v1 & E1 & H1)]; rewrite E1; cbn [bind]; [reflexivity|].
  rewrite quad_get_ok by exact H1. cbn [bind].
  destruct (dict_get_cases dic 45 Hf) as [E2|(v2 & E2 & H2)]; rewrite E2; cbn [bind]; [reflexivity|].
  rewrite quad_get_ok by exact H2. cbn [bind].
  destruct (dict_get_cases dic (-45) Hf) as [E3|(v3 & E3 & H3)]; rewrite E3; cbn [bind]; [reflexivity|].
  exfalso. destruct Hk as [<-|[<-|[<-|[<-|[]]]]]; congruence.
Qed.
