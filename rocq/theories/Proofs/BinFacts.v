(** C117: demodulating and binning. *)
From Coq Require Import Reals Lra.
From Verif Require Import Base.Base Base.BaseFacts Base.Num Model.Rebin Model.Stokes Model.Demodulate Model.DemodLoad Model.DemodTurn
  Spec.Terminates Spec.SumSpec Spec.MosaicSpec Spec.StokesSpec Spec.DemodSpec Spec.BinSpec
  Proofs.SumFacts Proofs.MosaicFacts Proofs.RebinFacts Proofs.MosaicProps Proofs.StokesProps Proofs.DemodFacts Proofs.TurnFacts.

Lemma rsum2_const h w c : 0 <= h -> 0 <= w -> rsum2 h w (fun _ _ => c) = (IZR (h * w) * c)%R.
Proof. intros Hh Hw. unfold rsum2. rewrite (rsum_ext h _ (fun _ => (IZR w * c)%R)) by (intros; apply rsum_const; lia).
  rewrite rsum_const by lia. rewrite mult_IZR. lra. Qed.

Lemma constant_means m m' b : 1 <= b -> constant_in_bins m b -> means_of_bins m m' b ->
  forall i j Y X u v, 0 <= i < 3 -> 0 <= j < 4 -> 0 <= Y < t_rows m / b -> 0 <= X < t_cols m / b -> 0 <= u < b -> 0 <= v < b ->
    t_cell m i j (b * Y + u) (b * X + v) = t_cell m' i j Y X.
Proof.
  intros Hb Hc (_ & _ & Hm) i j Y X u v Hi Hj HY HX Hu Hv. rewrite (Hm i j Y X Hi Hj HY HX).
  rewrite (rsum2_ext b b _ (fun _ _ => t_cell m i j (b * Y) (b * X))) by (intros; apply Hc; assumption).
  rewrite rsum2_const by lia. rewrite (Hc i j Y X u v) by assumption. field. apply (IZR_neq (b * b) 0). nia.
Qed.

(** Families of the binned image *)
Lemma binned_sample (data r : arr R) b k Y X : 1 <= b ->
  rows r = 2 * (rows data / (2 * b)) -> cols r = 2 * (cols data / (2 * b)) ->
  (forall Y X, 0 <= Y < rows r -> 0 <= X < cols r -> cell r Y X = lsum (family_block data b Y X)) ->
  0 <= k < 4 -> 0 <= Y < rows data / (2 * b) -> 0 <= X < cols data / (2 * b) ->
  sample r k Y X = rsum2 b b (fun u v => sample data k (b * Y + u) (b * X + v)).
Proof.
  intros Hb Rr Cr Hv Hk HY HX. unfold sample.
  assert (Hk2 : 0 <= k / 2 < 2) by (split; [apply Z.div_pos; lia|apply Z.div_lt_upper_bound; lia]).
  pose proof (Z.mod_pos_bound k 2 ltac:(lia)) as Hm2.
  rewrite Hv by (rewrite ?Rr, ?Cr; lia). rewrite lsum_family_block.
  assert (D : forall a c, 0 <= c < 2 -> (2 * a + c) / 2 = a).
  { intros a c Hc. rewrite Z.mul_comm, Z.div_add_l by lia. rewrite (Z.div_small c 2 Hc). lia. }
  assert (E : forall a c, 0 <= c < 2 -> (2 * a + c) mod 2 = c).
  { intros a c Hc. rewrite Z.add_comm, Z.mul_comm, Z.mod_add by lia. apply Z.mod_small. exact Hc. }
  rewrite !D, !E by assumption. apply rsum2_ext. intros u v _ _. f_equal; ring.
Qed.

Definition all_found (d : demodulator R) : Prop := forall f Y X, fit_found_flags d = Some f -> 0 <= Y < rows f -> 0 <= X < cols f -> cell f Y X = 1%R.

Definition row_of_product (m : tensor R) (data : arr R) (i Y X : Z) : R :=
  row_product (fun i j => t_cell m i j Y X) (fun k => sample data k Y X) i.

Lemma demod_no_flags (d : demodulator R) (data : arr R) old : fit_found_flags d = None -> mosaic data ->
  t_rows (mij d) = rows data / 2 -> t_cols (mij d) = cols data / 2 ->
  exists s, demod_raw d data old = Ok s /\
    stokes_is s (rows data / 2) (cols data / 2) (row_of_product (mij d) data 0) (row_of_product (mij d) data 1) (row_of_product (mij d) data 2).
Proof.
  intros Hf Hm Tr Tc. destruct (c24_product d data old _ _ Hm eq_refl eq_refl Tr Tc) as (s & Es & Hs).
  { intros f E. congruence. }
  exists s. split; [exact Es|]. rewrite Hf in Hs. exact Hs.
Qed.

Lemma product_sums (m m' : tensor R) (data r : arr R) b i Y X : 1 <= b ->
  0 <= i < 3 ->
  (forall k, 0 <= k < 4 -> sample r k Y X = rsum2 b b (fun u v => sample data k (b * Y + u) (b * X + v))) ->
  (forall j u v, 0 <= j < 4 -> 0 <= u < b -> 0 <= v < b -> t_cell m i j (b * Y + u) (b * X + v) = t_cell m' i j Y X) ->
  row_of_product m' r i Y X = rsum2 b b (fun u v => row_of_product m data i (b * Y + u) (b * X + v)).
Proof.
  intros Hb Hi Hs Hc. unfold row_of_product, row_product. cbn [nadd nmul Num_R].
  rewrite (Hs 0), (Hs 1), (Hs 2), (Hs 3) by lia.
  rewrite <- !rsum2_scal, <- !rsum2_plus. apply rsum2_ext. intros u v Hu Hv.
  rewrite (Hc 0 u v), (Hc 1 u v), (Hc 2 u v), (Hc 3 u v) by lia. reflexivity.
Qed.

Lemma mosaic_binned (data r : arr R) b : mosaic data -> 1 <= b ->
  rows r = 2 * (rows data / (2 * b)) -> cols r = 2 * (cols data / (2 * b)) -> mosaic r.
Proof.
  intros Hm Hb Rr Cr. destruct (mosaic_wf data Hm) as ((Hr & Hc) & _ & _).
  assert (0 <= rows data / (2 * b)) by (apply Z.div_pos; lia). assert (0 <= cols data / (2 * b)) by (apply Z.div_pos; lia).
  unfold mosaic. rewrite Rr, Cr. set (p := rows data / (2 * b)) in *. set (q := cols data / (2 * b)) in *. clearbody p q.
  assert (E : forall n, (2 * n) mod 2 = 0) by (intros n; rewrite Z.mul_comm; apply Z.mod_mul; lia).
  rewrite !E. lia.
Qed.

Lemma c117_core (d d' : demodulator R) (data r : arr R) old b : 1 <= b -> mosaic data ->
  fit_found_flags d = None -> fit_found_flags d' = None ->
  t_rows (mij d) = rows data / 2 -> t_cols (mij d) = cols data / 2 ->
  means_of_bins (mij d) (mij d') b -> constant_in_bins (mij d) b ->
  rows r = 2 * (rows data / (2 * b)) -> cols r = 2 * (cols data / (2 * b)) ->
  (forall Y X, 0 <= Y < rows r -> 0 <= X < cols r -> cell r Y X = lsum (family_block data b Y X)) ->
  exists s t, demod_raw d data old = Ok s /\ demod_raw d' r old = Ok t /\
    sums_of_bins (sI s) (sI t) b /\ sums_of_bins (sQ s) (sQ t) b /\ sums_of_bins (sU s) (sU t) b.
Proof.
  intros Hb Hm Hf Hf' Tr Tc Hmeans Hconst Rr Cr Hv.
  pose proof (mosaic_binned data r b Hm Hb Rr Cr) as Hmr.
  destruct (demod_no_flags d data old Hf Hm Tr Tc) as (s & Es & (SI1 & SI2) & (SQ1 & SQ2) & (SU1 & SU2) & Vs).
  assert (Dr : rows r / 2 = rows data / (2 * b)) by (rewrite Rr, Z.mul_comm, Z.div_mul; lia).
  assert (Dc : cols r / 2 = cols data / (2 * b)) by (rewrite Cr, Z.mul_comm, Z.div_mul; lia).
  assert (Hr : rows data / (2 * b) = rows data / 2 / b) by (rewrite Z.div_div by lia; reflexivity).
  assert (Hc : cols data / (2 * b) = cols data / 2 / b) by (rewrite Z.div_div by lia; reflexivity).
  pose proof Hmeans as (M1 & M2 & _).
  assert (Tr' : t_rows (mij d') = rows r / 2) by (rewrite Dr, Hr, <- Tr; exact M1).
  assert (Tc' : t_cols (mij d') = cols r / 2) by (rewrite Dc, Hc, <- Tc; exact M2).
  destruct (demod_no_flags d' r old Hf' Hmr Tr' Tc') as (t & Et & (TI1 & TI2) & (TQ1 & TQ2) & (TU1 & TU2) & Vt).
  exists s, t. split; [exact Es|]. split; [exact Et|].
  pose proof (constant_means _ _ b Hb Hconst Hmeans) as Hcm.
  assert (K : forall i Y X, 0 <= i < 3 -> 0 <= Y < rows r / 2 -> 0 <= X < cols r / 2 ->
    row_of_product (mij d') r i Y X = rsum2 b b (fun u v => row_of_product (mij d) data i (b * Y + u) (b * X + v))).
  { intros i Y X Hi HY HX. apply product_sums; [exact Hb|exact Hi| |].
    - intros k Hk. apply (binned_sample data r b k Y X Hb Rr Cr Hv Hk); lia.
    - intros j u v Hj Hu Hv'. apply Hcm; try assumption; rewrite ?Tr, ?Tc, <- ?Hr, <- ?Hc; lia. }
  assert (In_ : forall Y X u v, 0 <= Y < rows r / 2 -> 0 <= X < cols r / 2 -> 0 <= u < b -> 0 <= v < b ->
     0 <= b * Y + u < rows data / 2 /\ 0 <= b * X + v < cols data / 2).
  { assert (G : forall n Y u, 0 <= Y < n / b -> 0 <= u < b -> 0 <= b * Y + u < n).
    { intros n Y u HY Hu. pose proof (Z.mul_div_le n b ltac:(lia)). nia. }
    intros Y X u v HY HX Hu Hv'. rewrite Dr, Hr in HY. rewrite Dc, Hc in HX. split; apply G; assumption. }
  split; [|split]; (split; [congruence|split; [congruence|]]); intros Y X HY HX.
  - rewrite TI1 in HY. rewrite TI2 in HX. destruct (Vt Y X HY HX) as (-> & _ & _). rewrite K by lia.
    apply rsum2_ext. intros u v Hu Hv'. destruct (In_ Y X u v HY HX Hu Hv') as (A & B). destruct (Vs _ _ A B) as (E & _ & _). symmetry; exact E.
  - rewrite TQ1 in HY. rewrite TQ2 in HX. destruct (Vt Y X HY HX) as (_ & -> & _). rewrite K by lia.
    apply rsum2_ext. intros u v Hu Hv'. destruct (In_ Y X u v HY HX Hu Hv') as (A & B). destruct (Vs _ _ A B) as (_ & E & _). symmetry; exact E.
  - rewrite TU1 in HY. rewrite TU2 in HX. destruct (Vt Y X HY HX) as (_ & _ & ->). rewrite K by lia.
    apply rsum2_ext. intros u v Hu Hv'. destruct (In_ Y X u v HY HX Hu Hv') as (A & B). destruct (Vs _ _ A B) as (_ & _ & E). symmetry; exact E.
Qed.

Lemma rebin_bin_means files (d : demodulator R) b :
  0 <= t_rows (mij d) -> 0 <= t_cols (mij d) -> 1 <= b -> load files = Ok d ->
  (t_rows (mij d) / b) mod 2 = 0 -> (t_cols (mij d) / b) mod 2 = 0 ->
  exists d', evaluates (fun fuel => demod_rebin fuel files d b) d' /\ fit_found_flags d' = fit_found_flags d /\
    means_of_bins (mij d) (mij d') b.
Proof.
  intros Hr Hc Hb El He He'.
  destruct (returns_evaluates _ _ (rebin_means files d d b Hr Hc Hb El eq_refl eq_refl He He')) as (d' & Ev & F & R & C & V).
  exists d'. split; [exact Ev|]. split; [exact F|]. split; [exact R|]. split; [exact C|]. intros i j Y X Hi Hj HY HX.
  rewrite (V i j Y X Hi Hj HY HX), lsum_plain_block. reflexivity.
Qed.

Lemma c117_binned files (d : demodulator R) (data : arr R) old b : 1 <= b -> mosaic data ->
  load files = Ok d -> fit_found_flags d = None ->
  t_rows (mij d) = rows data / 2 -> t_cols (mij d) = cols data / 2 ->
  (t_rows (mij d) / b) mod 2 = 0 -> (t_cols (mij d) / b) mod 2 = 0 -> constant_in_bins (mij d) b ->
  exists d' r s t,
    evaluates (fun fuel => demod_rebin fuel files d b) d' /\
    evaluates (fun fuel => micropolarray_rebin fuel data b) r /\
    demod_raw d data old = Ok s /\ demod_raw d' r old = Ok t /\
    sums_of_bins (sI s) (sI t) b /\ sums_of_bins (sQ s) (sQ t) b /\ sums_of_bins (sU s) (sU t) b.
Proof.
  intros Hb Hm El Hf Tr Tc He He' Hconst. destruct (mosaic_wf data Hm) as ((Hr & Hc) & _ & _).
  destruct (rebin_bin_means files d b) as (d' & Ev & F & Hmeans); try assumption.
  { rewrite Tr. apply Z.div_pos; lia. }
  { rewrite Tc. apply Z.div_pos; lia. }
  destruct (returns_evaluates _ _ (c04_rebin data b Hm Hb)) as (r & Er & Rr & Cr & Vr).
  destruct (c117_core d d' data r old b) as (s & t & Es & Et & Hs); try assumption; [congruence|].
  exists d', r, s, t. tauto.
Qed.

(** ** Matrices that differ within a bin *)
Definition spike_tensor : tensor R := mktensor 2 2 (fun i j Y X => if (i =? 0) && (j =? 0) && (Y =? 0) && (X =? 0) then 1%R else 0%R).
Definition spike_image : arr R := mkarr 4 4 (fun y x => if (y =? 0) && (x =? 0) then 1%R else 0%R).
Definition mean_tensor : tensor R := mktensor 1 1 (fun i j _ _ => if (i =? 0) && (j =? 0) then (1 / 4)%R else 0%R).

Lemma rsum2_22 f : rsum2 2 2 f = (f 0%Z 0%Z + (f 0%Z 1%Z + 0) + (f 1%Z 0%Z + (f 1%Z 1%Z + 0) + 0))%R.
Proof. reflexivity. Qed.

Lemma spike_means : means_of_bins spike_tensor mean_tensor 2.
Proof.
  split; [reflexivity|]. split; [reflexivity|]. intros i j Y X Hi Hj HY HX. cbn [spike_tensor t_rows t_cols] in HY, HX.
  change (2 / 2) with 1 in HY, HX. assert (Y = 0) by lia. assert (X = 0) by lia. subst. rewrite rsum2_22.
  unfold spike_tensor, mean_tensor. cbn [t_cell]. change (IZR (2 * 2)) with 4%R.
  destruct ((i =? 0) && (j =? 0)); cbn; lra.
Qed.

Lemma c117_varying : exists (d d' : demodulator R) (data r : arr R) old s t,
  fit_found_flags d = None /\ fit_found_flags d' = None /\ mosaic data /\
  t_rows (mij d) = rows data / 2 /\ t_cols (mij d) = cols data / 2 /\ means_of_bins (mij d) (mij d') 2 /\
  evaluates (fun fuel => micropolarray_rebin fuel data 2) r /\
  demod_raw d data old = Ok s /\ demod_raw d' r old = Ok t /\
  cell (sI t) 0 0 = (1 / 4)%R /\ rsum2 2 2 (fun u v => cell (sI s) (2 * 0 + u) (2 * 0 + v)) = 1%R.
Proof.
  set (d := mkdemodulator spike_tensor None). set (d' := mkdemodulator mean_tensor None).
  set (old := mkstokes (full 2 2 0%R) (full 2 2 0%R) (full 2 2 0%R)).
  assert (Hm : mosaic spike_image) by (repeat split; cbn; lia || reflexivity).
  destruct (returns_evaluates _ _ (c04_rebin spike_image 2 Hm ltac:(lia))) as (r & Er & Rr & Cr & Vr).
  pose proof (mosaic_binned spike_image r 2 Hm ltac:(lia) Rr Cr) as Hmr.
  change (2 * (rows spike_image / (2 * 2))) with 2 in Rr. change (2 * (cols spike_image / (2 * 2))) with 2 in Cr.
  destruct (demod_no_flags d spike_image old eq_refl Hm eq_refl eq_refl) as (s & Es & _ & _ & _ & Vs).
  destruct (demod_no_flags d' r old eq_refl Hmr) as (t & Et & _ & _ & _ & Vt); [rewrite Rr; reflexivity|rewrite Cr; reflexivity|].
  exists d, d', spike_image, r, old, s, t. repeat (split; [first [reflexivity|assumption|exact spike_means]|]).
  rewrite Rr, Cr in Vt. change (rows spike_image / 2) with 2 in Vs. change (cols spike_image / 2) with 2 in Vs. change (2 / 2) with 1 in Vt.
  split.
  - destruct (Vt 0 0 ltac:(lia) ltac:(lia)) as (-> & _ & _).
    assert (S : forall k, 0 <= k < 4 -> sample r k 0 0 = rsum2 2 2 (fun u v => sample spike_image k (2 * 0 + u) (2 * 0 + v))).
    { intros k Hk. apply (binned_sample spike_image r 2 k 0 0); try assumption; try lia; cbn; lia. }
    unfold row_of_product, row_product. rewrite (S 0), (S 1), (S 2), (S 3) by lia. rewrite !rsum2_22.
    unfold sample, spike_image, d', mean_tensor. cbn. lra.
  - rewrite rsum2_22. cbn [Z.mul Z.add].
    destruct (Vs 0 0 ltac:(lia) ltac:(lia)) as (-> & _ & _). destruct (Vs 0 1 ltac:(lia) ltac:(lia)) as (-> & _ & _).
    destruct (Vs 1 0 ltac:(lia) ltac:(lia)) as (-> & _ & _). destruct (Vs 1 1 ltac:(lia) ltac:(lia)) as (-> & _ & _).
    unfold row_of_product, row_product, sample, spike_image, d, spike_tensor. cbn. lra.
Qed.
