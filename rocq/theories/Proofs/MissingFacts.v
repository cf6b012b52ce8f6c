(** What becomes of missing pixels (for C134). *)
From Coq Require Import Reals Lia Permutation Floats.SpecFloat.
From Verif Require Import Base.Base Base.BaseFacts Base.Num Model.Demosaic Model.Rebin Model.Ifov Model.Stokes Model.Pol
  Model.PolFloat Model.Demodulate Model.MeanFloat Model.FlatFloat Model.NrgfFloat
  Spec.MosaicSpec Spec.StokesSpec Spec.SumSpec Spec.DemodSpec Spec.Terminates Spec.MeanSpec Spec.AngleSpec Spec.FloatSpec Spec.RoiSpec Spec.RingSpec Spec.MissingSpec
  Proofs.MosaicFacts Proofs.MosaicProps Proofs.StokesFacts Proofs.DemodFacts Proofs.CorrectFloatFacts Proofs.RingFacts.

(** ** Operations on a value that is not a number *)
Lemma add_nan_l v : S754_nan +! v = (S754_nan : b64). Proof. destruct v; reflexivity. Qed.
Lemma add_nan_r v : v +! S754_nan = (S754_nan : b64). Proof. destruct v; reflexivity. Qed.
Lemma sub_nan_l v : S754_nan -! v = (S754_nan : b64). Proof. destruct v; reflexivity. Qed.
Lemma sub_nan_r v : v -! S754_nan = (S754_nan : b64). Proof. destruct v; reflexivity. Qed.
Lemma mul_nan_l v : S754_nan *! v = (S754_nan : b64). Proof. destruct v; reflexivity. Qed.
Lemma mul_nan_r v : v *! S754_nan = (S754_nan : b64). Proof. destruct v; reflexivity. Qed.
Lemma div_nan_l v : S754_nan /! v = (S754_nan : b64). Proof. destruct v; reflexivity. Qed.
Lemma div_nan_r v : v /! S754_nan = (S754_nan : b64). Proof. destruct v; reflexivity. Qed.
Lemma sqrt_nan : nsqrt (S754_nan : b64) = S754_nan. Proof. reflexivity. Qed.
Lemma nan_not_0 : neqb (S754_nan : b64) n0 = false. Proof. reflexivity. Qed.
Lemma nan_not_above_0 : nltb n0 (S754_nan : b64) = false. Proof. reflexivity. Qed.

Ltac nans := repeat (rewrite ?add_nan_l, ?add_nan_r, ?sub_nan_l, ?sub_nan_r, ?mul_nan_l, ?mul_nan_r, ?div_nan_l, ?div_nan_r, ?sqrt_nan).

Lemma fold_nan (l : list b64) v : v = S754_nan \/ In S754_nan l -> fold_left nadd l v = S754_nan.
Proof.
  revert v. induction l as [|a l IH]; intros v [E|I].
  - exact E.
  - destruct I.
  - cbn [fold_left]. apply IH. left. subst v. apply add_nan_l.
  - cbn [fold_left]. apply IH. destruct I as [->|I]; [left; apply add_nan_r|right; exact I].
Qed.

Lemma added_nan (o : order b64) : In S754_nan (order_pixels o) -> added o = S754_nan.
Proof.
  induction o as [v|l IHl r IHr]; cbn [order_pixels added].
  - intros [E|[]]. exact E.
  - intros I. apply in_app_or in I. destruct I as [I|I]; [rewrite (IHl I); apply add_nan_l|rewrite (IHr I); apply add_nan_r].
Qed.

Lemma mean_nan (o : order b64) n : In S754_nan (order_pixels o) -> mean_in_order o n = S754_nan.
Proof. intros I. unfold mean_in_order. rewrite (added_nan o I). apply div_nan_l. Qed.

Lemma order_map_pixels {A B} (f : A -> B) o : order_pixels (order_map f o) = map f (order_pixels o).
Proof. induction o as [v|l IHl r IHr]; cbn [order_map order_pixels map]; [reflexivity|]. rewrite IHl, IHr, map_app. reflexivity. Qed.

(** ** Stokes parameters *)
Lemma four_nan (a b c d : b64) k (f : Z -> b64) :
  0 <= k < 4 -> f 0 = a -> f 1 = b -> f 2 = c -> f 3 = d -> f k = S754_nan -> ((a +! b) +! c) +! d = S754_nan.
Proof.
  intros Hk <- <- <- <- E. assert (K : k = 0 \/ k = 1 \/ k = 2 \/ k = 3) by lia.
  destruct K as [->|[->|[->| ->]]]; rewrite E; nans; reflexivity.
Qed.

Lemma c134_stokes dic a (d : arr b64) k Y X :
  describes dic a -> mosaic d -> 0 <= k < 4 -> 0 <= Y < rows d / 2 -> 0 <= X < cols d / 2 -> sample d k Y X = S754_nan ->
  exists s, data_stokes dic d = Ok s /\ missing (sI s) Y X /\
    (k = p0 a \/ k = p90 a -> missing (sQ s) Y X) /\ (k = p45 a \/ k = pm45 a -> missing (sU s) Y X).
Proof.
  intros Hd Hm Hk HY HX E. destruct (data_stokes_spec dic a d Hd Hm) as (s & Es & _ & _ & _ & Hc).
  exists s. split; [exact Es|]. destruct (Hc Y X HY HX) as (EI & EQ & EU). unfold missing. rewrite EI, EQ, EU.
  split; [|split].
  - rewrite (four_nan _ _ _ _ k (fun k => sample d k Y X) Hk eq_refl eq_refl eq_refl eq_refl E). apply mul_nan_r.
  - intros [<-| <-]; rewrite E; nans; reflexivity.
  - intros [<-| <-]; rewrite E; nans; reflexivity.
Qed.

Lemma four_places a k : arrangement_ok a -> 0 <= k < 4 -> (k = p0 a \/ k = p90 a) \/ (k = p45 a \/ k = pm45 a).
Proof. unfold arrangement_ok. intros H Hk. lia. Qed.

Lemma pB_nan (s : stokes b64) Y X : missing (sQ s) Y X \/ missing (sU s) Y X -> missing (pB s) Y X.
Proof. unfold missing, pB, amap2. cbn [cell]. intros [E|E]; rewrite E; nans; reflexivity. Qed.

Lemma DoLP_nan (s : stokes b64) Y X : missing (sI s) Y X -> missing (DoLP s) Y X.
Proof. unfold missing, DoLP, amap2. cbn [cell]. intros E. rewrite E, nan_not_0. cbn [negb]. apply div_nan_r. Qed.

Lemma AoLP_nan arctan2 (s : stokes b64) Y X :
  (forall v, arctan2 S754_nan v = S754_nan /\ arctan2 v S754_nan = S754_nan) ->
  missing (sQ s) Y X \/ missing (sU s) Y X -> missing (AoLP64 arctan2 s) Y X.
Proof.
  intros Ha. unfold missing, AoLP64, amap2. cbn [cell].
  intros [E|E]; rewrite E; nans; [rewrite (proj2 (Ha _))|rewrite (proj1 (Ha _))]; apply mul_nan_r.
Qed.

Lemma c134_parameters dic a arctan2 (d : arr b64) k Y X :
  (forall v, arctan2 S754_nan v = S754_nan /\ arctan2 v S754_nan = S754_nan) ->
  describes dic a -> mosaic d -> 0 <= k < 4 -> 0 <= Y < rows d / 2 -> 0 <= X < cols d / 2 -> sample d k Y X = S754_nan ->
  exists s, data_stokes dic d = Ok s /\ missing (pB s) Y X /\ missing (DoLP s) Y X /\ missing (AoLP64 arctan2 s) Y X.
Proof.
  intros Ha Hd Hm Hk HY HX E. destruct (c134_stokes dic a d k Y X Hd Hm Hk HY HX E) as (s & Es & NI & NQ & NU).
  exists s. split; [exact Es|].
  assert (N : missing (sQ s) Y X \/ missing (sU s) Y X).
  { destruct (four_places a k (proj1 Hd) Hk) as [K|K]; [left; exact (NQ K)|right; exact (NU K)]. }
  split; [exact (pB_nan s Y X N)|]. split; [exact (DoLP_nan s Y X NI)|exact (AoLP_nan arctan2 s Y X Ha N)].
Qed.

(** ** Demodulation *)
Lemma row_product_nan (m : Z -> Z -> b64) v i k : 0 <= k < 4 -> m i k = S754_nan \/ v k = S754_nan -> row_product m v i = S754_nan.
Proof.
  intros Hk E. unfold row_product.
  apply (four_nan _ _ _ _ k (fun k => m i k *! v k) Hk eq_refl eq_refl eq_refl eq_refl).
  destruct E as [E|E]; rewrite E; nans; reflexivity.
Qed.

Lemma c134_demod (d : demodulator b64) (data : arr b64) old s k Y X :
  mosaic data -> t_rows (mij d) = rows data / 2 -> t_cols (mij d) = cols data / 2 -> fit_found_flags d = None ->
  demod_raw d data old = Ok s -> 0 <= k < 4 -> 0 <= Y < rows data / 2 -> 0 <= X < cols data / 2 ->
  (sample data k Y X = S754_nan -> missing (sI s) Y X /\ missing (sQ s) Y X /\ missing (sU s) Y X) /\
  (t_cell (mij d) 0 k Y X = S754_nan -> missing (sI s) Y X) /\
  (t_cell (mij d) 1 k Y X = S754_nan -> missing (sQ s) Y X) /\
  (t_cell (mij d) 2 k Y X = S754_nan -> missing (sU s) Y X).
Proof.
  intros Hm Tr Tc Hf Es Hk HY HX.
  destruct (c24_product d data old _ _ Hm eq_refl eq_refl Tr Tc) as (s' & Es' & Hs). { intros f E. congruence. }
  rewrite Es in Es'. injection Es' as <-. rewrite Hf in Hs. cbn zeta in Hs. destruct Hs as (_ & _ & _ & Hs).
  destruct (Hs Y X HY HX) as (EI & EQ & EU). unfold missing. rewrite EI, EQ, EU.
  split; [|split; [|split]].
  - intros E. split; [|split]; apply (row_product_nan _ _ _ k Hk); right; exact E.
  - intros E. apply (row_product_nan _ _ _ k Hk); left; exact E.
  - intros E. apply (row_product_nan _ _ _ k Hk); left; exact E.
  - intros E. apply (row_product_nan _ _ _ k Hk); left; exact E.
Qed.

(** ** Binning *)
Lemma binned_spec b n y : 1 <= b -> 0 <= y < 2 * b * (n / (2 * b)) ->
  0 <= binned b y < 2 * (n / (2 * b)) /\
  exists u, 0 <= u < b /\ y = 2 * b * (binned b y / 2) + binned b y mod 2 + 2 * u.
Proof.
  intros Hb Hy. unfold binned. set (q := y / (2 * b)).
  pose proof (Z.mod_pos_bound y 2 ltac:(lia)) as Hm.
  pose proof (Z.div_mod y (2 * b) ltac:(lia)) as Ed. pose proof (Z.mod_pos_bound y (2 * b) ltac:(lia)) as Hr.
  fold q in Ed. set (r := y mod (2 * b)) in *.
  assert (Er : y mod 2 = r mod 2).
  { rewrite Ed. replace (2 * b * q + r) with (r + b * q * 2) by ring. apply Z.mod_add. lia. }
  assert (Q : 0 <= q) by (apply Z.div_pos; lia).
  assert (QN : q < n / (2 * b)).
  { apply Z.div_lt_upper_bound; lia. }
  replace ((2 * q + y mod 2) / 2) with q by (rewrite (Z.mul_comm 2 q), Z.div_add_l by lia; rewrite (Z.div_small (y mod 2) 2) by lia; lia).
  replace ((2 * q + y mod 2) mod 2) with (y mod 2) by (rewrite Z.add_comm, (Z.mul_comm 2 q), Z.mod_add by lia; rewrite Z.mod_mod by lia; reflexivity).
  split; [lia|]. exists (r / 2). pose proof (Z.div_mod r 2 ltac:(lia)) as E2.
  split; [|rewrite Er; lia]. split; [apply Z.div_pos; lia|apply Z.div_lt_upper_bound; lia].
Qed.

Lemma c134_rebin (d : arr b64) b y x :
  mosaic d -> 1 <= b -> 0 <= y < 2 * b * (rows d / (2 * b)) -> 0 <= x < 2 * b * (cols d / (2 * b)) -> missing d y x ->
  returns (fun fuel => micropolarray_rebin fuel d b)
    (fun r => inb r (binned b y) (binned b x) /\ missing r (binned b y) (binned b x)).
Proof.
  intros Hm Hb Hy Hx E. destruct (c04_rebin d b Hm Hb) as (r & (Rr & Rc & Hc) & n & Hn).
  exists r. split; [|exists n; exact Hn].
  destruct (binned_spec b _ y Hb Hy) as (By & u & Hu & Ey). destruct (binned_spec b _ x Hb Hx) as (Bx & v & Hv & Ex).
  rewrite <- Rr in By. rewrite <- Rc in Bx. split; [split; assumption|].
  unfold missing. rewrite (Hc _ _ By Bx). unfold lsum. apply fold_nan. right. unfold family_block.
  apply in_map_iff. exists (u, v). cbn [fst snd]. rewrite <- Ey, <- Ex. split; [exact E|].
  apply in_prod; apply in_zrange; assumption.
Qed.

(** ** Demosaicing *)
Lemma interpolated_nan (d : arr b64) k y x : sample d k (y / 2) (x / 2) = S754_nan -> interpolated d k y x = S754_nan.
Proof.
  intros E. unfold interpolated. rewrite E. destruct (y mod 2 =? 0), (x mod 2 =? 0); nans; reflexivity.
Qed.

Lemma c134_demosaic (d : arr b64) mode k y x :
  mosaic d -> mode = "mean"%string \/ mode = "adjacent"%string -> 0 <= k < 4 -> 0 <= y < rows d -> 0 <= x < cols d ->
  sample d k (y / 2) (x / 2) = S754_nan ->
  exists q, demosaic d mode = Ok q /\ missing (qnth q k) y x.
Proof.
  intros Hm [->| ->] Hk Hy Hx E.
  - destruct (demosaic_mean_spec d Hm) as (q & Eq & Hq). exists q. split; [exact Eq|].
    destruct (Hq k Hk) as (_ & _ & Hc). unfold missing. rewrite (Hc y x Hy Hx), E. apply mul_nan_l.
  - destruct (demosaic_adjacent_spec d Hm) as (q & Eq & Hq). exists q. split; [exact Eq|].
    destruct (Hq k Hk) as (_ & _ & Hc). unfold missing. rewrite (Hc y x Hy Hx). apply interpolated_nan, E.
Qed.

(** ** Instantaneous field of view *)
Lemma c134_ifov (d : arr b64) y x :
  mosaic d -> 0 <= y < rows d -> 0 <= x < cols d -> missing d y x ->
  exists r, ifov_jitcorrect d (rows d) (cols d) = Ok r /\
    (2 <= y -> 2 <= x -> missing r y x) /\ (y < 2 \/ x < 2 -> cell r y x = S754_zero false) /\
    (y + 2 < rows d -> x + 2 < cols d -> missing r (y + 2) (x + 2)).
Proof.
  intros Hm Hy Hx E. destruct (ifov_spec d Hm) as (r & Er & _ & _ & Hc). exists r. split; [exact Er|].
  unfold missing in *. split; [|split].
  - intros Ly Lx. rewrite (Hc y x Hy Hx). replace ((y <? 2) || (x <? 2)) with false by (symmetry; apply orb_false_iff; lia).
    rewrite E. nans. reflexivity.
  - intros L. rewrite (Hc y x Hy Hx). replace ((y <? 2) || (x <? 2)) with true by (symmetry; apply orb_true_iff; lia). reflexivity.
  - intros Ly Lx. rewrite (Hc (y + 2) (x + 2)) by lia. replace ((y + 2 <? 2) || (x + 2 <? 2)) with false by (symmetry; apply orb_false_iff; lia).
    replace (y + 2 - 2) with y by lia. replace (x + 2 - 2) with x by lia. rewrite E. nans. reflexivity.
Qed.

(** ** A missing flat pixel: the mean is not a number *)
Lemma in_concat_cells (a : arr b64) y x : inb a y x -> In (cell a y x) (concat (to_list a)).
Proof.
  intros [Hy Hx]. apply in_concat. exists (map (fun x => cell a y x) (zrange (cols a))). split.
  - unfold to_list. apply in_map_iff. exists y. split; [reflexivity|]. apply in_zrange. exact Hy.
  - apply in_map_iff. exists x. split; [reflexivity|]. apply in_zrange. exact Hx.
Qed.

Lemma c134_flat (flat data : arr b64) junk o y x y' x' :
  same_shape data flat -> order_of flat o -> inb flat y x -> missing flat y x -> inb data y' x' ->
  exists c, flat_data_with (mean_in_order o (rows flat * cols flat)) junk data flat = Ok c /\ missing c y' x'.
Proof.
  intros Hs Ho Hi E [Hy' Hx'].
  assert (M : mean_in_order o (rows flat * cols flat) = S754_nan).
  { apply mean_nan. apply Permutation_in with (1 := Permutation_sym Ho). rewrite <- E. exact (in_concat_cells flat y x Hi). }
  rewrite M. unfold flat_data_with.
  destruct (flat_cells S754_nan junk data flat Hs) as (c & Ec & _ & _ & Hc). exists c. split; [exact Ec|].
  unfold missing. rewrite (Hc y' x' Hy' Hx'). rewrite div_nan_r, nan_not_0. apply div_nan_r.
Qed.

(** ** A missing pixel in a ring: the whole ring is 0 *)
Lemma ring_output_nan (data : arr b64) ps d pl y x v :
  plan_for ps d pl -> In (y, x) ps -> missing data y x -> ring_output data (Some pl) v = S754_zero false.
Proof.
  intros (_ & (P & _) & (P' & _)) I E. unfold ring_output.
  assert (S : ring_std data (sum_mean pl) (sum_squares pl) (ring_size pl) = S754_nan).
  { unfold ring_std. rewrite mean_nan; [apply sqrt_nan|]. rewrite order_map_pixels. apply in_map_iff. exists (y, x). split.
    - unfold pixel. cbn [fst snd]. rewrite E. cbv zeta. nans. reflexivity.
    - apply Permutation_in with (1 := Permutation_sym P'). exact I. }
  cbv zeta. rewrite S, nan_not_above_0. reflexivity.
Qed.

Lemma c134_ring plan (data : arr b64) cy cx rho_min rho_max step k y x y' x' ps dd pl :
  0 <= rho_min -> 0 < step -> rho_max + step < 2 ^ 25 -> 0 <= k -> rho_min + k * step < rho_max ->
  (IZR (rho_min + k * step) < dist y' x' cy cx <= IZR (rho_min + (k + 1) * step))%R ->
  plan (rho_min + k * step) = Some pl -> plan_for ps dd pl -> In (y, x) ps -> missing data y x ->
  exists out, nrgf_full plan data cy cx rho_min rho_max step = Ok out /\ cell out y' x' = S754_zero false.
Proof.
  intros H1 H2 H3 H4 H5 H6 Ep Hp I E.
  destruct (nrgf_full_cell plan data cy cx rho_min rho_max step k y' x' H1 H2 H3 H4 H5 H6) as (out & Eo & _ & _ & Co).
  exists out. split; [exact Eo|]. rewrite Co, Ep. exact (ring_output_nan data ps dd pl y x _ Hp I E).
Qed.
