(** C33, C34, C75: from files to the series that is fitted. *)
From Coq Require Import Reals Lra Sorting.Sorted Permutation Ascii.
From Verif Require Import Base.Base Base.BaseFacts Base.Num Base.Bcast Model.Rebin Model.Roi Model.DemodFit
  Model.Calibrate Spec.Terminates Spec.SumSpec Spec.MosaicSpec Spec.RoiSpec Spec.PixelSpec Spec.FitSpec Spec.CalibSpec Spec.CleanSpec
  Proofs.MosaicProps Proofs.MaskFacts Proofs.GridFacts.
Ltac Zify.zify_post_hook ::= idtac.

(** ** C33: the flags *)
Lemma flag_loop h w (v : Z -> Z -> R) (flag : arr R) :
  0 <= h -> 0 <= w -> rows flag = 2 * h -> cols flag = 2 * w ->
  (forall Y X, v Y X = 0%R \/ v Y X = 1%R) ->
  (forall y x, 0 <= y < 2 * h -> 0 <= x < 2 * w -> cell flag y x = v (y / 2) (x / 2)) ->
  exists f, for_range 0 (rows flag) 2 (fun super_y =>
        for_range 0 (cols flag) 2 (fun super_x flag =>
          if any22 flag super_y super_x
          then Ok (set_block flag super_y (super_y + 2) super_x (super_x + 2) 1%R)
          else Ok flag)) flag = Ok f /\
    rows f = 2 * h /\ cols f = 2 * w /\
    forall y x, 0 <= y < 2 * h -> 0 <= x < 2 * w -> cell f y x = v (y / 2) (x / 2).
Proof.
  intros Hh Hw Hr Hc Hv Hcell.
  set (Inv := fun f : arr R => rows f = 2 * h /\ cols f = 2 * w /\
    forall y x, 0 <= y < 2 * h -> 0 <= x < 2 * w -> cell f y x = v (y / 2) (x / 2)).
  assert (H0 : Inv flag) by (split; [exact Hr|]; split; [exact Hc|exact Hcell]).
  rewrite Hr, Hc.
  destruct (for_range_inv (fun _ => Inv) 0 (2 * h) 2
    (fun super_y => for_range 0 (2 * w) 2 (fun super_x flag =>
          if any22 flag super_y super_x
          then Ok (set_block flag super_y (super_y + 2) super_x (super_x + 2) 1%R)
          else Ok flag)) flag) as (f & E & Hf).
  - lia.
  - exact H0.
  - intros Y f HY HYlt Hf.
    apply (for_range_inv (fun _ => Inv) 0 (2 * w) 2); [lia|exact Hf|].
    intros X f' HX HXlt Hf'. destruct (any22 f' (0 + Y * 2) (0 + X * 2)) eqn:Ea.
    + eexists; split; [reflexivity|]. destruct Hf' as (h1 & h2 & h3).
      split; [exact h1|]. split; [exact h2|]. intros y x Hy Hx. cbn [set_block cell].
      destruct ((0 + Y * 2 <=? y) && (y <? 0 + Y * 2 + 2) && (0 + X * 2 <=? x) && (x <? 0 + X * 2 + 2)) eqn:Eb;
        [|apply h3; assumption].
      assert (Ey : y / 2 = Y) by (symmetry; apply Z.div_unique with (y - 2 * Y); lia).
      assert (Ex : x / 2 = X) by (symmetry; apply Z.div_unique with (x - 2 * X); lia).
      rewrite Ey, Ex. destruct (Hv Y X) as [Z0|O1]; [exfalso|symmetry; exact O1].
      unfold any22 in Ea. apply existsb_exists in Ea. destruct Ea as (y1 & Hy1 & Ea).
      apply existsb_exists in Ea. destruct Ea as (x1 & Hx1 & Ea).
      apply filter_In in Hy1. apply filter_In in Hx1. destruct Hy1 as [Iy Ly]. destruct Hx1 as [Ix Lx].
      cbn [In] in Iy, Ix.
      rewrite h3 in Ea by lia.
      replace (y1 / 2) with Y in Ea by (apply Z.div_unique with (y1 - 2 * Y); lia).
      replace (x1 / 2) with X in Ea by (apply Z.div_unique with (x1 - 2 * X); lia).
      rewrite Z0 in Ea. unfold Reqb in Ea. destruct (Req_EM_T 0 0); [discriminate|congruence].
    + exists f'. split; [reflexivity|exact Hf'].
  - exists f. split; [exact E|]. exact Hf.
Qed.

Lemma c33_flag h w b y0 x0 r :
  0 <= h -> 0 <= w ->
  exists f, occulter_flag (2 * h) (2 * w) b (Some (y0, x0, r)) = Ok f /\
    rows f = 2 * h /\ cols f = 2 * w /\
    forall Y X k, 0 <= Y < h -> 0 <= X < w -> 0 <= k < 4 ->
      let d := dist Y X (Z.quot (Z.quot y0 b) 2) (Z.quot (Z.quot x0 b) 2) in
      ((0 < d <= IZR (Z.quot (Z.quot r b) 2))%R /\ pixel_of f Y X k = 1%R) \/
      (~ (0 < d <= IZR (Z.quot (Z.quot r b) 2))%R /\ pixel_of f Y X k = 0%R).
Proof.
  intros Hh Hw.
  assert (Hm : mosaic (full (2 * h) (2 * w) 1%R)).
  { unfold mosaic, full; cbn [rows cols]. repeat split; try lia.
    - rewrite Z.mul_comm. apply Z.mod_mul. lia.
    - rewrite Z.mul_comm. apply Z.mod_mul. lia. }
  destruct (roi_super_Z (full (2 * h) (2 * w) 1%R) (Z.quot y0 b) (Z.quot x0 b) 0 (Z.quot r b) 0%R Hm)
    as (m & out & _ & Eo & Hs & Hmask & Ho).
  unfold occulter_flag. rewrite Eo. cbn [bind].
  destruct Ho as (Or & Oc & Ov). cbn [full rows cols] in Or, Oc, Ov, Hmask.
  set (v := fun Y X => if Rlt_dec 0 (dist Y X (Z.quot (Z.quot y0 b) 2) (Z.quot (Z.quot x0 b) 2))
                       then if Rle_dec (dist Y X (Z.quot (Z.quot y0 b) 2) (Z.quot (Z.quot x0 b) 2))
                                 (IZR (Z.quot (Z.quot r b) 2)) then 1%R else 0%R else 0%R).
  destruct (flag_loop h w v out Hh Hw Or Oc) as (f & Ef & Fr & Fc & Fv).
  - intros Y X. unfold v. destruct (Rlt_dec _ _); [destruct (Rle_dec _ _)|]; auto.
  - intros y x Hy Hx. rewrite Ov by assumption. cbn [cell full].
    destruct (cell m y x) eqn:Em.
    + apply Hmask in Em; [|lia|lia]. replace (Z.quot 0 2) with 0 in Em by reflexivity.
      unfold v. destruct (Rlt_dec _ _) as [_|N]; [|exfalso; apply N; lra].
      destruct (Rle_dec _ _) as [_|N]; [reflexivity|exfalso; apply N; lra].
    + unfold v. destruct (Rlt_dec _ _) as [L|]; [|reflexivity].
      destruct (Rle_dec _ _) as [L2|]; [|reflexivity]. exfalso.
      assert (cell m y x = true); [|congruence]. apply Hmask; [lia|lia|].
      replace (Z.quot 0 2) with 0 by reflexivity. lra.
  - exists f. split; [exact Ef|]. split; [exact Fr|]. split; [exact Fc|].
    intros Y X k HY HX Hk. cbn zeta. unfold pixel_of.
    assert (0 <= k / 2 < 2) by (split; [apply Z.div_pos; lia|apply Z.div_lt_upper_bound; lia]).
    assert (0 <= k mod 2 < 2) by (apply Z.mod_pos_bound; lia).
    rewrite Fv by lia.
    replace ((2 * Y + k / 2) / 2) with Y by (apply Z.div_unique with (k / 2); lia).
    replace ((2 * X + k mod 2) / 2) with X by (apply Z.div_unique with (k mod 2); lia).
    unfold v. destruct (Rlt_dec _ _) as [L|L]; [destruct (Rle_dec _ _) as [L2|L2]|].
    + left. split; [lra|reflexivity].
    + right. split; [lra|reflexivity].
    + right. split; [lra|reflexivity].
Qed.

Lemma c33_center h w b y0 x0 r f k :
  0 <= h -> 0 <= w -> 0 <= Z.quot (Z.quot y0 b) 2 < h -> 0 <= Z.quot (Z.quot x0 b) 2 < w -> 0 <= k < 4 ->
  occulter_flag (2 * h) (2 * w) b (Some (y0, x0, r)) = Ok f ->
  pixel_of f (Z.quot (Z.quot y0 b) 2) (Z.quot (Z.quot x0 b) 2) k = 0%R.
Proof.
  intros Hh Hw HY HX Hk E. destruct (c33_flag h w b y0 x0 r Hh Hw) as (f' & E' & _ & _ & Hv).
  rewrite E in E'. injection E' as <-. destruct (Hv _ _ k HY HX Hk) as [[Hd _]|[_ H0]]; [exfalso|exact H0].
  unfold dist in Hd. rewrite !Z.sub_diag in Hd. cbn in Hd. rewrite sqrt_0 in Hd. lra.
Qed.

(** ** C34 *)
Lemma c34_values S n : In n S ->
  exists m, In m (correct_S S) /\ same_shape m n /\
    forall y x, (0 <= cell n y x -> cell m y x = cell n y x)%R /\ (cell n y x < 0 -> cell m y x = 1)%R.
Proof.
  intros Hn. exists (amap (fun v => if Rleb 0 v then v else 1%R) n). split; [apply in_map; exact Hn|].
  split; [split; reflexivity|]. intros y x. cbn [amap cell]. unfold Rleb.
  destruct (Rle_dec 0 (cell n y x)); cbn; split; intros; try reflexivity; lra.
Qed.

(** ** C75: sorting *)
Lemma ascii_compare_lt_trans a b c :
  Ascii.compare a b = Lt -> Ascii.compare b c = Lt -> Ascii.compare a c = Lt.
Proof.
  unfold Ascii.compare. intros H1 H2. apply (proj1 (N.compare_lt_iff _ _)) in H1. apply (proj1 (N.compare_lt_iff _ _)) in H2.
  apply (proj2 (N.compare_lt_iff _ _)). exact (N.lt_trans _ _ _ H1 H2).
Qed.

Lemma ascii_compare_refl a : Ascii.compare a a = Eq.
Proof. unfold Ascii.compare. apply N.compare_refl. Qed.

Lemma leb_cases s t : String.leb s t = true <-> String.compare s t <> Gt.
Proof. unfold String.leb. destruct (String.compare s t); split; congruence. Qed.

Lemma leb_trans : forall s t u, String.leb s t = true -> String.leb t u = true -> String.leb s u = true.
Proof.
  intros s t u. rewrite !leb_cases. revert t u.
  induction s as [|a s IH]; intros t u H1 H2; [destruct u; cbn; congruence|].
  destruct t as [|b t]; [cbn in H1; congruence|]. destruct u as [|c u]; [cbn in H2; congruence|].
  cbn in H1, H2 |- *.
  destruct (Ascii.compare a b) eqn:E1; destruct (Ascii.compare b c) eqn:E2; try congruence.
  - apply Ascii.compare_eq_iff in E1, E2. subst. rewrite ascii_compare_refl. apply (IH t u); assumption.
  - apply Ascii.compare_eq_iff in E1. subst. rewrite E2. congruence.
  - apply Ascii.compare_eq_iff in E2. subst. rewrite E1. congruence.
  - rewrite (ascii_compare_lt_trans _ _ _ E1 E2). congruence.
Qed.

Lemma before_leb p q : pair_leb p q = true <-> before p q.
Proof.
  unfold pair_leb, before, Rltb. destruct (Rlt_dec (fst p) (fst q)) as [L|L].
  - split; [intros _; left; exact L|reflexivity].
  - destruct (Rlt_dec (fst q) (fst p)) as [G|G].
    + split; [discriminate|]. intros [?|[? _]]; lra.
    + split; [intros H; right; split; [lra|exact H]|]. intros [?|[_ H]]; [lra|exact H].
Qed.

Lemma before_total p q : before p q \/ before q p.
Proof.
  unfold before. destruct (Rtotal_order (fst p) (fst q)) as [L|[E|G]]; [tauto| |tauto].
  destruct (leb_total (snd p) (snd q)); [left|right]; right; split; congruence.
Qed.

Lemma before_trans p q r : before p q -> before q r -> before p r.
Proof.
  intros [L|[E L]] [L'|[E' L']]; unfold before; [left; lra|left; lra|left; lra|right].
  split; [congruence|]. exact (leb_trans _ _ _ L L').
Qed.

Lemma before_antisym p q : before p q -> before q p -> p = q.
Proof.
  destruct p as [o s], q as [o' s']. unfold before; cbn [fst snd]. intros [L|[E L]] [L'|[E' L']]; try lra.
  subst. f_equal. apply leb_antisym; assumption.
Qed.

Lemma insert_perm p l : Permutation (insert_pair p l) (p :: l).
Proof.
  induction l as [|q l IH]; cbn [insert_pair]; [apply Permutation_refl|].
  destruct (pair_leb p q); [apply Permutation_refl|].
  apply Permutation_trans with (q :: p :: l); [apply perm_skip; exact IH|apply perm_swap].
Qed.

Lemma sorted_perm l : Permutation (sorted_pairs l) l.
Proof.
  induction l as [|p l IH]; cbn; [apply Permutation_refl|].
  apply Permutation_trans with (p :: sorted_pairs l); [apply insert_perm|apply perm_skip; exact IH].
Qed.

Lemma insert_sorted p l : StronglySorted before l -> StronglySorted before (insert_pair p l).
Proof.
  induction 1 as [|q l Hl IH Hq]; cbn [insert_pair]; [repeat constructor|].
  destruct (pair_leb p q) eqn:E.
  - apply before_leb in E. constructor; [constructor; assumption|]. constructor; [exact E|].
    eapply Forall_impl; [|exact Hq]. intros r Hr. exact (before_trans _ _ _ E Hr).
  - constructor; [exact IH|]. assert (B : before q p).
    { destruct (before_total p q) as [B|B]; [|exact B]. apply before_leb in B. congruence. }
    apply Forall_forall. intros r Hr. apply (Permutation_in r (insert_perm p l)) in Hr.
    destruct Hr as [<-|Hr]; [exact B|]. rewrite Forall_forall in Hq. apply Hq. exact Hr.
Qed.

Lemma sorted_strong l : StronglySorted before (sorted_pairs l).
Proof. induction l as [|p l IH]; cbn; [constructor|apply insert_sorted; exact IH]. Qed.

Lemma sorted_unique l l' : StronglySorted before l -> StronglySorted before l' -> Permutation l l' -> l = l'.
Proof.
  intros Hl. revert l'. induction Hl as [|p l Hl IH Hp]; intros l' Hl' HP.
  - apply Permutation_nil in HP. congruence.
  - destruct Hl' as [|q l' Hl' Hq]; [apply Permutation_sym, Permutation_nil in HP; discriminate|].
    rewrite Forall_forall in Hp, Hq.
    assert (E : p = q).
    { assert (I1 : In p (q :: l')) by (apply (Permutation_in _ HP); left; reflexivity).
      assert (I2 : In q (p :: l)) by (apply (Permutation_in _ (Permutation_sym HP)); left; reflexivity).
      destruct I1 as [E|I1]; [congruence|]. destruct I2 as [E|I2]; [exact E|].
      apply before_antisym; [apply Hp; exact I2|apply Hq; exact I1]. }
    subst q. f_equal. apply IH; [exact Hl'|]. apply Permutation_cons_inv in HP. exact HP.
Qed.

Lemma sorted_pairs_perm l l' : Permutation l l' -> sorted_pairs l = sorted_pairs l'.
Proof.
  intros HP. apply sorted_unique; try apply sorted_strong.
  apply Permutation_trans with l; [apply sorted_perm|]. apply Permutation_trans with l'; [exact HP|].
  apply Permutation_sym, sorted_perm.
Qed.

Lemma among_In v l : among v l = true <-> In v l.
Proof.
  unfold among. rewrite existsb_exists. unfold Reqb. split.
  - intros (x & Hx & E). destruct (Req_EM_T v x); [subst; exact Hx|discriminate].
  - intros Hv. exists v. split; [exact Hv|]. destruct (Req_EM_T v v); [reflexivity|congruence].
Qed.

Lemma all_among_perm angles l l' : Permutation l l' -> all_among angles l = all_among angles l'.
Proof.
  intros HP. unfold all_among. induction angles as [|v angles IH]; cbn [forallb]; [reflexivity|].
  rewrite IH. f_equal. destruct (among v l) eqn:E1, (among v l') eqn:E2; try reflexivity.
  - apply among_In in E1. apply (Permutation_in v HP), among_In in E1. congruence.
  - apply among_In in E2. apply (Permutation_in v (Permutation_sym HP)), among_In in E2. congruence.
Qed.

Lemma map_fst_combine {A B} : forall (l : list A) (l' : list B), length l = length l' -> map fst (combine l l') = l.
Proof.
  induction l as [|a l IH]; intros [|b l'] H; cbn in *; try congruence; try reflexivity.
  f_equal. apply IH. congruence.
Qed.

Lemma c75_order W args fuel os fs os' fs' :
  length os = length fs -> length os' = length fs' ->
  Permutation (combine os fs) (combine os' fs') ->
  calibrate W args fuel os fs = calibrate W args fuel os' fs'.
Proof.
  intros Hl Hl' HP. unfold calibrate.
  assert (Ho : Permutation os os').
  { rewrite <- (map_fst_combine os fs Hl), <- (map_fst_combine os' fs' Hl'). apply Permutation_map. exact HP. }
  rewrite (all_among_perm _ _ _ Ho), (all_among_perm norm_with_135 _ _ Ho), (sorted_pairs_perm _ _ HP). reflexivity.
Qed.

Lemma combine_truncate {A B} : forall (l : list A) (l' extra : list B), length l = length l' ->
  combine l (l' ++ extra) = combine l l'.
Proof.
  induction l as [|a l IH]; intros [|b l'] extra H; cbn in *; try congruence; try reflexivity.
  f_equal. apply IH. congruence.
Qed.

Lemma c75_lengths W args fuel os fs extra :
  length os = length fs ->
  calibrate W args fuel os (fs ++ extra) = calibrate W args fuel os fs.
Proof. intros Hl. unfold calibrate. rewrite (combine_truncate _ _ _ Hl). reflexivity. Qed.

(** ** C75: the series *)
Lemma map_result_forall2 {A B} (f : A -> result B) (P : A -> B -> Prop) : forall l,
  (forall a, In a l -> exists b, f a = Ok b /\ P a b) -> exists bs, map_result f l = Ok bs /\ Forall2 P l bs.
Proof.
  induction l as [|a l IH]; intros H; cbn [map_result].
  - exists []. split; [reflexivity|constructor].
  - destruct (H a (or_introl eq_refl)) as (b & E & Hb). destruct IH as (bs & Es & Hbs).
    { intros a' Ha'. apply H. right. exact Ha'. }
    exists (b :: bs). rewrite E. cbn [bind]. rewrite Es. split; [reflexivity|constructor; assumption].
Qed.

Definition shaped (h w : Z) (a : arr R) : Prop := rows a = 2 * h /\ cols a = 2 * w.
Definition agrees (h w : Z) (f g : Z -> Z -> R) : Prop :=
  forall y x, 0 <= y < 2 * h -> 0 <= x < 2 * w -> f y x = g y x.

Lemma inplace_shaped h w f a b : shaped h w a -> shaped h w b ->
  exists r, inplace f a b = Ok r /\ shaped h w r /\ agrees h w (cell r) (fun y x => f (cell a y x) (cell b y x)).
Proof.
  intros (Ha & Ha') (Hb & Hb'). unfold inplace. rewrite Ha, Ha', Hb, Hb', !Z.eqb_refl. cbn [orb andb].
  eexists; split; [reflexivity|]. split; [split; reflexivity|]. intros y x Hy Hx. cbn [cell].
  unfold bcell. rewrite Hb, Hb'. replace (2 * h =? 1) with false by lia. replace (2 * w =? 1) with false by lia.
  reflexivity.
Qed.

(** [ns], one or as many as there are images, are the functions [nf] *)
Definition stand_for (h w : Z) (n : nat) (ns : list (arr R)) (nf : list (Z -> Z -> R)) : Prop :=
  Forall (shaped h w) ns /\ length nf = n /\
  ((exists s, ns = [s] /\ Forall (agrees h w (cell s)) nf) \/
   (length ns = n /\ Forall2 (fun s f => agrees h w (cell s) f) ns nf)).

Lemma divide_one h w f s : forall data nf, shaped h w s ->
  Forall (shaped h w) data -> length nf = length data -> Forall (agrees h w (cell s)) nf ->
  exists out, map_result (fun a => inplace f a s) data = Ok out /\ Forall (shaped h w) out /\
    length out = length data /\
    same_images h w (map cell out) (map (fun q y x => f (cell (fst q) y x) (snd q y x)) (combine data nf)).
Proof.
  induction data as [|a data IH]; intros nf Hs Hd Hl Hn.
  - destruct nf; [|discriminate]. exists []. repeat split; constructor.
  - destruct nf as [|n nf]; [discriminate|]. inversion Hd; subst. inversion Hn; subst.
    destruct (inplace_shaped h w f a s) as (r & E & Hr & Hv); [assumption|assumption|].
    destruct (IH nf) as (out & Eo & Ho & Lo & Hvo); [assumption|assumption|cbn in Hl; congruence|assumption|].
    exists (r :: out). cbn [map_result]. rewrite E. cbn [bind]. rewrite Eo. cbn [bind].
    split; [reflexivity|]. split; [constructor; assumption|]. split; [cbn; congruence|].
    cbn [map combine]. constructor; [|exact Hvo]. intros y x Hy Hx. rewrite (Hv y x Hy Hx). cbn [fst snd].
    f_equal. match goal with H : agrees h w (cell s) n |- _ => apply H; assumption end.
Qed.

Lemma divide_each h w f : forall data ns nf,
  Forall (shaped h w) data -> Forall (shaped h w) ns -> length ns = length data ->
  Forall2 (fun s f => agrees h w (cell s) f) ns nf ->
  exists out, map_result (fun p => inplace f (fst p) (snd p)) (combine data ns) = Ok out /\
    Forall (shaped h w) out /\ length out = length data /\
    same_images h w (map cell out) (map (fun q y x => f (cell (fst q) y x) (snd q y x)) (combine data nf)).
Proof.
  induction data as [|a data IH]; intros ns nf Hd Hs Hl Hn.
  - destruct ns; [|discriminate]. exists []. repeat split; constructor.
  - destruct ns as [|s ns]; [discriminate|]. inversion Hn as [|? n ? nf' Hsn Hn']; subst.
    inversion Hd; subst. inversion Hs; subst.
    destruct (inplace_shaped h w f a s) as (r & E & Hr & Hv); [assumption|assumption|].
    destruct (IH ns nf') as (out & Eo & Ho & Lo & Hvo); [assumption|assumption|cbn in Hl; congruence|assumption|].
    exists (r :: out). cbn [map_result combine fst snd]. rewrite E. cbn [bind]. rewrite Eo. cbn [bind].
    split; [reflexivity|]. split; [constructor; assumption|]. split; [cbn; congruence|].
    cbn [map combine]. constructor; [|exact Hvo]. intros y x Hy Hx. rewrite (Hv y x Hy Hx). cbn [fst snd].
    f_equal. apply Hsn; assumption.
Qed.

Lemma divide_series_spec h w f data ns nf :
  Forall (shaped h w) data -> stand_for h w (length data) ns nf ->
  exists out, divide_series f data ns = Ok out /\ Forall (shaped h w) out /\ length out = length data /\
    same_images h w (map cell out) (map (fun q y x => f (cell (fst q) y x) (snd q y x)) (combine data nf)).
Proof.
  intros Hd (Hs & Hl & [(s & -> & Hn)|(Hln & Hn)]).
  - inversion Hs; subst. apply divide_one; assumption.
  - destruct ns as [|s [|s' ns]].
    + cbn [divide_series]. rewrite Hln, Nat.eqb_refl. apply (divide_each h w f data []); assumption.
    + inversion Hn as [|? n ? nf' Hsn Hn']; subst. inversion Hn'; subst. inversion Hs; subst.
      apply divide_one; try assumption. constructor; [exact Hsn|constructor].
    + unfold divide_series. rewrite Hln, Nat.eqb_refl. apply (divide_each h w f data (s :: s' :: ns)); assumption.
Qed.

Lemma same_images_trans h w l1 l2 l3 : same_images h w l1 l2 -> same_images h w l2 l3 -> same_images h w l1 l3.
Proof.
  intros H. revert l3. induction H as [|f g l l' Hfg H IH]; intros l3 H3.
  - inversion H3. constructor.
  - inversion H3 as [|? g' ? l'' Hgg H4]; subst. constructor; [|apply IH; exact H4].
    intros y x Hy Hx. rewrite Hfg by assumption. apply Hgg; assumption.
Qed.

(** Facts that hold for all large enough amounts of fuel *)
Definition eventually (P : nat -> Prop) : Prop := exists n, forall fuel, (n <= fuel)%nat -> P fuel.

Lemma eventually_and P Q : eventually P -> eventually Q -> eventually (fun n => P n /\ Q n).
Proof.
  intros (n & Hn) (m & Hm). exists (Nat.max n m). intros fuel Hf. split; [apply Hn|apply Hm]; lia.
Qed.
Lemma eventually_always (P : Prop) : P -> eventually (fun _ => P).
Proof. intros H. exists O. auto. Qed.
Lemma eventually_impl (P Q : nat -> Prop) : (forall n, P n -> Q n) -> eventually P -> eventually Q.
Proof. intros HI (n & Hn). exists n. auto. Qed.
Lemma eventually_forall2 {A B} (P : A -> B -> nat -> Prop) l l' :
  Forall2 (fun a b => eventually (P a b)) l l' -> eventually (fun n => Forall2 (fun a b => P a b n) l l').
Proof.
  induction 1 as [|a b l l' Hab H IH]; [exists O; constructor|].
  destruct (eventually_and _ _ Hab IH) as (n & Hn). exists n. intros fuel Hf.
  destruct (Hn fuel Hf). constructor; assumption.
Qed.

Lemma map_result_ok {A B} (f : A -> result B) l l' :
  Forall2 (fun a b => f a = Ok b) l l' -> map_result f l = Ok l'.
Proof. induction 1 as [|a b l l' E H IH]; cbn [map_result]; [reflexivity|]. rewrite E. cbn [bind]. rewrite IH. reflexivity. Qed.

Lemma Forall2_impl {A B} (P Q : A -> B -> Prop) l l' :
  (forall a b, P a b -> Q a b) -> Forall2 P l l' -> Forall2 Q l l'.
Proof. induction 2; constructor; auto. Qed.

Lemma Forall2_map_r {A B C} (P : A -> C -> Prop) (g : B -> C) l l' :
  Forall2 (fun a b => P a (g b)) l l' -> Forall2 P l (map g l').
Proof. induction 1; cbn [map]; constructor; auto. Qed.

(** The image after dark correction *)
Definition corrected (dark : option (arr R)) (r : arr R) : arr R :=
  match dark with
  | None => r
  | Some d => amap (fun v => if Rleb 0 v then v else 0%R)
                (mkarr (rows r) (cols r) (fun y x => (cell r y x - bcell d y x)%R))
  end.

Lemma corrected_level h w dark r : shaped h w r -> (forall d, dark = Some d -> shaped h w d) ->
  shaped h w (corrected dark r) /\ agrees h w (cell (corrected dark r)) (level dark r).
Proof.
  intros Hr Hd. destruct dark as [d|]; [|split; [exact Hr|intros y x _ _; reflexivity]].
  destruct (Hd d eq_refl) as (D1 & D2). split; [exact Hr|]. intros y x Hy Hx. cbn [corrected amap cell level].
  unfold bcell. rewrite D1, D2. replace (2 * h =? 1) with false by lia. replace (2 * w =? 1) with false by lia.
  unfold Rleb. destruct (Rle_dec 0 (cell r y x - cell d y x)).
  - rewrite Rmax_right by assumption. reflexivity.
  - rewrite Rmax_left by lra. reflexivity.
Qed.

Lemma collect_ok W args fuel h w dark name r :
  a_flat args = None -> shaped h w r ->
  (a_dark args = None <-> dark = None) -> (forall d, dark = Some d -> shaped h w d) ->
  read_binned W args fuel name = Ok r ->
  collect_image W args fuel dark name = Ok (corrected dark r).
Proof.
  intros Hf Hr Hd Hs E. unfold collect_image. rewrite E, Hf. cbn [bind].
  destruct (a_dark args) as [nm|].
  - destruct dark as [d|]; [|destruct Hd as [_ Hd]; discriminate (Hd eq_refl)].
    unfold inplace. destruct (Hs d eq_refl) as (D1 & D2). destruct Hr as (R1 & R2).
    rewrite D1, D2, R1, R2, !Z.eqb_refl. cbn [orb andb bind]. unfold corrected. rewrite R1, R2. reflexivity.
  - destruct dark as [d|]; [destruct Hd as [Hd _]; discriminate (Hd eq_refl)|]. reflexivity.
Qed.

Lemma file_eventually W args h w name r : file_image W (a_binning args) h w name r ->
  eventually (fun fuel => read_binned W args fuel name = Ok r) /\ shaped h w r.
Proof.
  intros (d & Er & _ & (n & E) & Hr & Hc). split; [|split; assumption]. exists n. intros fuel Hf.
  unfold read_binned. rewrite Er. cbn [bind]. apply E. exact Hf.
Qed.

Lemma among_in v l : among v l = true <-> In v l.
Proof.
  unfold among. rewrite existsb_exists. split.
  - intros (u & Hu & E). unfold Reqb in E. destruct (Req_EM_T v u) as [->|]; [exact Hu|discriminate].
  - intros H. exists v. split; [exact H|]. unfold Reqb. destruct (Req_EM_T v v); congruence.
Qed.
Lemma all_measured l ps : all_among l (map fst ps) = true <-> Forall (measured ps) l.
Proof.
  unfold all_among. rewrite forallb_forall, Forall_forall. split; intros H v Hv; specialize (H v Hv).
  - apply among_in in H. apply in_map_iff in H. destruct H as ((u & name) & <- & H). exists name. exact H.
  - apply among_in. destruct H as (name & H). apply (in_map fst) in H. exact H.
Qed.
Lemma chosen_summed ps l : summed_orientations ps l ->
  (if all_among norm_with_135 (map fst ps) then Ok norm_with_135
   else if all_among norm_with_m45 (map fst ps) then Ok norm_with_m45 else Raise UnboundLocalError) = Ok l.
Proof.
  intros (Hm & [->|(-> & Hn)]).
  - change norm_with_135 with [0; 45; 90; 135]%R. rewrite (proj2 (all_measured _ ps) Hm). reflexivity.
  - destruct (all_among norm_with_135 (map fst ps)) eqn:E.
    + exfalso. apply Hn. apply all_measured in E. rewrite Forall_forall in E. apply E. right. right. right. left. reflexivity.
    + change norm_with_m45 with [0; 45; 90; -45]%R. rewrite (proj2 (all_measured _ ps) Hm). reflexivity.
Qed.
Lemma fold_sum (l : list R) (qs : list ((R * string) * arr R)) (S : arr R) :
  let T := fold_left (fun S q => if among (fst (fst q)) l then amap2 (fun s v => s + 1/2 * v)%R S (snd q) else S) qs S in
  rows T = rows S /\ cols T = cols S /\
  forall y x, cell T y x = (cell S y x + total (map (fun q => if in_dec Req_EM_T (fst (fst q)) l then cell (snd q) y x else 0) qs) / 2)%R.
Proof.
  revert S. induction qs as [|q qs IH]; intros S; cbn [fold_left map].
  - split; [reflexivity|]. split; [reflexivity|]. intros y x. unfold total. cbn. lra.
  - destruct (IH (if among (fst (fst q)) l then amap2 (fun s v => s + 1/2 * v)%R S (snd q) else S)) as (R1 & C1 & V1).
    split; [rewrite R1; destruct (among (fst (fst q)) l); reflexivity|].
    split; [rewrite C1; destruct (among (fst (fst q)) l); reflexivity|].
    intros y x. rewrite V1. unfold total. cbn [fold_right]. pose proof (among_in (fst (fst q)) l) as (A1 & A2).
    destruct (in_dec Req_EM_T (fst (fst q)) l) as [Hi|Hi].
    + rewrite (A2 Hi). cbn [amap2 cell]. lra.
    + destruct (among (fst (fst q)) l); [exfalso; apply Hi, A1; reflexivity|]. lra.
Qed.
Lemma sum_image_half dark l ps images h w : Forall (shaped h w) images -> (forall d, dark = Some d -> shaped h w d) ->
  half_sum dark l ps images h w (sum_image (2 * h) (2 * w) l ps (map (corrected dark) images)).
Proof.
  intros Hs Hd. unfold sum_image. destruct (fold_sum l (combine ps (map (corrected dark) images)) (full (2 * h) (2 * w) 0%R)) as (R1 & C1 & V1).
  split; [exact R1|]. split; [exact C1|]. intros y x Hy Hx. rewrite V1. cbn [full cell]. rewrite Rplus_0_l. f_equal. f_equal.
  clear - Hs Hd Hy Hx. revert ps. induction Hs as [|r rs Hr Hrs IH]; intros [|p ps]; [reflexivity|reflexivity|reflexivity|].
  cbn [map combine fst snd]. rewrite IH. f_equal. destruct (in_dec Req_EM_T (fst p) l); [|reflexivity].
  exact (proj2 (corrected_level h w dark r Hr Hd) y x Hy Hx).
Qed.

Lemma norms_eventually W args dark images h w pairs nf :
  norms_are W args dark pairs images h w nf -> Forall (shaped h w) images -> (forall d, dark = Some d -> shaped h w d) ->
  exists ns, eventually (fun fuel => normalisation W args fuel (2 * h) (2 * w) pairs (map (corrected dark) images) = Ok ns) /\
    stand_for h w (length pairs) (correct_S ns) nf.
Proof.
  intros (Hl & Hpos & Hn) Fsh Dsh. unfold normalisation.
  assert (K : forall s : arr R, shaped h w s -> forall f, In f nf -> agrees h w (cell s) f ->
    agrees h w (cell (amap (fun v => if Rleb 0 v then v else 1%R) s)) f).
  { intros s _ f Hf Ha y x Hy Hx. cbn [amap cell]. rewrite (Ha y x Hy Hx). unfold Rleb.
    destruct (Rle_dec 0 (f y x)) as [_|N]; [reflexivity|]. exfalso. apply N. left. apply Hpos; assumption. }
  destruct (a_norm args) as [|s|a|l].
  - destruct Hn as (l & s & Hc & He & Hn). exists [full (2 * h) (2 * w) s].
    split.
    { apply eventually_always. rewrite (chosen_summed _ _ Hc). cbn [bind]. rewrite (He _ (sum_image_half dark l pairs images h w Fsh Dsh)). reflexivity. }
    assert (Hsh : shaped h w (full (2 * h) (2 * w) s)) by (split; reflexivity).
    split; [constructor; [split; reflexivity|constructor]|]. split; [exact Hl|]. left.
    eexists; split; [reflexivity|]. apply Forall_forall. intros f Hf. apply K; [exact Hsh|exact Hf|].
    intros y x _ _. rewrite (Hn f Hf). reflexivity.
  - exists [full (2 * h) (2 * w) (1 * (s * IZR (a_binning args * a_binning args)))%R].
    split; [apply eventually_always; reflexivity|].
    assert (Hsh : shaped h w (full (2 * h) (2 * w) (1 * (s * IZR (a_binning args * a_binning args)))%R))
      by (split; reflexivity).
    split; [constructor; [split; reflexivity|constructor]|]. split; [exact Hl|]. left.
    eexists; split; [reflexivity|]. apply Forall_forall. intros f Hf. apply K; [exact Hsh|exact Hf|].
    intros y x _ _. rewrite (Hn f Hf). cbn [full cell]. ring.
  - destruct Hn as (r & (_ & (n & E) & Hr & Hc) & Hn). exists [r]. split.
    { exists n. intros fuel Hf. rewrite (E fuel Hf). reflexivity. }
    split; [constructor; [split; [exact Hr|exact Hc]|constructor]|]. split; [exact Hl|]. left.
    eexists; split; [reflexivity|]. apply Forall_forall. intros f Hf. apply K; [split; assumption|exact Hf|].
    intros y x _ _. rewrite (Hn f Hf). reflexivity.
  - destruct Hn as (rs & HF & ->). exists rs.
    assert (HE : eventually (fun fuel => map_result (fun a => micropolarray_rebin fuel a (a_binning args)) l = Ok rs)).
    { apply (eventually_impl (fun fuel => Forall2 (fun a r => micropolarray_rebin fuel a (a_binning args) = Ok r) l rs)).
      - intros n HF'. apply map_result_ok. exact HF'.
      - apply (eventually_forall2 (fun a r fuel => micropolarray_rebin fuel a (a_binning args) = Ok r)).
        eapply Forall2_impl; [|exact HF]. intros a r (_ & E & _). exact E. }
    split; [exact HE|]. rewrite map_length in Hl.
    assert (Hs : Forall (shaped h w) rs).
    { clear - HF. induction HF as [|a r l rs (_ & _ & Hr & Hc) HF IH]; constructor; [split; assumption|assumption]. }
    split.
    { clear - Hs. induction Hs as [|r rs (Hr & Hc) Hs IH]; constructor; [split; assumption|assumption]. }
    split; [rewrite map_length; exact Hl|]. right. split; [unfold correct_S; rewrite map_length; exact Hl|].
    assert (G : forall l1 l2 : list (arr R), rs = l1 ++ l2 ->
       Forall2 (fun s f => agrees h w (cell s) f) (correct_S l2) (map cell l2)).
    { intros l1 l2. revert l1. induction l2 as [|r l2 IH]; intros l1 E; [constructor|]. cbn [correct_S map].
      constructor; [|apply (IH (l1 ++ [r])); rewrite <- app_assoc; exact E].
      assert (Hin : In r rs) by (rewrite E; apply in_or_app; right; left; reflexivity).
      apply K; [|apply in_map; exact Hin|intros y x _ _; reflexivity].
      rewrite Forall_forall in Hs. apply Hs. exact Hin. }
    apply (G [] rs eq_refl).
Qed.

Lemma dark_eventually W args h w dark : dark_is W args h w dark ->
  eventually (fun fuel => collect_dark W args fuel = Ok dark) /\ (a_dark args = None <-> dark = None) /\
  (forall d, dark = Some d -> shaped h w d).
Proof.
  unfold dark_is, collect_dark. destruct (a_dark args) as [name|], dark as [d|]; try contradiction.
  - intros (Hne & Hf). destruct (file_eventually W args h w name d Hf) as (Hev & Hs). split.
    + destruct name as [|c name]; [congruence|]. eapply eventually_impl; [|exact Hev].
      intros n E. rewrite E. reflexivity.
    + split; [split; discriminate|]. intros d' E. injection E as <-. exact Hs.
  - intros _. split; [apply eventually_always; reflexivity|]. split; [tauto|]. discriminate.
Qed.

Lemma flag_shaped h w b occ : 0 <= h -> 0 <= w ->
  exists f, occulter_flag (2 * h) (2 * w) b occ = Ok f /\ shaped h w f.
Proof.
  intros Hh Hw. destruct occ as [[[y x] r]|].
  - destruct (c33_flag h w b y x r Hh Hw) as (f & E & Hr & Hc & _). exists f. split; [exact E|split; assumption].
  - eexists; split; [reflexivity|]. split; reflexivity.
Qed.

Lemma forallb_shaped h w l : Forall (shaped h w) l ->
  forallb (fun a : arr R => (rows a =? 2 * h) && (cols a =? 2 * w)) l = true.
Proof.
  intros H. apply forallb_forall. intros a Ha. rewrite Forall_forall in H. destruct (H a Ha) as (E1 & E2).
  rewrite E1, E2, !Z.eqb_refl. reflexivity.
Qed.

Lemma combine_in_r {A B} : forall (l : list A) (l' : list B) a b, In (a, b) (combine l l') -> In b l'.
Proof. intros. eapply in_combine_r; eassumption. Qed.

Lemma settings_ok W args ps : fit_settings W args ps = settings_of W args ps.
Proof.
  unfold fit_settings, settings_of.
  assert (E : forall v, (v * (PI / 180) = radians v)%R) by (intros v; unfold radians; field).
  f_equal; [apply map_ext; intros p; apply E|].
  unfold map4. rewrite !E. reflexivity.
Qed.

Lemma relative_ok W h w dark images nf :
  (forall s y x, In s nf -> 0 <= y < 2 * h -> 0 <= x < 2 * w -> (0 < s y x)%R) ->
  Forall (shaped h w) images -> (forall d, dark = Some d -> shaped h w d) -> length nf = length images ->
  same_images h w
    (map (fun q y x => np_div W (cell (fst q) y x) (snd q y x)) (combine (map (corrected dark) images) nf))
    (relative dark images nf).
Proof.
  intros Hpos Hs Hd. unfold relative. revert images Hs. induction nf as [|n nf IH]; intros images Hs Hl.
  - destruct images; [|discriminate]. constructor.
  - destruct images as [|r images]; [discriminate|]. cbn [map combine]. inversion Hs; subst. constructor.
    + intros y x Hy Hx. cbn [fst snd]. destruct (corrected_level h w dark r) as (_ & Hv); [assumption|assumption|].
      rewrite (Hv y x Hy Hx). unfold np_div, Reqb. pose proof (Hpos n y x (or_introl eq_refl) Hy Hx).
      destruct (Req_EM_T (n y x) 0); [lra|reflexivity].
    + apply IH; [|assumption|cbn in Hl; congruence]. intros s y x Hin. apply Hpos. right. exact Hin.
Qed.

Lemma noise_ok W h w dark g images data nf :
  (forall s y x, In s nf -> 0 <= y < 2 * h -> 0 <= x < 2 * w -> (0 < s y x)%R) -> (0 < g)%R ->
  (forall r y x, In r images -> 0 <= y < 2 * h -> 0 <= x < 2 * w -> (0 <= level dark r y x)%R) ->
  length nf = length images ->
  same_images h w (map cell data) (relative dark images nf) ->
  same_images h w
    (map (fun q y x => np_sqrt W (np_div W (cell (fst q) y x) (snd q y x * g))) (combine data nf))
    (noise dark g images nf).
Proof.
  intros Hpos Hg Hlev. unfold relative, noise. revert images data Hlev.
  induction nf as [|n nf IH]; intros images data Hlev Hl Hsame.
  - destruct images; [|discriminate]. cbn in Hsame. inversion Hsame as [E|]. destruct data; [|discriminate].
    constructor.
  - destruct images as [|r images]; [discriminate|]. cbn [map combine] in Hsame |- *.
    destruct data as [|d data]; [inversion Hsame|]. cbn [map] in Hsame. inversion Hsame as [|? ? ? ? Hd Hrest]; subst.
    cbn [combine map]. constructor.
    + intros y x Hy Hx. cbn [fst snd] in *. rewrite (Hd y x Hy Hx).
      pose proof (Hpos n y x (or_introl eq_refl) Hy Hx) as Hn.
      pose proof (Hlev r y x (or_introl eq_refl) Hy Hx) as Hr.
      unfold np_div, Reqb. assert (Hng : (0 < n y x * g)%R) by (apply Rmult_lt_0_compat; assumption).
      destruct (Req_EM_T (n y x * g) 0); [lra|]. unfold np_sqrt, Rltb.
      assert (Hq : (0 <= level dark r y x / n y x / (n y x * g))%R).
      { apply Rmult_le_pos; [apply Rmult_le_pos; [exact Hr|]|]; left; apply Rinv_0_lt_compat; assumption. }
      destruct (Rlt_dec (level dark r y x / n y x / (n y x * g)) 0); [lra|reflexivity].
    + apply IH; [| |cbn in Hl; congruence|exact Hrest].
      * intros s y x Hin. apply Hpos. right. exact Hin.
      * intros r' y x Hin. apply Hlev. right. exact Hin.
Qed.

Lemma c75_matched W args os fs ps images dark norms h w hy hx :
  Permutation ps (combine os fs) -> by_orientation ps -> ps <> [] ->
  1 <= a_binning args -> 0 <= h -> 0 <= w ->
  Forall2 (fun p r => file_image W (a_binning args) h w (snd p) r) ps images ->
  dark_is W args h w dark -> a_flat args = None ->
  norms_are W args dark ps images h w norms -> (0 < a_gain args)%R ->
  (forall r y x, In r images -> 0 <= y < 2 * h -> 0 <= x < 2 * w -> (0 <= level dark r y x)%R) ->
  0 < a_ny args -> 0 < a_nx args -> a_ny args * hy = h -> a_nx args * hx = w ->
  Permutation (finish W) (zrange (a_ny args * a_nx args)) ->
  exists c o,
    evaluates (fun fuel => calibrate W args fuel os fs) o /\
    series_shape c h w /\ maps_shape o h w /\
    same_images h w (c_data c) (relative dark images norms) /\
    same_images h w (c_err c) (noise dark (a_gain args) images norms) /\
    occulter_flag (2 * h) (2 * w) (a_binning args) (a_occulter args) = Ok (c_occ c) /\
    forall Y X, 0 <= Y < h -> 0 <= X < w -> calibrated (settings_of W args ps) c o Y X.
Proof.
  intros HP Hsort Hne Hb Hh Hw Hfiles Hdark Hflat Hnorms Hg Hlev Hny Hnx Ehy Ehx Hfin.
  assert (Eps : sorted_pairs (combine os fs) = ps).
  { apply sorted_unique; [apply sorted_strong| |].
    - apply Sorted_StronglySorted; [intros a b c; apply before_trans|exact Hsort].
    - apply Permutation_trans with (combine os fs); [apply sorted_perm|apply Permutation_sym; exact HP]. }
  destruct (dark_eventually W args h w dark Hdark) as (Dev & Dnone & Dsh).
  assert (Fsh : Forall (shaped h w) images).
  { clear - Hfiles. induction Hfiles as [|p r ps rs Hf Hr IH]; constructor; [|exact IH].
    exact (proj2 (file_eventually W args h w _ _ Hf)). }
  assert (Fev : eventually (fun fuel => Forall2 (fun p r => read_binned W args fuel (snd p) = Ok r) ps images)).
  { apply (eventually_forall2 (fun p r fuel => read_binned W args fuel (snd p) = Ok r)).
    eapply Forall2_impl; [|exact Hfiles]. intros p r Hf. exact (proj1 (file_eventually W args h w _ _ Hf)). }
  destruct (norms_eventually W args dark images h w ps norms Hnorms Fsh Dsh) as (ns & Nev & Nst).
  destruct (flag_shaped h w (a_binning args) (a_occulter args) Hh Hw) as (occ & Eocc & Hocc).
  pose proof Hnorms as (Nlen & Npos & Nform).
  assert (Plen : length images = length ps).
  { clear - Hfiles. induction Hfiles; cbn; congruence. }
  assert (Csh : Forall (shaped h w) (map (corrected dark) images)).
  { clear - Fsh Dsh. induction Fsh as [|r rs Hr Hrs IH]; constructor; [|exact IH].
    exact (proj1 (corrected_level h w dark r Hr Dsh)). }
  destruct (divide_series_spec h w (np_div W) (map (corrected dark) images) (correct_S ns) norms Csh)
    as (out & Eout & Osh & Olen & Oval).
  { rewrite map_length, Plen. exact Nst. }
  rewrite map_length in Olen.
  destruct (divide_series_spec h w (fun v s => np_sqrt W (np_div W v (s * a_gain args))) out (correct_S ns) norms Osh)
    as (errs & Eerr & Esh & Elen & Eval).
  { rewrite Olen, Plen. exact Nst. }
  assert (Rel : same_images h w (map cell out) (relative dark images norms)).
  { eapply same_images_trans; [exact Oval|]. apply relative_ok; [exact Npos|exact Fsh|exact Dsh|congruence]. }
  assert (Noi : same_images h w (map cell errs) (noise dark (a_gain args) images norms)).
  { eapply same_images_trans; [exact Eval|]. apply noise_ok; [exact Npos|exact Hg|exact Hlev|congruence|exact Rel]. }
  set (c := mkchunk (2 * h) (2 * w) (map cell out) (map cell errs) occ).
  assert (Sc : series_shape c h w).
  { destruct Hocc as (O1 & O2). repeat split; cbn; assumption || reflexivity. }
  destruct (c29_grid (settings_of W args ps) c h w (a_ny args) (a_nx args) (finish W) hy hx Sc Hny Hnx Ehy Ehx Hfin)
    as (o & o1 & Eo & _ & Mo & _ & Cal).
  exists c, o.
  split; [|split; [exact Sc|]; split; [exact Mo|]; split; [exact Rel|]; split; [exact Noi|]; split; [exact Eocc|];
           intros Y X HY HX; exact (proj2 (Cal Y X HY HX))].
  destruct (eventually_and _ _ Dev (eventually_and _ _ Fev Nev)) as (n & Hn).
  exists n. intros fuel Hf. destruct (Hn fuel Hf) as (E1 & E2 & E3).
  unfold calibrate. rewrite Eps.
  assert (Hest : (match a_norm args with NormEstimate => true | _ => false end && negb (all_among norm_with_m45 os)
       && negb (all_among norm_with_135 os)) = false).
  { clear - Nform HP. destruct (a_norm args); [|reflexivity|reflexivity|reflexivity]. destruct Nform as (l & s & (Hm & Hl) & _).
    assert (Hos : all_among l os = true).
    { apply forallb_forall. intros v Hv. rewrite Forall_forall in Hm. destruct (Hm v Hv) as (name & Hin). apply among_in.
      apply (Permutation_in _ HP) in Hin. apply in_combine_l in Hin. exact Hin. }
    destruct Hl as [->|(-> & _)]; [change norm_with_135 with [0; 45; 90; 135]%R|change norm_with_m45 with [0; 45; 90; -45]%R]; rewrite Hos;
      cbn [negb]; rewrite ?Bool.andb_false_r; reflexivity. }
  rewrite Hest.
  assert (Hps : exists p0 ps0, ps = p0 :: ps0) by (clear - Hne; destruct ps; [congruence|eauto]).
  destruct Hps as (p0 & ps0 & Hps).
  assert (Him : exists r0 images0, images = r0 :: images0).
  { clear - Plen Hps. subst ps. destruct images; [discriminate|eauto]. }
  destruct Him as (r0 & images0 & Him). clear Eps. subst ps images.
  assert (Er0 : read_binned W args fuel (snd p0) = Ok r0) by (inversion E2; assumption).
  rewrite Er0. cbn [bind]. assert (Sr0 : shaped h w r0) by (inversion Fsh; assumption).
  destruct Sr0 as (R1 & R2). rewrite R1, R2.
  replace (a_binning args =? 0) with false by lia. rewrite Eocc. cbn [bind]. rewrite E1. cbn [bind].
  unfold collect_flat. rewrite Hflat. cbn [bind].
  assert (Ecol : map_result (fun p => collect_image W args fuel dark (snd p)) (p0 :: ps0) =
                 Ok (map (corrected dark) (r0 :: images0))).
  { apply map_result_ok. apply Forall2_map_r. clear - E2 Fsh Hflat Dnone Dsh.
    revert Fsh. induction E2 as [|p r ps rs E H IH]; intros Fsh; [constructor|]. inversion Fsh; subst.
    constructor; [|apply IH; assumption]. apply (collect_ok W args fuel h w); assumption. }
  rewrite Ecol. cbn [bind]. rewrite (forallb_shaped h w _ Csh). cbn [negb]. rewrite E3. cbn [bind].
  replace ((a_ny args =? 0) || (a_nx args =? 0)) with false by lia.
  rewrite Eout. cbn [bind]. rewrite Eerr. cbn [bind]. rewrite settings_ok. exact Eo.
Qed.

(** ** C33: what is flagged is not fitted *)
Lemma c33_not_fitted S c o h w b y0 x0 r Y X :
  series_shape c h w -> occulter_flag (2 * h) (2 * w) b (Some (y0, x0, r)) = Ok (c_occ c) ->
  0 <= Y < h -> 0 <= X < w ->
  (0 < dist Y X (Z.quot (Z.quot y0 b) 2) (Z.quot (Z.quot x0 b) 2) <= IZR (Z.quot (Z.quot r b) 2))%R ->
  calibrated S c o Y X ->
  cell (o_m o) Y X = theoretical S /\ cell (o_found o) Y X = 0%R.
Proof.
  intros Hs E HY HX Hd Hc. pose proof Hs as (_ & _ & _ & _ & Hh & Hw).
  destruct (c33_flag h w b y0 x0 r Hh Hw) as (f & Ef & _ & _ & Hv). rewrite E in Ef. injection Ef as <-.
  assert (Ho : occulted c Y X).
  { exists 0. split; [lia|]. destruct (Hv Y X 0 HY HX ltac:(lia)) as [[_ ->]|[Hn _]]; [lra|contradiction]. }
  destruct Hc as [(_ & H1 & H2 & _)|(Hn & _)]; [split; assumption|contradiction].
Qed.

(** ** C75: a series of normalising images is matched by position *)
Lemma bin1 v : exists r, binned_to 1 1 1 (full 2 2 v) r /\
  forall y x, 0 <= y < 2 -> 0 <= x < 2 -> cell r y x = v.
Proof.
  assert (Hm : mosaic (full 2 2 v)) by (repeat split; cbn; lia || reflexivity).
  destruct (c04_rebin (full 2 2 v) 1 Hm ltac:(lia)) as (r & (Hr & Hc & Hv) & He).
  replace (2 * (rows (full 2 2 v) / (2 * 1))) with 2 in Hr by reflexivity.
  replace (2 * (cols (full 2 2 v) / (2 * 1))) with 2 in Hc by reflexivity.
  exists r. split.
  - split; [exact Hm|]. split; [exact He|]. split; [rewrite Hr|rewrite Hc]; reflexivity.
  - intros y x Hy Hx. rewrite Hv by (rewrite ?Hr, ?Hc; assumption).
    unfold SumSpec.lsum, SumSpec.family_block. change (zrange 1) with [0].
    cbn [list_prod map app fold_left full cell fst snd]. unfold n0. cbn. lra.
Qed.

Definition flat_world : world :=
  mkworld (fun _ => Ok (full 2 2 1%R)) (fun _ => Ok 1%R)
    (fun _ samples _ _ _ => Some ((hd 0%R samples, 0%R, 0%R), fun _ _ => 0%R))
    (fun _ => zero34) (fun v => v) (fun v => v) [0].
Definition series_args (l : list (arr R)) : arguments :=
  mkarguments (all4 0%R) 1%R 1 None 1 1 None None (NormSeries l) None None.

Lemma flat_calibration os fs ps n1 n2 o :
  (0 < n1)%R -> (0 < n2)%R ->
  Permutation ps (combine os fs) -> by_orientation ps -> length ps = 2%nat ->
  evaluates (fun fuel => calibrate flat_world (series_args [full 2 2 n1; full 2 2 n2]) fuel os fs) o ->
  pixel_of (o_tk o) 0 0 0 = (1 / n1)%R.
Proof.
  intros P1 P2 HP Hsort Hlen (nf & Ev).
  destruct ps as [|p [|q [|]]]; try discriminate.
  destruct (bin1 1) as (r & Br & Vr). destruct (bin1 n1) as (r1 & Br1 & Vr1). destruct (bin1 n2) as (r2 & Br2 & Vr2).
  destruct (c75_matched flat_world (series_args [full 2 2 n1; full 2 2 n2]) os fs [p; q] [r; r] None
              [cell r1; cell r2] 1 1 1 1) as (c & o' & Ev' & Sc & Mo & Rel & Noi & Eocc & Cal).
  - exact HP.
  - exact Hsort.
  - discriminate.
  - cbn; lia.
  - lia.
  - lia.
  - repeat constructor; exists (full 2 2 1%R); (split; [reflexivity|exact Br]).
  - exact I.
  - reflexivity.
  - split; [reflexivity|]. split.
    + intros s y x [<-|[<-|[]]] Hy Hx; [rewrite Vr1|rewrite Vr2]; assumption || lia.
    + exists [r1; r2]. split; [constructor; [exact Br1|constructor; [exact Br2|constructor]]|reflexivity].
  - cbn. lra.
  - intros r' y x [<-|[<-|[]]] Hy Hx; cbn [level]; rewrite Vr by lia; lra.
  - cbn; lia.
  - cbn; lia.
  - reflexivity.
  - reflexivity.
  - apply Permutation_refl.
  - assert (o' = o).
    { destruct Ev' as (m & Ev'). specialize (Ev (Nat.max nf m) ltac:(lia)).
      specialize (Ev' (Nat.max nf m) ltac:(lia)). cbv beta in Ev, Ev'. rewrite Ev in Ev'. congruence. }
    subst o'. cbn [a_occulter series_args occulter_flag] in Eocc. injection Eocc as Eocc.
    assert (Hser : forall k, 0 <= k < 4 -> exists v, series c 0 0 k = [(1 / n1)%R; v]).
    { intros k Hk.
      assert (0 <= k / 2 < 2) by (split; [apply Z.div_pos; lia|apply Z.div_lt_upper_bound; lia]).
      assert (0 <= k mod 2 < 2) by (apply Z.mod_pos_bound; lia).
      unfold series. unfold relative in Rel. cbn [combine map fst snd] in Rel.
      inversion Rel as [|f1 g1 l1 l1' H1 Rel1 E1 E1']; subst. inversion Rel1 as [|f2 g2 l2 l2' H2 Rel2 E2 E2']; subst.
      inversion Rel2; subst. cbn [map]. exists (f2 (2 * 0 + k / 2) (2 * 0 + k mod 2)). f_equal.
      rewrite H1 by lia. cbn [level]. rewrite Vr, Vr1 by lia. reflexivity. }
    assert (Hpos : (1 / n1 <> 0)%R) by (apply Rgt_not_eq; apply Rdiv_lt_0_compat; lra).
    destruct (Cal 0 0 ltac:(lia) ltac:(lia)) as [(Hno & _)|(_ & p0 & p1 & p2 & p3 & v & Hfit & _ & Hmaps)].
    + exfalso. destruct Hno as [(k & Hk & Hocc)|(k & Hk & Hno)].
      * unfold pixel_of in Hocc. rewrite <- Eocc in Hocc. apply Hocc. reflexivity.
      * destruct (Hser k Hk) as (v & Es). apply (Hno (hd 0 (series c 0 0 k), 0, 0)%R (fun _ _ => 0%R)).
        split; [|reflexivity]. rewrite Es. intros Hd. inversion Hd; subst. contradiction.
    + destruct (Hmaps 0 ltac:(lia)) as (Htk & _). rewrite Htk. destruct (Hfit 0 ltac:(lia)) as (_ & Ef).
      cbn [settings_of curve_fit flat_world fit] in Ef. injection Ef as Ef _. rewrite <- Ef. cbn [p_t fst snd].
      destruct (Hser 0 ltac:(lia)) as (v' & Es). rewrite Es. reflexivity.
Qed.

(** Both listings return. *)
Lemma flat_returns os fs ps n1 n2 :
  (0 < n1)%R -> (0 < n2)%R ->
  Permutation ps (combine os fs) -> by_orientation ps -> length ps = 2%nat ->
  exists o, evaluates (fun fuel => calibrate flat_world (series_args [full 2 2 n1; full 2 2 n2]) fuel os fs) o.
Proof.
  intros P1 P2 HP Hsort Hlen. destruct ps as [|p [|q [|]]]; try discriminate.
  destruct (bin1 1) as (r & Br & Vr). destruct (bin1 n1) as (r1 & Br1 & Vr1). destruct (bin1 n2) as (r2 & Br2 & Vr2).
  destruct (c75_matched flat_world (series_args [full 2 2 n1; full 2 2 n2]) os fs [p; q] [r; r] None
              [cell r1; cell r2] 1 1 1 1) as (c & o' & Ev' & _).
  - exact HP.
  - exact Hsort.
  - discriminate.
  - cbn; lia.
  - lia.
  - lia.
  - repeat constructor; exists (full 2 2 1%R); (split; [reflexivity|exact Br]).
  - exact I.
  - reflexivity.
  - split; [reflexivity|]. split.
    + intros s y x [<-|[<-|[]]] Hy Hx; [rewrite Vr1|rewrite Vr2]; assumption || lia.
    + exists [r1; r2]. split; [constructor; [exact Br1|constructor; [exact Br2|constructor]]|reflexivity].
  - cbn. lra.
  - intros r' y x [<-|[<-|[]]] Hy Hx; cbn [level]; rewrite Vr by lia; lra.
  - cbn; lia.
  - cbn; lia.
  - reflexivity.
  - reflexivity.
  - apply Permutation_refl.
  - exists o'. exact Ev'.
Qed.

Lemma c75_series :
  exists W (args : list (arr R) -> arguments) (a b : R * string) (na nb : arr R) o o',
    (forall l, a_norm (args l) = NormSeries l) /\
    evaluates (fun fuel => calibrate W (args [na; nb]) fuel [fst a; fst b] [snd a; snd b]) o /\
    evaluates (fun fuel => calibrate W (args [nb; na]) fuel [fst b; fst a] [snd b; snd a]) o' /\
    cell (o_tk o) 0 0 <> cell (o_tk o') 0 0.
Proof.
  set (a := (0, "a"%string)%R). set (b := (90, "b"%string)%R).
  assert (Hsort : by_orientation [a; b]).
  { constructor; [constructor; constructor|]. constructor. left. cbn. lra. }
  destruct (flat_returns [0; 90]%R ["a"; "b"]%string [a; b] 1 2 ltac:(lra) ltac:(lra)) as (o & Eo).
  { apply Permutation_refl. } { exact Hsort. } { reflexivity. }
  destruct (flat_returns [90; 0]%R ["b"; "a"]%string [a; b] 2 1 ltac:(lra) ltac:(lra)) as (o' & Eo').
  { apply perm_swap. } { exact Hsort. } { reflexivity. }
  exists flat_world, series_args, a, b, (full 2 2 1%R), (full 2 2 2%R), o, o'.
  split; [reflexivity|]. split; [exact Eo|]. split; [exact Eo'|].
  pose proof (flat_calibration [0; 90]%R ["a"; "b"]%string [a; b] 1%R 2%R o ltac:(lra) ltac:(lra) (Permutation_refl _) Hsort eq_refl Eo) as V.
  pose proof (flat_calibration [90; 0]%R ["b"; "a"]%string [a; b] 2%R 1%R o' ltac:(lra) ltac:(lra) (perm_swap _ _ _) Hsort eq_refl Eo') as V'.
  unfold pixel_of in V, V'. cbn in V, V'. rewrite V, V'. intros E; lra.
Qed.

(** ** A flat field cannot be used *)
Lemma flat_raises W args fuel os fs name o :
  a_flat args = Some name -> calibrate W args fuel os fs <> Ok o.
Proof.
  intros Hf. unfold calibrate. destruct (_ && _ && _); [discriminate|].
  destruct (sorted_pairs (combine os fs)) as [|p ps]; [discriminate|].
  destruct (read_binned W args fuel (snd p)) as [r| |]; cbn [bind]; try discriminate.
  destruct (a_binning args =? 0); [discriminate|].
  destruct (occulter_flag _ _ _ _) as [occ| |]; cbn [bind]; try discriminate.
  destruct (collect_dark W args fuel) as [dark| |]; cbn [bind]; try discriminate.
  unfold collect_flat. rewrite Hf. destruct name as [|ch name].
  - cbn [bind map_result]. unfold collect_image at 1. rewrite Hf.
    destruct (read_binned W args fuel (snd p)) as [r'| |]; cbn [bind]; try discriminate.
    destruct (a_dark args); [|cbn [bind]; discriminate].
    destruct dark as [d|]; cbn [bind]; [|discriminate].
    destruct (inplace Rminus r' d); cbn [bind]; discriminate.
  - destruct (read W (String ch name)); cbn [bind]; discriminate.
Qed.

Lemma c34_zero : exists n : arr R, exists m, correct_S [n] = [m] /\ inb m 0 0 /\ cell m 0 0 = 0%R.
Proof.
  exists (full 2 2 0%R). eexists. split; [reflexivity|]. split; [repeat split; cbn; lia|].
  cbn [amap cell full]. unfold Rleb. destruct (Rle_dec 0 0); [reflexivity|lra].
Qed.

(** An orientation that the estimate needs is missing. *)
Lemma not_all_among v angles os : In v angles -> ~ In v os -> all_among angles os = false.
Proof.
  intros Hv Hn. unfold all_among. apply not_true_iff_false. rewrite forallb_forall. intros K. specialize (K v Hv).
  unfold among in K. apply existsb_exists in K as (u & Hu & E). unfold Reqb in E. destruct (Req_EM_T v u) as [->|]; [exact (Hn Hu)|discriminate].
Qed.
Lemma c75_missing W args fuel os fs : a_norm args = NormEstimate ->
  (exists v, In v [0; 45; 90]%R /\ ~ In v os) \/ ~ In 135%R os /\ ~ In (-45)%R os ->
  calibrate W args fuel os fs = Raise ValueError.
Proof.
  intros En Hm. unfold calibrate. rewrite En.
  assert (E : all_among norm_with_m45 os = false /\ all_among norm_with_135 os = false).
  { destruct Hm as [(v & Hv & Hn)|(H1 & H2)].
    - split; apply (not_all_among v); try exact Hn; cbn in *; tauto.
    - split; [apply (not_all_among (-45)%R)|apply (not_all_among 135%R)]; try assumption; cbn; tauto. }
  destruct E as (-> & ->). reflexivity.
Qed.
