(** Masks and numbers of different kinds (C151). *)
From Coq Require Import ZArith Reals Lra Lia Floats.SpecFloat.
From Flocq Require Import Core BinarySingleNaN.
From Verif Require Import Base.Base Base.BaseFacts Base.Num Base.Bcast Model.IntData Model.IntTypes Model.Kinds Model.Stokes
  Spec.AngleSpec Spec.FloatSpec Spec.IntSpec Spec.IntTypeSpec Spec.KindSpec Spec.StokesSpec
  Proofs.UtilFacts Proofs.IntFacts Proofs.FloatFacts Proofs.ExactFacts Proofs.RoundFacts Proofs.IntTypeFacts Proofs.IntMixFacts Proofs.MosaicFacts Proofs.StokesFacts.
From Verif Require Import Spec.MosaicSpec.
Local Open Scope Z_scope.

#[local] Existing Instance Hprec.
#[local] Existing Instance Hmax.
#[local] Existing Instance fexp64_valid.

(** ** Truth values *)
Lemma masks_or (m n : arr bool) : same_shape m n ->
  exists r, any_op Plus (Mask m) (Mask n) = Ok (Mask r) /\ same_shape r m /\
    forall y x, 0 <= y < rows m -> 0 <= x < cols m -> cell r y x = (cell m y x || cell n y x)%bool.
Proof.
  intros S. destruct (bmap2_same orb m n S) as (r & E & Hr & Hc & Hd). exists r. cbn [any_op]. rewrite E.
  split; [reflexivity|]. split; [split; assumption|exact Hd].
Qed.
Lemma masks_and (m n : arr bool) : same_shape m n ->
  exists r, any_op Times (Mask m) (Mask n) = Ok (Mask r) /\ same_shape r m /\
    forall y x, 0 <= y < rows m -> 0 <= x < cols m -> cell r y x = (cell m y x && cell n y x)%bool.
Proof.
  intros S. destruct (bmap2_same andb m n S) as (r & E & Hr & Hc & Hd). exists r. cbn [any_op]. rewrite E.
  split; [reflexivity|]. split; [split; assumption|exact Hd].
Qed.

(** ** Integers *)
Lemma masked_ints t (d : arr Z) (m : arr bool) : numpy_type t -> image_of t d -> same_shape d m ->
  exists r, any_op Times (Numbers (Ints t d)) (Mask m) = Ok (Numbers (Ints t r)) /\ same_shape r d /\
    forall y x, 0 <= y < rows d -> 0 <= x < cols d -> cell r y x = if cell m y x then cell d y x else 0.
Proof.
  intros Ht Hd S. destruct (bmap2_same (fun u v => wrap t (exact_op Times u (mask_int v))) d m S) as (r & E & Hr & Hc & V).
  exists r. cbn [any_op]. rewrite E. split; [reflexivity|]. split; [split; assumption|]. intros y x Hy Hx. rewrite V by assumption.
  pose proof (Hd y x Hy Hx) as K. cbn [exact_op].
  replace (cell d y x * mask_int (cell m y x)) with (if cell m y x then cell d y x else 0) by (unfold mask_int; destruct (cell m y x); ring).
  apply wrap_in; [apply numpy_bits, Ht|]. destruct (cell m y x); [exact K|].
  apply representable_range; [apply numpy_bits, Ht|]. clear - Ht. unfold least. destruct Ht as [E|[E|[E|E]]]; rewrite E; destruct (is_signed t); cbn; lia.
Qed.

(** ** Floats *)
Definition one_B : bf := b_ofZ 1.
Lemma one_B_value : B2R one_B = 1%R /\ is_finite one_B = true.
Proof. destruct (ofZ_value 1 eq_refl) as (A & B & C). change (nofZ 1) with (b64_ofZ 1) in *. rewrite ofZ_equiv in *. rewrite fval_B2R in C. split; [exact C|]. apply finite_B. exact B. Qed.

Lemma times_one (v : b64) : is_binary64 v -> v *! b64_ofZ 1 = v.
Proof.
  intros H. destruct (as_B v H) as (b & ->). change (B2SF b *! b64_ofZ 1) with (SFmul prec emax (B2SF b) (b64_ofZ 1)). rewrite ofZ_equiv, mul_equiv.
  fold one_B. destruct one_B_value as (V1 & F1). f_equal. destruct (is_finite b) eqn:F.
  - pose proof (Bmult_correct prec emax Hprec Hmax mode_NE b one_B) as M. rewrite V1, Rmult_1_r in M.
    change (round radix2 (SpecFloat.fexp prec emax) (round_mode mode_NE) (B2R b)) with (rnd (B2R b)) in M. rewrite rnd_id in M.
    rewrite (Rlt_bool_true _ _ (bf_bound b)) in M. destruct M as (M1 & M2 & M3). rewrite F, F1 in M2. cbn [andb] in M2.
    assert (N : is_nan (Bmult mode_NE b one_B) = false) by (destruct (Bmult mode_NE b one_B); try reflexivity; discriminate M2).
    apply B2R_Bsign_inj; [exact M2|exact F|exact M1|]. rewrite (M3 N).
    replace (Bsign one_B) with false by (vm_compute; reflexivity). apply xorb_false_r.
  - destruct b as [s|s| |s m e Hb]; try discriminate F.
    + destruct s; vm_compute; reflexivity.
    + vm_compute. reflexivity.
Qed.

(** What remains of a number multiplied with "false" *)
Definition nothing_of (v : b64) : b64 :=
  match v with S754_zero s | S754_finite s _ _ => S754_zero s | _ => S754_nan end.
Lemma times_zero (v : b64) : v *! b64_ofZ 0 = nothing_of v.
Proof. destruct v as [s|s| |s m e]; cbn; try reflexivity; destruct s; reflexivity. Qed.
Lemma nothing_value v : finite64 v -> is_value (nothing_of v) 0.
Proof. destruct v as [s|s| |s m e]; intros F; try (destruct F; fail); cbn in F; try contradiction; try discriminate; (split; [reflexivity|]; split; [first [exact I|reflexivity]|reflexivity]). Qed.
Lemma nothing_nan v : ~ finite64 v -> nothing_of v = S754_nan.
Proof. destruct v as [s|s| |s m e]; intros F; try reflexivity; exfalso; apply F; first [exact I|reflexivity]. Qed.

Lemma times_mask v b : is_binary64 v -> float_op Times v (b64_ofZ (mask_int b)) = if b then v else nothing_of v.
Proof. intros H. cbn [float_op]. destruct b; [apply times_one, H|apply times_zero]. Qed.

Lemma masked_run (d : arr b64) (m : arr bool) : same_shape d m -> image64 d ->
  exists r, any_op Times (Numbers (Floats d)) (Mask m) = Ok (Numbers (Floats r)) /\ same_shape r d /\
    forall y x, 0 <= y < rows d -> 0 <= x < cols d -> cell r y x = if cell m y x then cell d y x else nothing_of (cell d y x).
Proof.
  intros S H. destruct (bmap2_same (fun u v => float_op Times u (b64_ofZ (mask_int v))) d m S) as (r & E & Hr & Hc & V).
  exists r. cbn [any_op]. rewrite E. split; [reflexivity|]. split; [split; assumption|]. intros y x Hy Hx.
  rewrite V by assumption. apply times_mask, (H y x Hy Hx).
Qed.

Lemma masked_floats (d : arr b64) (m : arr bool) : same_shape d m -> image64 d ->
  exists r, any_op Times (Numbers (Floats d)) (Mask m) = Ok (Numbers (Floats r)) /\ same_shape r d /\
    forall y x, 0 <= y < rows d -> 0 <= x < cols d ->
      (cell m y x = true -> cell r y x = cell d y x) /\ (cell m y x = false -> finite64 (cell d y x) -> is_value (cell r y x) 0).
Proof.
  intros S H. destruct (masked_run d m S H) as (r & E & Sr & V). exists r. split; [exact E|]. split; [exact Sr|].
  intros y x Hy Hx. rewrite (V y x Hy Hx). split; intros ->; [reflexivity|apply nothing_value].
Qed.

Lemma masked_missing (d : arr b64) (m : arr bool) : same_shape d m -> image64 d ->
  exists r, any_op Times (Numbers (Floats d)) (Mask m) = Ok (Numbers (Floats r)) /\
    forall y x, 0 <= y < rows d -> 0 <= x < cols d -> cell m y x = false -> ~ finite64 (cell d y x) -> cell r y x = S754_nan.
Proof.
  intros S H. destruct (masked_run d m S H) as (r & E & Sr & V). exists r. split; [exact E|].
  intros y x Hy Hx Em F. rewrite (V y x Hy Hx), Em. apply nothing_nan, F.
Qed.

Lemma masked_twice (d : arr b64) (m n : arr bool) : same_shape d m -> same_shape d n -> image64 d ->
  exists r s k p, any_op Times (Numbers (Floats d)) (Mask m) = Ok (Numbers (Floats r)) /\
    any_op Times (Numbers (Floats r)) (Mask n) = Ok (Numbers (Floats s)) /\
    any_op Times (Mask m) (Mask n) = Ok (Mask k) /\ any_op Times (Numbers (Floats d)) (Mask k) = Ok (Numbers (Floats p)) /\
    same_shape p s /\ forall y x, 0 <= y < rows p -> 0 <= x < cols p -> cell p y x = cell s y x.
Proof.
  intros (Sm1 & Sm2) (Sn1 & Sn2) H. destruct (masked_run d m (conj Sm1 Sm2) H) as (r & Er & (Rr & Cr) & Vr).
  assert (Hr : image64 r).
  { intros y x Hy Hx. rewrite Rr in Hy. rewrite Cr in Hx. rewrite (Vr y x Hy Hx). pose proof (H y x Hy Hx) as K.
    destruct (cell m y x); [exact K|]. destruct (cell d y x); reflexivity. }
  destruct (masked_run r n ltac:(split; congruence) Hr) as (s & Es & (Rs & Cs) & Vs).
  destruct (masks_and m n ltac:(split; congruence)) as (k & Ek & (Rk & Ck) & Vk).
  destruct (masked_run d k ltac:(split; congruence) H) as (p & Ep & (Rp & Cp) & Vp).
  exists r, s, k, p. split; [exact Er|]. split; [exact Es|]. split; [exact Ek|]. split; [exact Ep|]. split; [split; congruence|].
  intros y x Hy Hx. rewrite Rp in Hy. rewrite Cp in Hx. rewrite Vp, Vs, Vr, Vk by congruence.
  destruct (cell m y x), (cell n y x); cbn [andb]; try reflexivity; destruct (cell d y x); reflexivity.
Qed.

(** ** Stokes parameters *)
Lemma rnd0 : rnd 0 = 0%R. Proof. apply round_0. typeclasses eauto. Qed.
Lemma sum_zero (a b : b64) : is_value a 0 -> is_value b 0 -> is_value (a +! b) 0.
Proof. intros A B. pose proof (add_value a b 0 0 A B) as K. rewrite Rplus_0_l, rnd0, Rabs_R0 in K. apply K, bpow_gt_0. Qed.
Lemma diff_zero (a b : b64) : is_value a 0 -> is_value b 0 -> is_value (a -! b) 0.
Proof. intros A B. pose proof (sub_value a b 0 0 A B) as K. rewrite Rminus_0_r, rnd0, Rabs_R0 in K. apply K, bpow_gt_0. Qed.
Lemma zeros4 (a b c e : b64) : is_value a 0 -> is_value b 0 -> is_value c 0 -> is_value e 0 -> is_value (nhalf *! (((a +! b) +! c) +! e)) 0.
Proof.
  intros A B C E. assert (S : is_value (((a +! b) +! c) +! e) 0) by (apply sum_zero; [apply sum_zero; [apply sum_zero|]|]; assumption).
  pose proof (mul_value _ _ _ _ (fx_value _ _ _ _ half_fx) S) as K. rewrite Rmult_0_r, rnd0, Rabs_R0 in K. apply K, bpow_gt_0.
Qed.

Lemma masked_stokes dic a (d : arr b64) (m : arr bool) M : describes dic a -> mosaic d -> same_shape d m -> whole_superpixels m M -> image64 d ->
  (forall y x, 0 <= y < rows d -> 0 <= x < cols d -> finite64 (cell d y x)) ->
  exists r s s', any_op Times (Numbers (Floats d)) (Mask m) = Ok (Numbers (Floats r)) /\ data_stokes dic d = Ok s /\ data_stokes dic r = Ok s' /\
    forall Y X, 0 <= Y < rows d / 2 -> 0 <= X < cols d / 2 ->
      (M Y X = true -> cell (sI s') Y X = cell (sI s) Y X /\ cell (sQ s') Y X = cell (sQ s) Y X /\ cell (sU s') Y X = cell (sU s) Y X) /\
      (M Y X = false -> is_value (cell (sI s') Y X) 0 /\ is_value (cell (sQ s') Y X) 0 /\ is_value (cell (sU s') Y X) 0).
Proof.
  intros HD Mo Sm HW H F. destruct (masked_run d m Sm H) as (r & E & (Rr & Cr) & V). pose proof HD as (Ok4 & _). pose proof Ok4 as (R0 & R45 & Rm45 & R90 & _).
  assert (Mr : mosaic r) by (destruct Mo as (M1 & M2 & M3 & M4); repeat split; congruence).
  destruct (data_stokes_spec dic a d HD Mo) as (s & Es & _ & _ & _ & Vs). destruct (data_stokes_spec dic a r HD Mr) as (s' & Es' & _ & _ & _ & Vs').
  rewrite Rr, Cr in Vs'. exists r, s, s'. split; [exact E|]. split; [exact Es|]. split; [exact Es'|]. intros Y X HY HX.
  destruct (Vs Y X HY HX) as (I1 & Q1 & U1). destruct (Vs' Y X HY HX) as (I2 & Q2 & U2). rewrite I1, Q1, U1, I2, Q2, U2.
  assert (K : forall k, 0 <= k < 4 -> sample r k Y X = (if M Y X then sample d k Y X else nothing_of (sample d k Y X)) /\ finite64 (sample d k Y X)).
  { intros k Hk. unfold sample. destruct Mo as (M1 & M2 & M3 & M4). destruct Sm as (Sm1 & Sm2).
    assert (Hy : 0 <= 2 * Y + k / 2 < rows d) by (clear - HY Hk M1 M2 M3 M4; Z.to_euclidean_division_equations; lia).
    assert (Hx : 0 <= 2 * X + k mod 2 < cols d) by (clear - HX Hk M1 M2 M3 M4; Z.to_euclidean_division_equations; lia).
    split; [|apply F; assumption]. rewrite V by assumption. rewrite HW by congruence.
    replace ((2 * Y + k / 2) / 2) with Y by (clear - Hk; Z.to_euclidean_division_equations; lia).
    replace ((2 * X + k mod 2) / 2) with X by (clear - Hk; Z.to_euclidean_division_equations; lia). reflexivity. }
  pose proof (K 0 ltac:(lia)) as (K0 & F0). pose proof (K 1 ltac:(lia)) as (K1 & F1). pose proof (K 2 ltac:(lia)) as (K2 & F2). pose proof (K 3 ltac:(lia)) as (K3 & F3).
  destruct (K (p0 a) R0) as (Ka & Fa). destruct (K (p45 a) R45) as (Kb & Fb). destruct (K (pm45 a) Rm45) as (Kc & Fc). destruct (K (p90 a) R90) as (Ke & Fe).
  rewrite K0, K1, K2, K3, Ka, Kb, Kc, Ke. split; intros ->; [auto|].
  split; [apply zeros4; apply nothing_value; assumption|]. split; apply diff_zero; apply nothing_value; assumption.
Qed.

(** ** Integers and floats *)
Lemma op_near op (u v : b64) p q : is_value u p -> is_value v q -> (Rabs p <= powerRZ 2 500)%R -> (Rabs q <= powerRZ 2 500)%R -> nearest (float_op op u v) (compute_real op p q).
Proof.
  intros Hu Hv Bp Bq. apply is_value_nearest.
  assert (P : (powerRZ 2 500 + powerRZ 2 500 <= huge)%R).
  { rewrite <- (bpow_powerRZ radix2). change 500%Z with (499 + 1)%Z. rewrite bpow_plus. change (bpow radix2 1) with 2%R.
    replace (bpow radix2 499 * 2 + bpow radix2 499 * 2)%R with (bpow radix2 499 * (2 * 2))%R by ring. change (2 * 2)%R with (bpow radix2 1 * bpow radix2 1)%R. rewrite <- !bpow_plus. apply bpow_le. lia. }
  assert (Q : (powerRZ 2 500 * powerRZ 2 500 <= huge)%R) by (rewrite <- (bpow_powerRZ radix2), <- bpow_plus; apply bpow_le; lia).
  destruct op; cbn [float_op compute_real].
  - apply add_value; [exact Hu|exact Hv|apply rnd_huge]. pose proof (Rabs_triang p q). lra.
  - apply sub_value; [exact Hu|exact Hv|apply rnd_huge]. pose proof (Rabs_triang p (- q)) as T. rewrite Rabs_Ropp in T. unfold Rminus. lra.
  - apply mul_value; [exact Hu|exact Hv|apply rnd_huge]. rewrite Rabs_mult. apply Rle_trans with (2 := Q). apply Rmult_le_compat; try apply Rabs_pos; assumption.
Qed.

Lemma small_500 z : Z.abs z < 2 ^ 53 -> (Rabs (IZR z) <= powerRZ 2 500)%R.
Proof.
  intros H. rewrite <- abs_IZR. apply Rle_trans with (IZR (2 ^ 53)); [apply IZR_le; lia|]. rewrite <- (bpow_powerRZ radix2).
  exact (bpow_le radix2 53 500 ltac:(lia)).
Qed.

Definition as_float (c : contents) (y x : Z) : b64 :=
  match c with Mask m => b64_ofZ (mask_int (cell m y x)) | Numbers (Ints _ d) => b64_ofZ (cell d y x) | Numbers (Floats d) => cell d y x end.
Lemma as_float_value c y x : plain_at c y x -> is_value (as_float c y x) (value_at c y x) /\ (Rabs (value_at c y x) <= powerRZ 2 500)%R.
Proof.
  destruct c as [m|[t d|d]]; cbn [plain_at as_float value_at].
  - intros _. unfold mask_int. destruct (cell m y x); [split; [exact (ofZ_value 1 eq_refl)|exact (small_500 1 eq_refl)]|split; [exact (ofZ_value 0 eq_refl)|exact (small_500 0 eq_refl)]].
  - intros H. split; [exact (ofZ_value _ H)|exact (small_500 _ H)].
  - intros (A & B & C). split; [split; auto|exact C].
Qed.

Lemma any_floats op a b : height_any a = height_any b -> width_any a = width_any b -> of_floats a \/ of_floats b ->
  exists r, any_op op a b = Ok (Numbers (Floats r)) /\ rows r = height_any a /\ cols r = width_any a /\
    forall y x, 0 <= y < rows r -> 0 <= x < cols r -> cell r y x = float_op op (as_float a y x) (as_float b y x).
Proof.
  destruct a as [m|[t d|d]]; destruct b as [m'|[t' d'|d']]; cbn [height_any width_any of_floats any_op as_float]; intros Hr Hc Hf; try (exfalso; tauto);
    match goal with |- context [bmap2 ?f ?u ?v] => destruct (bmap2_same f u v (conj Hr Hc)) as (r & E & Rr & Cr & V) end;
    rewrite E; exists r; (split; [reflexivity|]; split; [exact Rr|]; split; [exact Cr|]; intros y x Hy Hx; rewrite V by congruence; reflexivity).
Qed.

Lemma mixed_floats op a b : height_any a = height_any b -> width_any a = width_any b -> of_floats a \/ of_floats b ->
  exists r, any_op op a b = Ok (Numbers (Floats r)) /\ rows r = height_any a /\ cols r = width_any a /\
    forall y x, 0 <= y < rows r -> 0 <= x < cols r -> plain_at a y x -> plain_at b y x ->
      nearest (cell r y x) (compute_real op (value_at a y x) (value_at b y x)).
Proof.
  intros Hr Hc Hf. destruct (any_floats op a b Hr Hc Hf) as (r & E & Rr & Cr & V). exists r. split; [exact E|]. split; [exact Rr|]. split; [exact Cr|].
  intros y x Hy Hx Pa Pb. rewrite (V y x Hy Hx). destruct (as_float_value a y x Pa) as (Va & Ba). destruct (as_float_value b y x Pb) as (Vb & Bb).
  apply op_near; assumption.
Qed.

Lemma mixed_number op a f : is_binary64 f -> finite64 f -> (Rabs (fval f) <= powerRZ 2 500)%R ->
  let r := with_float op a f in rows r = height_any a /\ cols r = width_any a /\
  forall y x, plain_at a y x -> nearest (cell r y x) (compute_real op (value_at a y x) (fval f)).
Proof.
  intros B F S r. assert (E : forall y x, cell r y x = float_op op (as_float a y x) f) by (intros y x; unfold r; destruct a as [m|[t d|d]]; reflexivity).
  split; [unfold r; destruct a as [m|[t d|d]]; reflexivity|]. split; [unfold r; destruct a as [m|[t d|d]]; reflexivity|].
  intros y x Pa. rewrite E. destruct (as_float_value a y x Pa) as (Va & Ba). apply op_near; [exact Va|split; auto|exact Ba|exact S].
Qed.

Lemma mask_ints op t (d : arr Z) (m : arr bool) : numpy_type t -> same_shape d m ->
  exists r q, any_op op (Numbers (Ints t d)) (Mask m) = Ok (Numbers (Ints t r)) /\ any_op op (Mask m) (Numbers (Ints t d)) = Ok (Numbers (Ints t q)) /\
    same_shape r d /\ same_shape q d /\
    forall y x, 0 <= y < rows d -> 0 <= x < cols d -> let b := if cell m y x then 1 else 0 in
      stored t (compute op (cell d y x) b) (cell r y x) /\ stored t (compute op b (cell d y x)) (cell q y x).
Proof.
  intros Ht S. pose proof S as (S1 & S2). destruct (bmap2_same (fun u v => wrap t (exact_op op u (mask_int v))) d m S) as (r & E & Hr & Hc & V).
  destruct (bmap2_same (fun u v => wrap t (exact_op op (mask_int u) v)) m d ltac:(split; congruence)) as (q & E' & Hr' & Hc' & V').
  exists r, q. cbn [any_op]. rewrite E, E'. split; [reflexivity|]. split; [reflexivity|]. split; [split; assumption|]. split; [split; congruence|].
  intros y x Hy Hx. rewrite V by assumption. rewrite V' by congruence. unfold mask_int.
  split; destruct op; cbn [compute exact_op]; apply wrap_stored, numpy_bits, Ht.
Qed.

Lemma float_number op t (d : arr Z) k : Z.abs k < 2 ^ 53 ->
  let r := with_float op (Numbers (Ints t d)) (nofZ k) in
  same_shape r d /\ forall y x, Z.abs (cell d y x) < 2 ^ 53 -> Z.abs (compute op (cell d y x) k) < 2 ^ 53 ->
    is_value (cell r y x) (IZR (compute op (cell d y x) k)).
Proof.
  intros Hk r. split; [split; reflexivity|]. intros y x Hz Hc. change (cell r y x) with (float_op op (nofZ (cell d y x)) (nofZ k)).
  pose proof (ofZ_value _ Hk) as Vk. pose proof (ofZ_value _ Hz) as Vz. pose proof (rnd_fixed _ 0 Hc ltac:(lia)) as Rf. pose proof (fixed_small _ 0 Hc ltac:(lia)) as Sm. rewrite fixed_0 in Rf, Sm.
  destruct op; cbn [float_op compute] in *; rewrite ?plus_IZR, ?minus_IZR, ?mult_IZR in *; rewrite <- Rf.
  - apply add_value; [exact Vz|exact Vk|rewrite Rf; exact Sm].
  - apply sub_value; [exact Vz|exact Vk|rewrite Rf; exact Sm].
  - apply mul_value; [exact Vz|exact Vk|rewrite Rf; exact Sm].
Qed.

Lemma large_rounded h w t :
  exists r, any_op Plus (Numbers (Ints t (full h w (2 ^ 53 + 1)))) (Numbers (Floats (full h w (nofZ 0)))) = Ok (Numbers (Floats r)) /\
    forall y x, fval (cell r y x) = IZR (2 ^ 53) /\ fval (cell r y x) <> IZR (2 ^ 53 + 1).
Proof.
  cbn [any_op]. unfold bmap2, bdim. cbn [full rows cols]. rewrite !Z.eqb_refl. cbn [bind]. eexists. split; [reflexivity|]. cbn [cell]. intros y x.
  unfold bcell. cbn [full cell float_op].
  assert (E : fval (b64_ofZ (2 ^ 53 + 1) +! nofZ 0) = IZR (2 ^ 53)).
  { replace (b64_ofZ (2 ^ 53 + 1) +! nofZ 0) with (S754_finite false 4503599627370496 1) by (vm_compute; reflexivity). unfold fval. change (powerRZ 2 1) with (2 * 1)%R. change (2 ^ 53) with 9007199254740992. lra. }
  rewrite E. split; [reflexivity|]. intros K. apply eq_IZR in K. lia.
Qed.
