(** Pixels of images of different integer types. *)
From Coq Require Import Reals Lra Lia Floats.SpecFloat.
From Flocq Require Import Core BinarySingleNaN.
From Verif Require Import Base.Base Base.BaseFacts Base.Num Base.Bcast Model.Stokes Model.IntData Model.IntTypes Spec.MosaicSpec
  Spec.StokesSpec Spec.AngleSpec Spec.FloatSpec Spec.IntSpec Spec.IntTypeSpec Proofs.UtilFacts Proofs.StokesFacts Proofs.IntFacts Proofs.FloatFacts Proofs.ExactFacts
  Proofs.RoundFacts Proofs.IntTypeFacts.
Local Open Scope Z_scope.

Lemma exact_compute op a b : exact_op op a b = compute op a b. Proof. destruct op; reflexivity. Qed.

Lemma top_Z z : Z.abs z < 2 ^ 53 -> rnd (IZR z) = IZR z /\ (Rabs (rnd (IZR z)) < top)%R.
Proof.
  intros Hz. rewrite <- (fixed_0 z), rnd_fixed by lia. split; [reflexivity|]. apply fixed_small; lia.
Qed.

Lemma float_op_exact op a b : Z.abs a < 2 ^ 53 -> Z.abs b < 2 ^ 53 -> Z.abs (compute op a b) < 2 ^ 53 ->
  is_value (float_op op (b64_ofZ a) (b64_ofZ b)) (IZR (compute op a b)).
Proof.
  intros Ha Hb Hc. destruct (top_Z _ Hc) as (E & T). rewrite <- E.
  pose proof (ofZ_value a Ha) as Va. pose proof (ofZ_value b Hb) as Vb.
  destruct op; cbn [float_op compute] in *.
  - rewrite plus_IZR in *. exact (add_value _ _ _ _ Va Vb T).
  - rewrite minus_IZR in *. exact (sub_value _ _ _ _ Va Vb T).
  - rewrite mult_IZR in *. exact (mul_value _ _ _ _ Va Vb T).
Qed.

Lemma mixed_run op t1 t2 d1 d2 : numpy_type t1 -> numpy_type t2 -> image_of t1 d1 -> image_of t2 d2 -> same_shape d1 d2 ->
  exists p, mixed_op op t1 d1 t2 d2 = Ok p /\ height_of p = rows d1 /\ width_of p = cols d1 /\
    type_for (fun z => representable t1 z \/ representable t2 z) p /\
    forall y x, 0 <= y < rows d1 -> 0 <= x < cols d1 -> pixel_of op p y x (cell d1 y x) (cell d2 y x).
Proof.
  intros H1 H2 I1 I2 Hs. unfold mixed_op. pose proof (promote_narrowest t1 t2 H1 H2) as N.
  assert (I2' : forall y x, 0 <= y < rows d1 -> 0 <= x < cols d1 -> representable t2 (cell d2 y x)).
  { destruct Hs as (Er & Ec). intros y x Hy Hx. apply I2; [rewrite <- Er|rewrite <- Ec]; assumption. }
  destruct (promote t1 t2) as [t|].
  - destruct (bmap2_same (fun a b => wrap t (exact_op op (wrap t a) (wrap t b))) d1 d2 Hs) as (d & E & Hr & Hc & Hd).
    rewrite E. eexists. split; [reflexivity|]. cbn [height_of width_of]. split; [exact Hr|]. split; [exact Hc|]. split; [exact N|].
    intros y x Hy Hx. cbn [pixel_of]. rewrite Hd by assumption. destruct N as (Nt & Room & _).
    pose proof (numpy_bits t Nt) as Hb.
    rewrite (wrap_in t Hb (cell d1 y x)) by (apply Room; left; apply I1; assumption).
    rewrite (wrap_in t Hb (cell d2 y x)) by (apply Room; right; apply I2'; assumption).
    rewrite exact_compute. apply wrap_stored. exact Hb.
  - destruct (bmap2_same (fun a b => float_op op (b64_ofZ a) (b64_ofZ b)) d1 d2 Hs) as (d & E & Hr & Hc & Hd).
    rewrite E. eexists. split; [reflexivity|]. cbn [height_of width_of]. split; [exact Hr|]. split; [exact Hc|]. split; [exact N|].
    intros y x Hy Hx. cbn [pixel_of]. rewrite Hd by assumption. apply float_op_exact.
Qed.

Lemma number_run op t d k : numpy_type t -> image_of t d -> - 2 ^ 63 <= k < 2 ^ 64 ->
  let p := with_number op t d k in
  height_of p = rows d /\ width_of p = cols d /\
  type_for (fun z => representable t z \/ z = k) p /\
  forall y x, 0 <= y < rows d -> 0 <= x < cols d -> pixel_of op p y x (cell d y x) k.
Proof.
  intros Ht Hd Hk. unfold with_number. pose proof (number_narrowest t k Ht Hk) as N. cbv zeta.
  destruct (number_type t k) as [u|]; (split; [reflexivity|]); (split; [reflexivity|]); (split; [exact N|]); intros y x Hy Hx;
    cbn [pixel_of amap cell].
  - destruct N as (Nt & Room & _). pose proof (numpy_bits u Nt) as Hb.
    rewrite (wrap_in u Hb (cell d y x)) by (apply Room; left; apply Hd; assumption).
    rewrite (wrap_in u Hb k) by (apply Room; right; reflexivity).
    rewrite exact_compute. apply wrap_stored. exact Hb.
  - apply float_op_exact.
Qed.

(** ** When every result is right *)
Lemma roomy_result op t1 t2 a b : numpy_type t1 -> numpy_type t2 -> roomy t1 t2 -> representable t1 a -> representable t2 b ->
  exists t, promote t1 t2 = Some t /\ representable t (compute op a b).
Proof.
  intros H1 H2 R Ra Rb. rewrite in_range in Ra, Rb by assumption. pose proof low_high as L. revert R Ra Rb.
  known t1 H1; known t2 H2; unfold roomy; cbn [bits is_signed]; intros R Ra Rb;
    try (exfalso; clear - R; intuition (lia || congruence)); cbn; eexists; (split; [reflexivity|]);
    rewrite in_range by (unfold numpy_type; cbn [bits]; lia); clear R; destruct op; cbn [compute]; nia.
Qed.

Lemma roomy_exact op t1 t2 d1 d2 p : numpy_type t1 -> numpy_type t2 -> roomy t1 t2 -> image_of t1 d1 -> image_of t2 d2 -> same_shape d1 d2 ->
  mixed_op op t1 d1 t2 d2 = Ok p ->
  forall y x, 0 <= y < rows d1 -> 0 <= x < cols d1 -> pixel_value p y x = IZR (compute op (cell d1 y x) (cell d2 y x)).
Proof.
  intros H1 H2 R I1 I2 Hs E y x Hy Hx. destruct (mixed_run op t1 t2 d1 d2 H1 H2 I1 I2 Hs) as (p' & E' & _ & _ & T & Hp).
  rewrite E in E'. injection E' as <-. specialize (Hp y x Hy Hx).
  assert (I2' : representable t2 (cell d2 y x)) by (destruct Hs as (Er & Ec); apply I2; [rewrite <- Er|rewrite <- Ec]; assumption).
  destruct (roomy_result op t1 t2 _ _ H1 H2 R (I1 y x Hy Hx) I2') as (t & Et & Rt).
  unfold mixed_op in E. rewrite Et in E. destruct (bmap2 _ d1 d2) as [d| |]; try discriminate E. injection E as <-.
  cbn [pixel_of pixel_value type_for] in *. f_equal. destruct T as (Nt & _).
  apply (stored_unique t (numpy_bits t Nt) (compute op (cell d1 y x) (cell d2 y x))); [exact Hp|].
  split; [exact Rt|]. exists 0. ring.
Qed.

(** Numbers whose result has no room in the common type *)
Ltac witness a b := exists a, b;
  split; [rewrite in_range by (unfold numpy_type; cbn [bits]; lia); vm_compute; split; congruence|];
  split; [rewrite in_range by (unfold numpy_type; cbn [bits]; lia); vm_compute; split; congruence|];
  match goal with |- context [promote ?u ?v] => let r := eval vm_compute in (promote u v) in change (promote u v) with r end;
  cbv beta iota; cbn [compute]; first
    [ rewrite in_range by (unfold numpy_type; cbn [bits]; lia); vm_compute; intuition congruence
    | match goal with |- fval ?x <> _ => let v := eval vm_compute in x in change x with v end; assumption ].

Lemma not_roomy_result op t1 t2 : numpy_type t1 -> numpy_type t2 -> ~ roomy t1 t2 ->
  exists a b, representable t1 a /\ representable t2 b /\
    match promote t1 t2 with
    | Some t => ~ representable t (compute op a b)
    | None => fval (float_op op (b64_ofZ a) (b64_ofZ b)) <> IZR (compute op a b)
    end.
Proof.
  intros H1 H2 R.
  assert (F : (fval (S754_finite false 4503599627370496 1) <> IZR 9007199254740993)%R).
  { unfold fval. change (powerRZ 2 1) with (2 * 1)%R. lra. }
  assert (F' : (fval (S754_finite true 4503599627370496 1) <> IZR (-9007199254740993))%R).
  { unfold fval. change (powerRZ 2 1) with (2 * 1)%R. lra. }
  revert R. known t1 H1; known t2 H2; unfold roomy; cbn [bits is_signed]; intros R.
  all: try (exfalso; apply R; clear; lia).
  all: clear R H1 H2; destruct op.
  all: match goal with |- exists a b, representable ?t1 _ /\ representable ?t2 _ /\ _ =>
    let h1 := eval vm_compute in (high t1) in let h2 := eval vm_compute in (high t2) in
    let l1 := eval vm_compute in (low t1) in let l2 := eval vm_compute in (low t2) in
    first [ witness h1 1 | witness 1 h2 | witness h1 2 | witness 2 h2 | witness l1 1 | witness 0 l2 | witness 0 1
          | witness 9007199254740993 0 | witness 0 9007199254740993 | witness 9007199254740993 1 | witness 1 9007199254740993 ]
    end.
Qed.

Lemma not_roomy_wrong op t1 t2 : numpy_type t1 -> numpy_type t2 -> ~ roomy t1 t2 ->
  exists a b, representable t1 a /\ representable t2 b /\
    forall h w, 1 <= h -> 1 <= w -> exists p, mixed_op op t1 (full h w a) t2 (full h w b) = Ok p /\
      forall y x, 0 <= y < h -> 0 <= x < w -> pixel_value p y x <> IZR (compute op a b).
Proof.
  intros H1 H2 R. destruct (not_roomy_result op t1 t2 H1 H2 R) as (a & b & Ra & Rb & N).
  exists a, b. split; [exact Ra|]. split; [exact Rb|]. intros h w Hh Hw.
  assert (S : same_shape (full h w a) (full h w b)) by (split; reflexivity).
  destruct (mixed_run op t1 t2 (full h w a) (full h w b) H1 H2 (fun _ _ _ _ => Ra) (fun _ _ _ _ => Rb) S) as (p & E & _ & _ & T & Hp).
  exists p. split; [exact E|]. intros y x Hy Hx. specialize (Hp y x Hy Hx). cbn [full cell] in Hp.
  unfold mixed_op in E. destruct (promote t1 t2) as [t|].
  - destruct (bmap2 _ _ _) as [d| |]; try discriminate E. injection E as <-. cbn [pixel_of pixel_value type_for] in *.
    intros Q. apply eq_IZR in Q. destruct Hp as (Hr & _). rewrite Q in Hr. contradiction.
  - destruct (bmap2_same (fun a b => float_op op (b64_ofZ a) (b64_ofZ b)) (full h w a) (full h w b) S) as (d & E' & _ & _ & Hd).
    rewrite E' in E. injection E as <-. cbn [pixel_value]. rewrite Hd by assumption. exact N.
Qed.

(** ** Subtracting a number and adding its negative *)
Lemma number_sign t d k : numpy_type t -> is_signed t = false -> bits t <= 32 -> image_of t d -> 1 <= k < 2 ^ bits t ->
  let p := with_number Minus t d k in let q := with_number Plus t d (- k) in
  forall y x, 0 <= y < rows d -> 0 <= x < cols d ->
    pixel_value q y x = IZR (cell d y x - k) /\
    pixel_value p y x = IZR (cell d y x - k + (if cell d y x <? k then 2 ^ bits t else 0)).
Proof.
  intros Ht Hs Hb Hd Hk. cbv zeta. intros y x Hy Hx. pose proof (Hd y x Hy Hx) as Hv.
  assert (K32 : 2 ^ bits t <= 2 ^ 32) by (apply Z.pow_le_mono_r; lia).
  change (2 ^ 32) with 4294967296 in K32.
  assert (V : 0 <= cell d y x < 2 ^ bits t) by (unfold representable in Hv; rewrite Hs in Hv; exact Hv).
  destruct (number_run Minus t d k Ht Hd ltac:(lia)) as (_ & _ & Tp & Hp).
  destruct (number_run Plus t d (- k) Ht Hd ltac:(lia)) as (_ & _ & Tq & Hq).
  specialize (Hp y x Hy Hx). specialize (Hq y x Hy Hx).
  assert (Rk : representable t k) by (unfold representable; rewrite Hs; lia).
  split.
  - destruct (with_number Plus t d (- k)) as [u e|e]; cbn [type_for pixel_value pixel_of] in *.
    + f_equal. destruct Tq as (Nu & Ru & Min & _).
      apply (stored_unique u (numpy_bits u Nu) (compute Plus (cell d y x) (- k))); [exact Hq|].
      cbn [compute]. split; [|exists 0; ring]. pose proof (Ru _ (or_intror eq_refl)) as Rm.
      rewrite in_range in Rm |- * by exact Nu. pose proof low_high as L.
      assert (Rh : representable u (high t)).
      { apply Ru. left. rewrite in_range by exact Ht. known t Ht; lia. }
      rewrite in_range in Rh by exact Nu.
      assert (Hh : high t = 2 ^ bits t - 1) by (unfold high, least; rewrite Hs; lia). lia.
    + exfalso. apply (Tq (mkitype 64 true)); [unfold numpy_type; cbn; lia|]. intros z [Hz|Hz]; rewrite in_range by (unfold numpy_type; cbn; lia);
        pose proof low_high as L; [|lia]. unfold representable in Hz. rewrite Hs in Hz. lia.
  - destruct (with_number Minus t d k) as [u e|e]; cbn [type_for pixel_value pixel_of] in *.
    + assert (U : u = t).
      { destruct Tp as (Nu & Ru & Min & Sg). assert (Su : is_signed u = false).
        { destruct (is_signed u); [|reflexivity]. destruct (proj1 Sg eq_refl) as (z & [Hz|Hz] & Hn); [|lia].
          unfold representable in Hz. rewrite Hs in Hz. lia. }
        assert (B1 : bits u <= bits t) by (apply Min; [exact Ht|]; intros z [Hz| ->]; assumption).
        assert (Rh : representable u (2 ^ bits t - 1)).
        { apply Ru. left. unfold representable. rewrite Hs. lia. }
        unfold representable in Rh. rewrite Su in Rh.
        assert (B2 : bits t <= bits u) by (apply (Z.pow_le_mono_r_iff 2); unfold numpy_type in Nu; lia).
        destruct u as [bu su], t as [bt st]; cbn [bits is_signed] in *. f_equal; [lia|congruence]. }
      subst u. f_equal. cbn [compute] in Hp.
      apply (stored_unique t (numpy_bits t Ht) (cell d y x - k)); [exact Hp|].
      split; [unfold representable; rewrite Hs; destruct (Z.ltb_spec (cell d y x) k); lia|].
      destruct (Z.ltb_spec (cell d y x) k); [exists 1|exists 0]; ring.
    + exfalso. apply (Tp t Ht). intros z [Hz| ->]; assumption.
Qed.

(** ** Stokes parameters *)
Lemma roomy_stokes op t1 t2 dic a d1 d2 : op <> Times -> numpy_type t1 -> numpy_type t2 -> roomy t1 t2 ->
  image_of t1 d1 -> image_of t2 d2 -> describes dic a -> mosaic d1 -> same_shape d1 d2 ->
  exists p s1 s2 s, mixed_op op t1 d1 t2 d2 = Ok p /\ int_stokes dic d1 = Ok s1 /\ int_stokes dic d2 = Ok s2 /\
    data_stokes dic (int_pixels p) = Ok s /\
    let c v w := (match op with Minus => v - w | _ => v + w end)%R in
    stokes_is s (rows d1 / 2) (cols d1 / 2)
      (fun Y X => c (cell (sI s1) Y X) (cell (sI s2) Y X))
      (fun Y X => c (cell (sQ s1) Y X) (cell (sQ s2) Y X))
      (fun Y X => c (cell (sU s1) Y X) (cell (sU s2) Y X)).
Proof.
  intros Hop H1 H2 R I1 I2 Ha Hm Hs.
  destruct (mixed_run op t1 t2 d1 d2 H1 H2 I1 I2 Hs) as (p & E & Hh & Hw & _ & _).
  pose proof (roomy_exact op t1 t2 d1 d2 p H1 H2 R I1 I2 Hs E) as X.
  assert (m2 : mosaic d2) by (destruct Hs as [E1 E2]; unfold mosaic in *; rewrite <- E1, <- E2; exact Hm).
  assert (mp : mosaic (int_pixels p)) by (unfold mosaic in *; cbn [int_pixels rows cols]; rewrite Hh, Hw; exact Hm).
  destruct (int_stokes_spec dic a d1 Ha Hm) as (s1 & E1 & _ & _ & _ & K1).
  destruct (int_stokes_spec dic a d2 Ha m2) as (s2 & E2 & _ & _ & _ & K2).
  destruct (data_stokes_spec dic a (int_pixels p) Ha mp) as (s & Es & HI & HQ & HU & K).
  assert (S1 : rows d2 = rows d1) by (destruct Hs; congruence). assert (S2 : cols d2 = cols d1) by (destruct Hs; congruence).
  rewrite S1, S2 in K2. cbn [int_pixels rows cols] in *. rewrite Hh, Hw in *.
  exists p, s1, s2, s. do 4 (split; [assumption|]). cbv zeta. split; [exact HI|]. split; [exact HQ|]. split; [exact HU|].
  intros Y X0 HY HX. destruct (K Y X0 HY HX) as (EI & EQ & EU). destruct (K1 Y X0 HY HX) as (EI1 & EQ1 & EU1).
  destruct (K2 Y X0 HY HX) as (EI2 & EQ2 & EU2).
  assert (P : forall k, 0 <= k < 4 -> sample (int_pixels p) k Y X0 = IZR (compute op (sample d1 k Y X0) (sample d2 k Y X0))).
  { intros k Hk. destruct (sample_bounds d1 k Y X0 Hm Hk HY HX) as (B1 & B2). unfold sample. cbn [int_pixels cell]. apply X; assumption. }
  destruct Ha as (Hok & _). unfold arrangement_ok in Hok.
  rewrite EI, EQ, EU, EI1, EQ1, EU1, EI2, EQ2, EU2. rewrite !P by lia.
  cbn [nadd nsub nmul nhalf Num_R].
  destruct op; [|..|contradiction]; cbn [compute]; rewrite ?plus_IZR, ?minus_IZR; repeat split; try lra; unfold Rdiv; ring.
Qed.

(** ** Quotients *)
Lemma quotient_run memory d1 d2 : same_shape d1 d2 ->
  exists d, int_quotient memory d1 d2 = Ok d /\ same_shape d d1 /\
    forall y x, 0 <= y < rows d1 -> 0 <= x < cols d1 -> cell d2 y x <> 0 ->
      Z.abs (cell d1 y x) < 2 ^ 53 -> Z.abs (cell d2 y x) < 2 ^ 53 ->
      nearest (cell d y x) (IZR (cell d1 y x) / IZR (cell d2 y x)).
Proof.
  intros Hs. unfold int_quotient.
  destruct (bmap2_same (fun a b => if b =? 0 then None else Some (ndiv (b64_ofZ a) (b64_ofZ b))) d1 d2 Hs) as (d & E & Hr & Hc & Hd).
  rewrite E. cbn [bind]. eexists. split; [reflexivity|]. split; [split; [exact Hr|exact Hc]|]. cbn [cell].
  intros y x Hy Hx Hz Ha Hb. rewrite Hd by assumption. destruct (Z.eqb_spec (cell d2 y x) 0); [contradiction|].
  set (u := cell d1 y x) in *. set (v := cell d2 y x) in *.
  apply is_value_nearest. apply div_value; [apply ofZ_value; exact Ha|apply ofZ_value; exact Hb|apply not_0_IZR; exact Hz|].
  apply rnd_huge.
  assert (A : (Rabs (IZR u) <= IZR (2 ^ 53))%R) by (rewrite <- abs_IZR; apply IZR_le; lia).
  assert (B : (1 <= Rabs (IZR v))%R) by (rewrite <- abs_IZR; apply IZR_le; lia).
  unfold Rdiv. rewrite Rabs_mult, Rabs_inv.
  assert (C : (/ Rabs (IZR v) <= 1)%R) by (rewrite <- Rinv_1; apply Rinv_le_contravar; lra).
  assert (D : (0 < / Rabs (IZR v))%R) by (apply Rinv_0_lt_compat; lra).
  assert (G : (Rabs (IZR u) * / Rabs (IZR v) <= IZR (2 ^ 53))%R).
  { pose proof (Rabs_pos (IZR u)). nra. }
  eapply Rle_trans; [exact G|]. exact (bpow_le radix2 53 1023 ltac:(lia)).
Qed.
