(** Arithmetic of integer images. *)
From Coq Require Import Reals Lra Lia.
From Verif Require Import Base.Base Base.BaseFacts Base.Num Base.Bcast Model.Demosaic Model.Stokes Model.Codec Model.Ifov
  Model.IntData Spec.MosaicSpec Spec.StokesSpec Spec.ChenSpec Spec.CodecSpec Spec.IntSpec Proofs.StokesFacts Spec.PixelSpec Proofs.UtilFacts
  Proofs.RawFacts Proofs.ChenFacts.

Section Type_.
  Variables (t : itype) (Hb : 0 < bits t).

  Lemma size_pos : 0 < 2 ^ bits t. Proof. apply Z.pow_pos_nonneg; lia. Qed.
  Lemma size_half : 2 ^ bits t = 2 * 2 ^ (bits t - 1).
  Proof. rewrite <- Z.pow_succ_r by lia. f_equal. lia. Qed.

  Lemma representable_range z : representable t z <-> least t <= z < least t + 2 ^ bits t.
  Proof. unfold representable, least. pose proof size_half. destruct (is_signed t); lia. Qed.

  Lemma wrap_stored z : stored t z (wrap t z).
  Proof.
    pose proof size_pos as Hp. unfold stored. split.
    - apply representable_range. unfold wrap. pose proof (Z.mod_pos_bound (z - least t) (2 ^ bits t) Hp). lia.
    - exists (- ((z - least t) / 2 ^ bits t)). unfold wrap. rewrite Z.mod_eq by lia. ring.
  Qed.

  Lemma stored_unique z w w' : stored t z w -> stored t z w' -> w = w'.
  Proof.
    pose proof size_pos as Hp. intros (R1 & k & E1) (R2 & k' & E2).
    apply representable_range in R1, R2. assert (k = k') by nia. congruence.
  Qed.

  Lemma wrap_in z : representable t z -> wrap t z = z.
  Proof. intros Hz. apply (stored_unique z); [apply wrap_stored|]. split; [exact Hz|]. exists 0. ring. Qed.

  Lemma fits_type_iff z : fits_type t z = true <-> representable t z.
  Proof. rewrite representable_range. unfold fits_type. lia. Qed.
End Type_.

Lemma c114_pixels t op d1 d2 : 0 < bits t -> same_shape d1 d2 ->
  exists d, image_op t op d1 d2 = Ok d /\ same_shape d d1 /\
    forall y x, 0 <= y < rows d1 -> 0 <= x < cols d1 ->
      stored t (exact_op op (cell d1 y x) (cell d2 y x)) (cell d y x).
Proof.
  intros Hb Hs. destruct (bmap2_same (fun a b => wrap t (exact_op op a b)) d1 d2 Hs) as (d & E & Hr & Hc & Hd).
  exists d. split; [exact E|]. split; [split; assumption|]. intros y x Hy Hx. rewrite Hd by assumption.
  apply wrap_stored. exact Hb.
Qed.

Lemma c114_each t op (d1 d2 : arr Z) : 0 < bits t -> same_shape d1 d2 ->
  exists d, image_op t op d1 d2 = Ok d /\ same_shape d d1 /\
    forall y x, 0 <= y < rows d1 -> 0 <= x < cols d1 ->
      stored t (match op with Plus => cell d1 y x + cell d2 y x | Minus => cell d1 y x - cell d2 y x
                | Times => cell d1 y x * cell d2 y x end) (cell d y x).
Proof. destruct op; [apply (c114_pixels t Plus)|apply (c114_pixels t Minus)|apply (c114_pixels t Times)]. Qed.

Lemma sample_bounds {A} (d : arr A) k Y X : mosaic d -> 0 <= k < 4 -> 0 <= Y < rows d / 2 -> 0 <= X < cols d / 2 ->
  0 <= 2 * Y + k / 2 < rows d /\ 0 <= 2 * X + k mod 2 < cols d.
Proof.
  intros (_ & _ & M1 & M2) Hk HY HX. assert (K : k = 0 \/ k = 1 \/ k = 2 \/ k = 3) by lia.
  destruct K as [-> | [-> | [-> | ->]]]; Z.to_euclidean_division_equations; lia.
Qed.

(** Stokes parameters of the result in terms of what is stored *)
Lemma op_stokes t op dic a d1 d2 : describes dic a -> mosaic d1 -> same_shape d1 d2 ->
  exists d s, image_op t op d1 d2 = Ok d /\ int_stokes dic d = Ok s /\
    let v k Y X := IZR (wrap t (exact_op op (sample d1 k Y X) (sample d2 k Y X))) in
    stokes_is s (rows d1 / 2) (cols d1 / 2)
      (fun Y X => (v 0%Z Y X + v 1%Z Y X + v 2%Z Y X + v 3%Z Y X) / 2)%R
      (fun Y X => v (p0 a) Y X - v (p90 a) Y X)%R (fun Y X => v (p45 a) Y X - v (pm45 a) Y X)%R.
Proof.
  intros Ha Hm Hs. destruct (bmap2_same (fun a b => wrap t (exact_op op a b)) d1 d2 Hs) as (d & E & Hr & Hc & Hd).
  assert (Hm' : mosaic (amap IZR d)) by (unfold mosaic in *; cbn [amap rows cols]; rewrite Hr, Hc; exact Hm).
  destruct (data_stokes_spec dic a (amap IZR d) Ha Hm') as (s & Es & HI & HQ & HU & Hcell).
  cbn [amap rows cols] in *. rewrite Hr, Hc in *.
  exists d, s. split; [exact E|]. split; [exact Es|]. cbv zeta. split; [exact HI|]. split; [exact HQ|]. split; [exact HU|].
  intros Y X HY HX. destruct (Hcell Y X HY HX) as (EI & EQ & EU).
  assert (K : forall k, 0 <= k < 4 -> sample (amap IZR d) k Y X = IZR (wrap t (exact_op op (sample d1 k Y X) (sample d2 k Y X)))).
  { intros k Hk. destruct (sample_bounds d1 k Y X Hm Hk HY HX) as (B1 & B2).
    unfold sample. cbn [amap cell]. rewrite Hd by assumption. reflexivity. }
  destruct Ha as (Hok & _). unfold arrangement_ok in Hok.
  rewrite EI, EQ, EU. rewrite !K by lia. cbn [nadd nsub nmul nhalf Num_R].
  split; [|split; reflexivity]. first [lra | unfold Rdiv; ring].
Qed.

Lemma int_stokes_spec dic a d : describes dic a -> mosaic d ->
  exists s, int_stokes dic d = Ok s /\
    let v k Y X := IZR (sample d k Y X) in
    stokes_is s (rows d / 2) (cols d / 2)
      (fun Y X => (v 0%Z Y X + v 1%Z Y X + v 2%Z Y X + v 3%Z Y X) / 2)%R
      (fun Y X => v (p0 a) Y X - v (p90 a) Y X)%R (fun Y X => v (p45 a) Y X - v (pm45 a) Y X)%R.
Proof.
  intros Ha Hm. destruct (data_stokes_spec dic a (amap IZR d) Ha Hm) as (s & Es & HI & HQ & HU & Hcell).
  exists s. split; [exact Es|]. cbv zeta. split; [exact HI|]. split; [exact HQ|]. split; [exact HU|].
  intros Y X HY HX. destruct (Hcell Y X HY HX) as (EI & EQ & EU). rewrite EI, EQ, EU.
  unfold sample. cbn [amap cell nadd nsub nmul nhalf Num_R]. split; [|split; reflexivity]. first [lra | unfold Rdiv; ring].
Qed.

Section Two_images.
  Variables (t : itype) (dic : angle_dic) (a : arrangement) (d1 d2 : arr Z).
  Hypotheses (Hb : 0 < bits t) (Ha : describes dic a) (Hm : mosaic d1) (Hs : same_shape d1 d2).

  Let m2 : mosaic d2.
  Proof. destruct Hs as [E1 E2]. unfold mosaic in *. rewrite <- E1, <- E2. exact Hm. Qed.

  (** The Stokes parameters differ from the expected ones by multiples of the number of values. *)
  Lemma op_error op c (err : Z -> Z -> R) : c = 1%R /\ op = Plus \/ c = (-1)%R /\ op = Minus ->
    (forall y x, 0 <= y < rows d1 -> 0 <= x < cols d1 ->
       (IZR (wrap t (exact_op op (cell d1 y x) (cell d2 y x))) = IZR (cell d1 y x) + c * IZR (cell d2 y x) + err y x)%R) ->
    exists d s1 s2 s, image_op t op d1 d2 = Ok d /\ int_stokes dic d1 = Ok s1 /\ int_stokes dic d2 = Ok s2 /\
      int_stokes dic d = Ok s /\
      let e k Y X := err (2 * Y + k / 2) (2 * X + k mod 2) in
      stokes_is s (rows d1 / 2) (cols d1 / 2)
        (fun Y X => cell (sI s1) Y X + c * cell (sI s2) Y X + (e 0%Z Y X + e 1%Z Y X + e 2%Z Y X + e 3%Z Y X) / 2)%R
        (fun Y X => cell (sQ s1) Y X + c * cell (sQ s2) Y X + (e (p0 a) Y X - e (p90 a) Y X))%R
        (fun Y X => cell (sU s1) Y X + c * cell (sU s2) Y X + (e (p45 a) Y X - e (pm45 a) Y X))%R.
  Proof.
    intros Hc He. destruct (op_stokes t op dic a d1 d2 Ha Hm Hs) as (d & s & E & Es & HI & HQ & HU & Hcell).
    destruct (int_stokes_spec dic a d1 Ha Hm) as (s1 & E1 & _ & _ & _ & H1).
    destruct (int_stokes_spec dic a d2 Ha m2) as (s2 & E2 & _ & _ & _ & H2).
    assert (S1 : rows d2 = rows d1) by (destruct Hs; congruence). assert (S2 : cols d2 = cols d1) by (destruct Hs; congruence).
    rewrite S1, S2 in H2. exists d, s1, s2, s. do 4 (split; [assumption|]). cbv zeta.
    split; [exact HI|]. split; [exact HQ|]. split; [exact HU|]. intros Y X HY HX.
    destruct (Hcell Y X HY HX) as (EI & EQ & EU). destruct (H1 Y X HY HX) as (I1 & Q1 & U1). destruct (H2 Y X HY HX) as (I2 & Q2 & U2).
    rewrite EI, EQ, EU, I1, Q1, U1, I2, Q2, U2.
    assert (K : forall k, 0 <= k < 4 -> (IZR (wrap t (exact_op op (sample d1 k Y X) (sample d2 k Y X))) =
              IZR (sample d1 k Y X) + c * IZR (sample d2 k Y X) + err (2 * Y + k / 2)%Z (2 * X + k mod 2)%Z)%R).
    { intros k Hk. destruct (sample_bounds d1 k Y X Hm Hk HY HX) as (B1 & B2). apply He; assumption. }
    destruct Ha as (Hok & _). unfold arrangement_ok in Hok. rewrite !K by lia. repeat split; lra.
  Qed.

  Lemma c114_sum_in_range :
    (forall y x, 0 <= y < rows d1 -> 0 <= x < cols d1 -> representable t (cell d1 y x + cell d2 y x)) ->
    exists d s1 s2 s, image_op t Plus d1 d2 = Ok d /\ int_stokes dic d1 = Ok s1 /\ int_stokes dic d2 = Ok s2 /\
      int_stokes dic d = Ok s /\
      stokes_is s (rows d1 / 2) (cols d1 / 2)
        (fun Y X => cell (sI s1) Y X + cell (sI s2) Y X)%R
        (fun Y X => cell (sQ s1) Y X + cell (sQ s2) Y X)%R
        (fun Y X => cell (sU s1) Y X + cell (sU s2) Y X)%R.
  Proof.
    intros Hr. destruct (op_error Plus 1 (fun _ _ => 0%R)) as (d & s1 & s2 & s & E & E1 & E2 & Es & HI & HQ & HU & Hcell).
    - left. split; reflexivity.
    - intros y x Hy Hx. cbn [exact_op]. rewrite wrap_in by auto. rewrite plus_IZR. lra.
    - exists d, s1, s2, s. do 4 (split; [assumption|]). split; [exact HI|]. split; [exact HQ|]. split; [exact HU|].
      intros Y X HY HX. destruct (Hcell Y X HY HX) as (EI & EQ & EU). rewrite EI, EQ, EU. repeat split; lra.
  Qed.

  Lemma c114_difference_in_range :
    (forall y x, 0 <= y < rows d1 -> 0 <= x < cols d1 -> representable t (cell d1 y x - cell d2 y x)) ->
    exists d s1 s2 s, image_op t Minus d1 d2 = Ok d /\ int_stokes dic d1 = Ok s1 /\ int_stokes dic d2 = Ok s2 /\
      int_stokes dic d = Ok s /\
      stokes_is s (rows d1 / 2) (cols d1 / 2)
        (fun Y X => cell (sI s1) Y X - cell (sI s2) Y X)%R
        (fun Y X => cell (sQ s1) Y X - cell (sQ s2) Y X)%R
        (fun Y X => cell (sU s1) Y X - cell (sU s2) Y X)%R.
  Proof.
    intros Hr. destruct (op_error Minus (-1) (fun _ _ => 0%R)) as (d & s1 & s2 & s & E & E1 & E2 & Es & HI & HQ & HU & Hcell).
    - right. split; reflexivity.
    - intros y x Hy Hx. cbn [exact_op]. rewrite wrap_in by auto. rewrite minus_IZR. lra.
    - exists d, s1, s2, s. do 4 (split; [assumption|]). split; [exact HI|]. split; [exact HQ|]. split; [exact HU|].
      intros Y X HY HX. destruct (Hcell Y X HY HX) as (EI & EQ & EU). rewrite EI, EQ, EU. repeat split; lra.
  Qed.

  (** Unsigned images *)
  Hypotheses (Hu : is_signed t = false)
    (R1 : forall y x, 0 <= y < rows d1 -> 0 <= x < cols d1 -> representable t (cell d1 y x))
    (R2 : forall y x, 0 <= y < rows d1 -> 0 <= x < cols d1 -> representable t (cell d2 y x)).

  Lemma wrap_difference p q : representable t p -> representable t q ->
    (IZR (wrap t (p - q)) = IZR p + -1 * IZR q + IZR (2 ^ bits t) * borrow p q)%R.
  Proof.
    intros Hp Hq. unfold representable in Hp, Hq. rewrite Hu in Hp, Hq. unfold borrow.
    assert (E : wrap t (p - q) = if p <? q then p - q + 2 ^ bits t else p - q).
    { apply (stored_unique t Hb (p - q)); [apply wrap_stored; exact Hb|].
      destruct (Z.ltb_spec p q); (split; [unfold representable; rewrite Hu; lia|]); [exists 1|exists 0]; lia. }
    rewrite E. destruct (p <? q); rewrite ?plus_IZR, minus_IZR; lra.
  Qed.
  Lemma wrap_sum p q : representable t p -> representable t q ->
    (IZR (wrap t (p + q)) = IZR p + 1 * IZR q + - IZR (2 ^ bits t) * carry t p q)%R.
  Proof.
    intros Hp Hq. unfold representable in Hp, Hq. rewrite Hu in Hp, Hq. unfold carry.
    assert (E : wrap t (p + q) = if p + q <? 2 ^ bits t then p + q else p + q - 2 ^ bits t).
    { apply (stored_unique t Hb (p + q)); [apply wrap_stored; exact Hb|].
      destruct (Z.ltb_spec (p + q) (2 ^ bits t)); (split; [unfold representable; rewrite Hu; lia|]); [exists 0|exists (-1)]; lia. }
    rewrite E. destruct (p + q <? 2 ^ bits t); rewrite ?minus_IZR, plus_IZR; lra.
  Qed.

  Lemma c114_difference :
    exists d s1 s2 s, image_op t Minus d1 d2 = Ok d /\ int_stokes dic d1 = Ok s1 /\ int_stokes dic d2 = Ok s2 /\
      int_stokes dic d = Ok s /\
      let n := IZR (2 ^ bits t) in let b k Y X := borrow (sample d1 k Y X) (sample d2 k Y X) in
      stokes_is s (rows d1 / 2) (cols d1 / 2)
        (fun Y X => cell (sI s1) Y X - cell (sI s2) Y X + n / 2 * (b 0%Z Y X + b 1%Z Y X + b 2%Z Y X + b 3%Z Y X))%R
        (fun Y X => cell (sQ s1) Y X - cell (sQ s2) Y X + n * (b (p0 a) Y X - b (p90 a) Y X))%R
        (fun Y X => cell (sU s1) Y X - cell (sU s2) Y X + n * (b (p45 a) Y X - b (pm45 a) Y X))%R.
  Proof.
    destruct (op_error Minus (-1) (fun y x => IZR (2 ^ bits t) * borrow (cell d1 y x) (cell d2 y x))%R)
      as (d & s1 & s2 & s & E & E1 & E2 & Es & HI & HQ & HU & Hcell).
    - right. split; reflexivity.
    - intros y x Hy Hx. apply wrap_difference; auto.
    - exists d, s1, s2, s. do 4 (split; [assumption|]). cbv zeta. split; [exact HI|]. split; [exact HQ|]. split; [exact HU|].
      intros Y X HY HX. destruct (Hcell Y X HY HX) as (EI & EQ & EU). rewrite EI, EQ, EU. unfold sample. repeat split; lra.
  Qed.
  Lemma c114_sum :
    exists d s1 s2 s, image_op t Plus d1 d2 = Ok d /\ int_stokes dic d1 = Ok s1 /\ int_stokes dic d2 = Ok s2 /\
      int_stokes dic d = Ok s /\
      let n := IZR (2 ^ bits t) in let c k Y X := carry t (sample d1 k Y X) (sample d2 k Y X) in
      stokes_is s (rows d1 / 2) (cols d1 / 2)
        (fun Y X => cell (sI s1) Y X + cell (sI s2) Y X - n / 2 * (c 0%Z Y X + c 1%Z Y X + c 2%Z Y X + c 3%Z Y X))%R
        (fun Y X => cell (sQ s1) Y X + cell (sQ s2) Y X - n * (c (p0 a) Y X - c (p90 a) Y X))%R
        (fun Y X => cell (sU s1) Y X + cell (sU s2) Y X - n * (c (p45 a) Y X - c (pm45 a) Y X))%R.
  Proof.
    destruct (op_error Plus 1 (fun y x => - IZR (2 ^ bits t) * carry t (cell d1 y x) (cell d2 y x))%R)
      as (d & s1 & s2 & s & E & E1 & E2 & Es & HI & HQ & HU & Hcell).
    - left. split; reflexivity.
    - intros y x Hy Hx. apply wrap_sum; auto.
    - exists d, s1, s2, s. do 4 (split; [assumption|]). cbv zeta. split; [exact HI|]. split; [exact HQ|]. split; [exact HU|].
      intros Y X HY HX. destruct (Hcell Y X HY HX) as (EI & EQ & EU). rewrite EI, EQ, EU. unfold sample. repeat split; lra.
  Qed.
End Two_images.

(** ** The superpixel calibration *)
Lemma truncated_bound r z : truncated r z -> (-1 < r - IZR z < 1)%R.
Proof. intros (H1 & H2). destruct (Rle_lt_dec 0 r) as [Hr|Hr]; [specialize (H1 Hr)|specialize (H2 Hr)]; lra. Qed.

Lemma assign_trunc t oor v : 0 < bits t -> representable t (rtrunc v) -> assign t oor v = IZR (rtrunc v).
Proof. intros Hb Hr. unfold assign. rewrite (proj2 (fits_type_iff t Hb _) Hr). reflexivity. Qed.

Lemma whole_trunc v : whole v <-> IZR (rtrunc v) = v.
Proof.
  split; [|intros <-; exists (rtrunc v); reflexivity]. intros (z & ->). f_equal.
  apply (truncated_unique (IZR z)); [apply rtrunc_spec|]. split; intros; lra.
Qed.

Lemma c114_chen t oor C dij (data : arr Z) :
  0 < bits t -> mosaic data -> rows dij = rows data -> cols dij = cols data ->
  let f := corrected (fun k l Y X => cell (C k l) (2 * Y) (2 * X)) dij (amap IZR data) in
  (forall y x, 0 <= y < rows data -> 0 <= x < cols data -> (0 <= f y x < IZR (2 ^ (bits t - 1)))%R) ->
  exists r e, chen_calibration_int t oor C dij data = Ok r /\ chen_calibration C dij (amap IZR data) = Ok e /\
    same_shape r data /\ same_shape e data /\
    forall y x, 0 <= y < rows data -> 0 <= x < cols data ->
      (cell e y x - 1 < cell r y x <= cell e y x)%R /\
      (2 <= y -> 2 <= x ->
        (cell r y x = cell e y x <-> whole (f (y - 2) (x - 2)) /\ whole (f (y - 2) x) /\ whole (f y (x - 2)) /\ whole (f y x))).
Proof.
  intros Hb Hm Rd Cd f Hf.
  destruct (chen_with_spec (assign t oor) C dij (amap IZR data) Hm Rd Cd) as (r & Er & Rr & Cr & Hr).
  destruct (chen_spec C dij (amap IZR data) Hm Rd Cd) as (e & Ee & Re & Ce & He).
  exists r, e. split; [exact Er|]. split; [exact Ee|]. split; [split; assumption|]. split; [split; assumption|].
  cbn [amap rows cols] in *. fold f in He.
  assert (K : forall y x, 0 <= y < rows data -> 0 <= x < cols data ->
     assign t oor (f y x) = IZR (rtrunc (f y x)) /\ (IZR (rtrunc (f y x)) <= f y x < IZR (rtrunc (f y x)) + 1)%R).
  { intros y x Hy Hx. destruct (Hf y x Hy Hx) as (F1 & F2). destruct (rtrunc_spec (f y x)) as (T & _). specialize (T F1).
    split; [|exact T]. apply assign_trunc; [exact Hb|]. apply representable_range; [exact Hb|].
    assert (Z1 : rtrunc (f y x) < 2 ^ (bits t - 1)) by (apply lt_IZR; lra).
    assert (Z0 : -1 < rtrunc (f y x)) by (apply lt_IZR; lra).
    pose proof (size_half t Hb). pose proof (size_pos t Hb). unfold least. destruct (is_signed t); lia. }
  intros y x Hy Hx. rewrite Hr, He by assumption. cbv zeta.
  destruct ((y <? 2) || (x <? 2)) eqn:E.
  - split; [cbn [n0 Num_R]; lra|]. intros; lia.
  - change (corrected (fun k l Y X => cell (C k l) (2 * Y) (2 * X)) dij (amap IZR data)) with f.
    destruct (K (y - 2) (x - 2)) as (A1 & B1); [lia|lia|]. destruct (K (y - 2) x) as (A2 & B2); [lia|lia|].
    destruct (K y (x - 2)) as (A3 & B3); [lia|lia|]. destruct (K y x) as (A4 & B4); [lia|lia|].
    rewrite A1, A2, A3, A4. unfold nquart. cbn [nadd nmul Num_R]. rewrite !whole_trunc.
    split; [|intros _ _; split; [intros EE; repeat split|intros (W1 & W2 & W3 & W4)]]; lra.
Qed.
