(** Binary64 arithmetic on the pixels of a camera: no rounding in sums and halves, correct
    rounding of pB, two roundings in DoLP. *)
From Coq Require Import ZArith Reals Lra Lia Floats.SpecFloat.
From Flocq Require Import Core Relative BinarySingleNaN.
From Verif Require Import Base.Base Base.Num Base.BaseFacts Model.Demosaic Model.Rebin Model.Ifov Model.Stokes Model.Pol
  Spec.Terminates Spec.AngleSpec Spec.MosaicSpec Spec.SumSpec Spec.FloatSpec Proofs.FloatFacts
  Proofs.MosaicFacts Proofs.MosaicProps.
Local Open Scope R_scope.

#[local] Existing Instance Hprec.
#[local] Existing Instance Hmax.
#[local] Existing Instance fexp64_valid.
#[local] Existing Instance fexp64_mono.

Lemma mul_equiv (x y : bf) : SFmul prec emax (B2SF x) (B2SF y) = B2SF (Bmult mode_NE x y).
Proof.
  destruct x as [sx|sx| |sx mx ex Bx], y as [sy|sy| |sy my ey By]; try reflexivity.
  cbn -[SpecFloat.binary_round_aux binary_round_aux]. rewrite B2SF_SF2B. apply round_aux_equiv.
Qed.
Lemma div_equiv (x y : bf) : SFdiv prec emax (B2SF x) (B2SF y) = B2SF (Bdiv mode_NE x y).
Proof.
  destruct x as [sx|sx| |sx mx ex Bx], y as [sy|sy| |sy my ey By]; try reflexivity.
  unfold Bdiv. rewrite B2SF_SF2B. cbn [B2SF SFdiv].
  destruct (SFdiv_core_binary prec emax (Z.pos mx) ex (Z.pos my) ey) as [[mz ez] lz]. apply round_aux_equiv.
Qed.
Lemma sqrt_equiv (x : bf) : SFsqrt prec emax (B2SF x) = B2SF (Bsqrt mode_NE x).
Proof.
  destruct x as [sx|sx| |sx mx ex Bx]; try reflexivity; try (destruct sx; reflexivity).
  destruct sx; [reflexivity|]. unfold Bsqrt. rewrite B2SF_SF2B. cbn [B2SF SFsqrt].
  destruct (SFsqrt_core_binary prec emax (Z.pos mx) ex) as [[mz ez] lz]. apply round_aux_equiv.
Qed.

Lemma value_B (x : bf) r : is_finite x = true -> B2R x = r -> is_value (B2SF x) r.
Proof. intros F E. split; [apply valid_binary_B2SF|]. split; [apply finite_B, F|]. rewrite fval_B2R. exact E. Qed.
Lemma B_value x r : is_value x r -> exists b : bf, x = B2SF b /\ is_finite b = true /\ B2R b = r.
Proof.
  intros (V & F & E). destruct (as_B x V) as [b ->]. exists b. rewrite fval_B2R in E. apply finite_B in F. auto.
Qed.
Lemma value_val x r : is_value x r -> fval x = r.
Proof. intros (_ & _ & E). exact E. Qed.

(** ** The five operations *)
Notation top := (bpow radix2 emax).
Ltac value_op L x y Vx Vy Hb :=
  destruct (B_value x _ Vx) as (bx & -> & Fx & <-); destruct (B_value y _ Vy) as (by' & -> & Fy & <-).
Lemma add_value x y r s : is_value x r -> is_value y s -> Rabs (rnd (r + s)) < top -> is_value (x +! y) (rnd (r + s)).
Proof.
  intros Vx Vy Hb. destruct (B_value x _ Vx) as (bx & -> & Fx & <-). destruct (B_value y _ Vy) as (b' & -> & Fy & <-).
  change (is_value (SFadd prec emax (B2SF bx) (B2SF b')) (rnd (B2R bx + B2R b'))). rewrite add_equiv.
  pose proof (Bplus_correct prec emax Hprec Hmax mode_NE bx b' Fx Fy) as C.
  rewrite Rlt_bool_true in C by exact Hb. destruct C as (C1 & C2 & _). apply value_B; assumption.
Qed.
Lemma sub_value x y r s : is_value x r -> is_value y s -> Rabs (rnd (r - s)) < top -> is_value (x -! y) (rnd (r - s)).
Proof.
  intros Vx Vy Hb. destruct (B_value x _ Vx) as (bx & -> & Fx & <-). destruct (B_value y _ Vy) as (b' & -> & Fy & <-).
  change (is_value (SFsub prec emax (B2SF bx) (B2SF b')) (rnd (B2R bx - B2R b'))). rewrite sub_equiv.
  pose proof (Bminus_correct prec emax Hprec Hmax mode_NE bx b' Fx Fy) as C.
  rewrite Rlt_bool_true in C by exact Hb. destruct C as (C1 & C2 & _). apply value_B; assumption.
Qed.
Lemma mul_value x y r s : is_value x r -> is_value y s -> Rabs (rnd (r * s)) < top -> is_value (x *! y) (rnd (r * s)).
Proof.
  intros Vx Vy Hb. destruct (B_value x _ Vx) as (bx & -> & Fx & <-). destruct (B_value y _ Vy) as (b' & -> & Fy & <-).
  change (is_value (SFmul prec emax (B2SF bx) (B2SF b')) (rnd (B2R bx * B2R b'))). rewrite mul_equiv.
  pose proof (Bmult_correct prec emax Hprec Hmax mode_NE bx b') as C.
  rewrite Rlt_bool_true in C by exact Hb. destruct C as (C1 & C2 & _). apply value_B; [|exact C1]. rewrite C2, Fx, Fy. reflexivity.
Qed.
Lemma div_value x y r s : is_value x r -> is_value y s -> s <> 0 -> Rabs (rnd (r / s)) < top -> is_value (x /! y) (rnd (r / s)).
Proof.
  intros Vx Vy Hs Hb. destruct (B_value x _ Vx) as (bx & -> & Fx & <-). destruct (B_value y _ Vy) as (b' & -> & Fy & <-).
  change (is_value (SFdiv prec emax (B2SF bx) (B2SF b')) (rnd (B2R bx / B2R b'))). rewrite div_equiv.
  pose proof (Bdiv_correct prec emax Hprec Hmax mode_NE bx b' Hs) as C.
  rewrite Rlt_bool_true in C by exact Hb. destruct C as (C1 & C2 & _). apply value_B; [|exact C1]. rewrite C2, Fx. reflexivity.
Qed.
Lemma sqrt_value x r : is_value x r -> 0 <= r -> is_value (nsqrt x) (rnd (sqrt r)).
Proof.
  intros Vx Hr. destruct (B_value x _ Vx) as (bx & -> & Fx & <-).
  change (is_value (SFsqrt prec emax (B2SF bx)) (rnd (sqrt (B2R bx)))). rewrite sqrt_equiv.
  pose proof (Bsqrt_correct prec emax Hprec Hmax mode_NE bx) as (C1 & C2 & _). apply value_B; [|exact C1].
  rewrite C2. destruct bx as [sx|sx| |sx mx ex Bx]; try discriminate; try reflexivity.
  destruct sx; [|reflexivity]. exfalso. cbn [B2R] in Hr. pose proof (F2R_lt_0 radix2 (Float radix2 (Z.neg mx) ex) ltac:(reflexivity)) as Q.
  cbn [cond_Zopp Z.opp] in Hr. lra.
Qed.

(** ** Multiples of 2^-k with 53 bits are binary64 numbers *)
Definition fixed (m k : Z) : R := IZR m * bpow radix2 (- k).
Lemma fixed_fmt m k : (Z.abs m < 2 ^ 53)%Z -> (0 <= k <= 1000)%Z -> generic_format radix2 fexp64 (fixed m k).
Proof.
  intros Hm Hk. unfold fixed. change (generic_format radix2 fexp64 (F2R (Float radix2 m (- k)))).
  apply generic_format_F2R. intros Hz. unfold cexp. rewrite mag_F2R by exact Hz.
  assert (M : (mag radix2 (IZR m) <= 53)%Z).
  { apply mag_le_bpow; [apply IZR_neq, Hz|]. rewrite <- abs_IZR. change (bpow radix2 53) with (IZR (2 ^ 53)). apply IZR_lt, Hm. }
  unfold SpecFloat.fexp, SpecFloat.emin. lia.
Qed.
Lemma fixed_small m k : (Z.abs m < 2 ^ 53)%Z -> (0 <= k <= 1000)%Z -> Rabs (fixed m k) < top.
Proof.
  intros Hm Hk. unfold fixed. rewrite Rabs_mult, (Rabs_pos_eq (bpow _ _)) by apply bpow_ge_0.
  apply Rle_lt_trans with (Rabs (IZR m) * 1).
  - apply Rmult_le_compat_l; [apply Rabs_pos|]. change 1 with (bpow radix2 0). apply bpow_le. lia.
  - rewrite Rmult_1_r, <- abs_IZR. apply Rlt_trans with (IZR (2 ^ 53)); [apply IZR_lt, Hm|].
    change (IZR (2 ^ 53)) with (bpow radix2 53). apply bpow_lt. lia.
Qed.
Lemma rnd_fixed m k : (Z.abs m < 2 ^ 53)%Z -> (0 <= k <= 1000)%Z -> rnd (fixed m k) = fixed m k.
Proof. intros. apply round_generic; [typeclasses eauto|]. apply fixed_fmt; assumption. Qed.

Lemma fixed_add m n k : fixed m k + fixed n k = fixed (m + n) k.
Proof. unfold fixed. rewrite plus_IZR. lra. Qed.
Lemma fixed_sub m n k : fixed m k - fixed n k = fixed (m - n) k.
Proof. unfold fixed. rewrite minus_IZR. lra. Qed.
Lemma fixed_mul m n k l : fixed m k * fixed n l = fixed (m * n) (k + l).
Proof. unfold fixed. rewrite mult_IZR. replace (- (k + l))%Z with (- k + - l)%Z by lia. rewrite bpow_plus. lra. Qed.
Lemma fixed_0 m : fixed m 0 = IZR m.
Proof. unfold fixed. cbn. lra. Qed.
Lemma fixed_up m k : fixed (2 * m) (k + 1) = fixed m k.
Proof.
  unfold fixed. rewrite mult_IZR. pose proof (bpow_plus radix2 1 (- (k + 1))) as P.
  replace (1 + - (k + 1))%Z with (- k)%Z in P by lia. rewrite P. change (bpow radix2 1) with 2. lra.
Qed.

(** A binary64 number with a value of this kind, at most [b] units of 2^-k *)
Definition fx (b k : Z) (x : b64) (r : R) : Prop :=
  exists m, is_value x r /\ r = fixed m k /\ (Z.abs m <= b)%Z /\ (b < 2 ^ 53)%Z /\ (0 <= k <= 1000)%Z.
Lemma fx_value b k x r : fx b k x r -> is_value x r.
Proof. intros (m & V & _). exact V. Qed.
Lemma fx_weaken b b' k x r : fx b k x r -> (b <= b' < 2 ^ 53)%Z -> fx b' k x r.
Proof. intros (m & V & E & B & K) Hb. exists m. split; [exact V|]. split; [exact E|]. lia. Qed.
Lemma fx_add b c k x y r s : fx b k x r -> fx c k y s -> (b + c < 2 ^ 53)%Z -> fx (b + c) k (x +! y) (r + s).
Proof.
  intros (m & Vx & Er & Bm & _ & Hk) (n & Vy & Es & Bn & _) Hb. exists (m + n)%Z.
  assert (Hs : (Z.abs (m + n) < 2 ^ 53)%Z) by lia.
  assert (E : r + s = fixed (m + n) k) by (rewrite Er, Es; apply fixed_add).
  split; [|repeat split; try lia; exact E]. rewrite E, <- (rnd_fixed (m + n) k Hs Hk), <- E.
  apply add_value; [exact Vx|exact Vy|]. rewrite E, rnd_fixed by assumption. apply fixed_small; assumption.
Qed.
Lemma fx_sub b c k x y r s : fx b k x r -> fx c k y s -> (b + c < 2 ^ 53)%Z -> fx (b + c) k (x -! y) (r - s).
Proof.
  intros (m & Vx & Er & Bm & _ & Hk) (n & Vy & Es & Bn & _) Hb. exists (m - n)%Z.
  assert (Hs : (Z.abs (m - n) < 2 ^ 53)%Z) by lia.
  assert (E : r - s = fixed (m - n) k) by (rewrite Er, Es; apply fixed_sub).
  split; [|repeat split; try lia; exact E]. rewrite E, <- (rnd_fixed (m - n) k Hs Hk), <- E.
  apply sub_value; [exact Vx|exact Vy|]. rewrite E, rnd_fixed by assumption. apply fixed_small; assumption.
Qed.
Lemma fx_mul b c k l x y r s : fx b k x r -> fx c l y s -> (b * c < 2 ^ 53)%Z -> (k + l <= 1000)%Z -> fx (b * c) (k + l) (x *! y) (r * s).
Proof.
  intros (m & Vx & Er & Bm & _ & Hk) (n & Vy & Es & Bn & _ & Hl) Hb Hkl. exists (m * n)%Z.
  assert (Hle : (Z.abs (m * n) <= b * c)%Z) by (rewrite Z.abs_mul; apply Z.mul_le_mono_nonneg; lia).
  assert (Hs : (Z.abs (m * n) < 2 ^ 53)%Z) by lia.
  assert (Hk' : (0 <= k + l <= 1000)%Z) by lia.
  assert (E : r * s = fixed (m * n) (k + l)) by (rewrite Er, Es; apply fixed_mul).
  split; [|repeat split; try lia; exact E]. rewrite E, <- (rnd_fixed (m * n) (k + l) Hs Hk'), <- E.
  apply mul_value; [exact Vx|exact Vy|]. rewrite E, rnd_fixed by assumption. apply fixed_small; assumption.
Qed.
Lemma half_fx : fx 1 1 nhalf (1 / 2).
Proof.
  exists 1%Z. split; [|split; [unfold fixed; cbn; lra|lia]].
  split; [reflexivity|]. split; [exact I|].
  change (@nhalf b64 _) with (S754_finite false 4503599627370496 (-53)). cbn [fval]. rewrite <- (bpow_powerRZ radix2). cbn -[IZR]. lra.
Qed.
Lemma quart_fx : fx 1 2 nquart (1 / 4).
Proof.
  exists 1%Z. split; [|split; [unfold fixed; cbn; lra|lia]].
  split; [reflexivity|]. split; [exact I|].
  change (@nquart b64 _) with (S754_finite false 4503599627370496 (-54)). cbn [fval]. rewrite <- (bpow_powerRZ radix2). cbn -[IZR]. lra.
Qed.
Lemma zero_fx k : (0 <= k <= 1000)%Z -> fx 0 k n0 0.
Proof.
  intros Hk. exists 0%Z. split; [|split; [unfold fixed; lra|lia]]. split; [reflexivity|]. split; [exact I|reflexivity].
Qed.
Lemma fx_up b k x r : fx b k x r -> (2 * b < 2 ^ 53)%Z -> (k + 1 <= 1000)%Z -> fx (2 * b) (k + 1) x r.
Proof.
  intros (m & V & E & Bm & K) Hb Hk. exists (2 * m)%Z. split; [exact V|]. split; [rewrite fixed_up; exact E|]. lia.
Qed.

(** ** Images *)
Definition fimg (b k : Z) (a : arr b64) (r : arr R) : Prop :=
  rows a = rows r /\ cols a = cols r /\
  forall y x, (0 <= y < rows r)%Z -> (0 <= x < cols r)%Z -> fx b k (cell a y x) (cell r y x).
Definition fquad (b k : Z) (a : quad b64) (r : quad R) : Prop := forall i, (0 <= i < 4)%Z -> fimg b k (qnth a i) (qnth r i).
Lemma fimg_exact b k a r : fimg b k a r -> exact_image a r.
Proof. intros (Hr & Hc & Hv). split; [exact Hr|]. split; [exact Hc|]. intros y x Hy Hx. exact (fx_value _ _ _ _ (Hv y x Hy Hx)). Qed.
Lemma fquad_exact b k a r : fquad b k a r -> exact_quad a r.
Proof. intros Hq i Hi. exact (fimg_exact _ _ _ _ (Hq i Hi)). Qed.
Lemma counts_fimg n d : (0 <= n < 2 ^ 53)%Z -> counts n d -> fimg n 0 d (values d).
Proof.
  intros Hn Hc. split; [reflexivity|]. split; [reflexivity|]. intros y x Hy Hx. destruct (Hc y x Hy Hx) as (m & Hm & V).
  exists m. change (cell (values d) y x) with (fval (cell d y x)). rewrite (value_val _ _ V), fixed_0. split; [exact V|]. split; [reflexivity|]. lia.
Qed.

Lemma lsum_fx b k (l : list b64) (l' : list R) : (0 <= b)%Z -> (0 <= k <= 1000)%Z -> Forall2 (fx b k) l l' ->
  (Z.of_nat (length l) * b < 2 ^ 53)%Z -> fx (Z.of_nat (length l) * b) k (lsum l) (lsum l').
Proof.
  intros Hb Hk HF. unfold lsum.
  enough (G : forall acc racc c, (0 <= c)%Z -> fx c k acc racc -> (c + Z.of_nat (length l) * b < 2 ^ 53)%Z ->
            fx (c + Z.of_nat (length l) * b) k (fold_left nadd l acc) (fold_left nadd l' racc)).
  { intros Hs. replace (Z.of_nat (length l) * b)%Z with (0 + Z.of_nat (length l) * b)%Z by lia. apply G; [lia|apply zero_fx, Hk|lia]. }
  induction HF as [|x r l l' Hx HF IH]; intros acc racc c Hc Ha Hs; cbn [fold_left].
  - cbn [length Z.of_nat] in *. replace (c + 0 * b)%Z with c by lia. exact Ha.
  - replace (Z.of_nat (length (x :: l))) with (Z.of_nat (length l) + 1)%Z in * by (cbn [length]; lia). replace (c + (Z.of_nat (length l) + 1) * b)%Z with ((c + b) + Z.of_nat (length l) * b)%Z in * by lia.
    apply IH; [lia| |lia]. apply fx_add; [exact Ha|exact Hx|]. assert (0 <= Z.of_nat (length l) * b)%Z by (apply Z.mul_nonneg_nonneg; lia). lia.
Qed.

Lemma Forall2_maps {A B C} (R : B -> C -> Prop) (f : A -> B) (g : A -> C) l :
  (forall a, In a l -> R (f a) (g a)) -> Forall2 R (map f l) (map g l).
Proof. induction l as [|a l IH]; intros H; cbn; constructor; [apply H; left; reflexivity|apply IH; intros; apply H; right; assumption]. Qed.
Lemma square_length b : (0 <= b)%Z -> Z.of_nat (length (list_prod (zrange b) (zrange b))) = (b * b)%Z.
Proof. intros Hb. rewrite prod_length, length_zrange. lia. Qed.

Lemma block_in n h Y i : (1 <= n)%Z -> (0 <= i < n)%Z -> (0 <= Y < 2 * (h / (2 * n)))%Z ->
  (0 <= 2 * n * (Y / 2) + Y mod 2 + 2 * i < h)%Z.
Proof.
  intros Hn Hi HY. pose proof (Z.div_mod h (2 * n) ltac:(lia)) as D. pose proof (Z.mod_pos_bound h (2 * n) ltac:(lia)).
  pose proof (Z.div_mod Y 2 ltac:(lia)). pose proof (Z.mod_pos_bound Y 2 ltac:(lia)).
  assert (Hq : (0 <= Y / 2 <= h / (2 * n) - 1)%Z) by lia.
  assert (0 <= 2 * n * (Y / 2))%Z by (apply Z.mul_nonneg_nonneg; lia).
  assert (2 * n * (Y / 2) <= 2 * n * (h / (2 * n) - 1))%Z by (apply Z.mul_le_mono_nonneg_l; lia).
  rewrite Z.mul_sub_distr_l in *. lia.
Qed.
Lemma rebin_fimg b k d r n : fimg b k d r -> (0 <= b)%Z -> (0 <= k <= 1000)%Z -> mosaic r -> (1 <= n)%Z -> (n * n * b < 2 ^ 53)%Z ->
  exists d' r', evaluates (fun fuel => micropolarray_rebin fuel d n) d' /\ evaluates (fun fuel => micropolarray_rebin fuel r n) r' /\
    mosaic r' /\ fimg (n * n * b) k d' r'.
Proof.
  intros (Er & Ec & V) Hb Hk Hm Hn Hs.
  assert (Hm' : mosaic d) by (unfold mosaic in *; rewrite Er, Ec; exact Hm).
  destruct (c04_rebin d n Hm' Hn) as (d' & (R1 & C1 & V1) & E1).
  destruct (c04_rebin r n Hm Hn) as (r' & (R2 & C2 & V2) & E2).
  exists d', r'. split; [exact E1|]. split; [exact E2|].
  destruct Hm as (P1 & P2 & P3 & P4).
  assert (D1 : (0 <= rows r / (2 * n))%Z) by (apply Z.div_pos; lia).
  assert (D2 : (0 <= cols r / (2 * n))%Z) by (apply Z.div_pos; lia).
  split.
  { unfold mosaic. rewrite R2, C2. split; [lia|]. split; [lia|]. rewrite !(Z.mul_comm 2), !Z.mod_mul by lia. split; reflexivity. }
  split; [rewrite R1, R2, Er; reflexivity|]. split; [rewrite C1, C2, Ec; reflexivity|].
  intros Y X HY HX. rewrite V1 by (rewrite ?R1, ?C1, ?Er, ?Ec; rewrite ?R2, ?C2 in *; assumption). rewrite V2 by assumption.
  pose proof (square_length n ltac:(lia)) as L.
  assert (L' : Z.of_nat (length (family_block d n Y X)) = (n * n)%Z) by (unfold family_block; rewrite map_length; exact L).
  rewrite <- L'. apply lsum_fx; [exact Hb|exact Hk| |rewrite L'; exact Hs].
  unfold family_block. apply Forall2_maps. intros [i j] Hij. apply in_prod_iff in Hij as (Hi & Hj).
  apply in_zrange in Hi, Hj. cbn [fst snd]. rewrite R2 in HY. rewrite C2 in HX.
  apply V; apply block_in; assumption.
Qed.

(** ** Demosaicing *)
Lemma fx_lift b k x r : fx b k x r -> (4 * b < 2 ^ 53)%Z -> (0 <= b)%Z -> (k + 2 <= 1000)%Z -> fx (4 * b) (k + 2) x r.
Proof.
  intros F Hb H0 Hk. replace (4 * b)%Z with (2 * (2 * b))%Z by lia. replace (k + 2)%Z with (k + 1 + 1)%Z by lia.
  apply fx_up; [|lia|lia]. apply fx_up; [exact F|lia|lia].
Qed.
Lemma fx_half2 b k x y r s : fx b k x r -> fx b k y s -> (4 * b < 2 ^ 53)%Z -> (0 <= b)%Z -> (k + 2 <= 1000)%Z ->
  fx (4 * b) (k + 2) (nhalf *! (x +! y)) (1 / 2 * (r + s)).
Proof.
  intros Fx Fy Hb H0 Hk. replace (4 * b)%Z with (2 * (1 * (b + b)))%Z by lia. replace (k + 2)%Z with ((1 + k) + 1)%Z by lia.
  apply fx_up; [|lia|lia]. apply fx_mul; [apply half_fx|apply fx_add; [exact Fx|exact Fy|lia]|lia|lia].
Qed.
Lemma fx_sum4 b k x y z t r s u v : fx b k x r -> fx b k y s -> fx b k z u -> fx b k t v -> (4 * b < 2 ^ 53)%Z -> (0 <= b)%Z ->
  fx (4 * b) k (((x +! y) +! z) +! t) (r + s + u + v).
Proof.
  intros Fx Fy Fz Ft Hb H0. replace (4 * b)%Z with (b + b + b + b)%Z by lia.
  apply fx_add; [apply fx_add; [apply fx_add; [exact Fx|exact Fy|lia]|exact Fz|lia]|exact Ft|lia].
Qed.
Lemma fx_quart4 b k x y z t r s u v : fx b k x r -> fx b k y s -> fx b k z u -> fx b k t v -> (4 * b < 2 ^ 53)%Z -> (0 <= b)%Z -> (k + 2 <= 1000)%Z ->
  fx (4 * b) (k + 2) ((((x +! y) +! z) +! t) *! nquart) ((r + s + u + v) * (1 / 4)).
Proof.
  intros Fx Fy Fz Ft Hb H0 Hk. replace (4 * b)%Z with (4 * b * 1)%Z by lia.
  apply fx_mul; [apply fx_sum4; assumption|apply quart_fx|lia|lia].
Qed.

Lemma next_in n Y : (0 <= Y < n)%Z -> (0 <= next n Y < n)%Z.
Proof. unfold next. lia. Qed.
Lemma half_in y n : (n mod 2 = 0)%Z -> (0 <= y < n)%Z -> (0 <= y / 2 < n / 2)%Z.
Proof.
  intros Hn Hy. pose proof (Z.div_mod n 2 ltac:(lia)). split; [apply Z.div_pos; lia|apply Z.div_lt_upper_bound; lia].
Qed.
Lemma sample_fx b k d r i Y X : fimg b k d r -> mosaic r -> (0 <= i < 4)%Z -> (0 <= Y < rows r / 2)%Z -> (0 <= X < cols r / 2)%Z ->
  fx b k (sample d i Y X) (sample r i Y X).
Proof.
  intros (Er & Ec & V) (_ & _ & M1 & M2) Hi HY HX. unfold sample.
  pose proof (Z.div_mod (rows r) 2 ltac:(lia)). pose proof (Z.div_mod (cols r) 2 ltac:(lia)).
  assert (0 <= i / 2 < 2)%Z by (split; [apply Z.div_pos; lia|apply Z.div_lt_upper_bound; lia]).
  pose proof (Z.mod_pos_bound i 2 ltac:(lia)). apply V; lia.
Qed.
Lemma interpolated_fx b k d r i y x : fimg b k d r -> mosaic r -> (0 <= i < 4)%Z -> (0 <= y < rows r)%Z -> (0 <= x < cols r)%Z ->
  (4 * b < 2 ^ 53)%Z -> (0 <= b)%Z -> (k + 2 <= 1000)%Z ->
  fx (4 * b) (k + 2) (interpolated d i y x) (interpolated r i y x).
Proof.
  intros F Hm Hi Hy Hx Hb H0 Hk. pose proof F as (Er & Ec & _). pose proof Hm as (_ & _ & M1 & M2).
  pose proof (half_in _ _ M1 Hy) as HY. pose proof (half_in _ _ M2 Hx) as HX.
  pose proof (next_in _ _ HY) as HY'. pose proof (next_in _ _ HX) as HX'.
  unfold interpolated. rewrite Er, Ec. cbv zeta.
  destruct (y mod 2 =? 0)%Z, (x mod 2 =? 0)%Z.
  - apply fx_lift; [|assumption..]. apply sample_fx; assumption.
  - apply fx_half2; try assumption; apply sample_fx; assumption.
  - apply fx_half2; try assumption; apply sample_fx; assumption.
  - apply fx_quart4; try assumption; apply sample_fx; assumption.
Qed.
Lemma demosaic_fquad b k d r o : fimg b k d r -> mosaic r -> (4 * b < 2 ^ 53)%Z -> (0 <= b)%Z -> (0 <= k)%Z -> (k + 2 <= 1000)%Z ->
  same_outcome (fquad (4 * b) (k + 2)) (demosaic d o) (demosaic r o).
Proof.
  intros F Hm Hb H0 Hk0 Hk. pose proof F as (Er & Ec & _).
  assert (Hm' : mosaic d) by (unfold mosaic in *; rewrite Er, Ec; exact Hm).
  destruct (String.eqb_spec o "mean") as [->|N1]; [|destruct (String.eqb_spec o "adjacent") as [->|N2];
    [|destruct (String.eqb_spec o "spline") as [->|N3]]].
  - destruct (demosaic_mean_spec d Hm') as (q & Eq & Q). destruct (demosaic_mean_spec r Hm) as (q' & Eq' & Q').
    rewrite Eq, Eq'. cbn [same_outcome]. intros i Hi. destruct (Q i Hi) as (A1 & A2 & A3). destruct (Q' i Hi) as (B1 & B2 & B3).
    split; [rewrite A1, B1; exact Er|]. split; [rewrite A2, B2; exact Ec|]. intros y x Hy Hx. rewrite B1 in Hy. rewrite B2 in Hx.
    rewrite A3, B3 by (rewrite ?Er, ?Ec; assumption). destruct Hm as (P1 & P2 & M1 & M2).
    apply fx_weaken with (b * 1)%Z; [|lia]. apply fx_mul; [|apply quart_fx|lia|lia].
    apply sample_fx; [exact F|split; [exact P1|split; [exact P2|split; assumption]]|exact Hi|apply half_in; assumption|apply half_in; assumption].
  - destruct (demosaic_adjacent_spec d Hm') as (q & Eq & Q). destruct (demosaic_adjacent_spec r Hm) as (q' & Eq' & Q').
    rewrite Eq, Eq'. cbn [same_outcome]. intros i Hi. destruct (Q i Hi) as (A1 & A2 & A3). destruct (Q' i Hi) as (B1 & B2 & B3).
    split; [rewrite A1, B1; exact Er|]. split; [rewrite A2, B2; exact Ec|]. intros y x Hy Hx. rewrite B1 in Hy. rewrite B2 in Hx.
    rewrite A3, B3 by (rewrite ?Er, ?Ec; assumption). apply interpolated_fx; assumption.
  - reflexivity.
  - rewrite !demosaic_bad_option by assumption. reflexivity.
Qed.

(** ** The Stokes vector *)
Lemma qnth_fimg b k a r i : fquad b k a r -> (0 <= i < 4)%Z -> fimg b k (qnth a i) (qnth r i).
Proof. intros Hq. apply Hq. Qed.
Lemma norm_idx_range n i j : norm_idx n i = Some j -> (0 <= j < n)%Z.
Proof.
  unfold norm_idx. intros E. destruct (Z.leb_spec 0 i), (Z.ltb_spec i n), (Z.leb_spec (- n) i), (Z.ltb_spec i 0); cbn in E;
    try discriminate E; injection E as E; lia.
Qed.
Lemma diff_fimg b k a a' r r' : fimg b k a r -> fimg b k a' r' -> rows r = rows r' -> cols r = cols r' -> (2 * b < 2 ^ 53)%Z ->
  fimg (2 * b) k (amap2 nsub a a') (amap2 nsub r r').
Proof.
  intros (E1 & E2 & V) (E3 & E4 & V') Hr Hc Hb. split; [exact E1|]. split; [exact E2|]. intros y x Hy Hx.
  cbn [amap2 cell rows cols] in *. replace (2 * b)%Z with (b + b)%Z by lia.
  apply fx_sub; [apply V; assumption|apply V'; [rewrite <- Hr|rewrite <- Hc]; assumption|lia].
Qed.
Definition fstokes (b k : Z) (s : stokes b64) (t : stokes R) : Prop :=
  fimg (4 * b) (k + 1) (sI s) (sI t) /\ fimg (2 * b) k (sQ s) (sQ t) /\ fimg (2 * b) k (sU s) (sU t).
Lemma fstokes_exact b k s t : fstokes b k s t -> exact_stokes s t.
Proof. intros (F1 & F2 & F3). split; [|split]; eapply fimg_exact; eassumption. Qed.
Lemma theo_fstokes b k dic q q' : fquad b k q q' -> (forall i, (0 <= i < 4)%Z -> rows (qnth q' i) = rows (q0 q') /\ cols (qnth q' i) = cols (q0 q')) ->
  (4 * b < 2 ^ 53)%Z -> (0 <= b)%Z -> (0 <= k)%Z -> (k + 1 <= 1000)%Z ->
  same_outcome (fstokes b k) (theo_stokes dic q) (theo_stokes dic q').
Proof.
  intros F Hshape Hb H0 Hk0 Hk.
  assert (HI : fimg (4 * b) (k + 1) (half_sum q) (half_sum q')).
  { pose proof (F 0%Z ltac:(lia)) as (R0 & C0 & V0). pose proof (F 1%Z ltac:(lia)) as (_ & _ & V1).
    pose proof (F 2%Z ltac:(lia)) as (_ & _ & V2). pose proof (F 3%Z ltac:(lia)) as (_ & _ & V3).
    pose proof (Hshape 1%Z ltac:(lia)) as (S1 & T1). pose proof (Hshape 2%Z ltac:(lia)) as (S2 & T2). pose proof (Hshape 3%Z ltac:(lia)) as (S3 & T3).
    split; [exact R0|]. split; [exact C0|]. intros y x Hy Hx. cbn [half_sum cell rows cols] in *.
    replace (4 * b)%Z with (1 * (4 * b))%Z by lia. replace (k + 1)%Z with (1 + k)%Z by lia.
    apply fx_mul; [apply half_fx| |lia|lia].
    apply fx_sum4; [apply V0; assumption|apply V1; [rewrite S1|rewrite T1]; assumption|apply V2; [rewrite S2|rewrite T2]; assumption|
      apply V3; [rewrite S3|rewrite T3]; assumption|assumption|assumption]. }
  unfold theo_stokes.
  assert (G : forall i, same_outcome (fun a r => fimg b k a r /\ rows r = rows (q0 q') /\ cols r = cols (q0 q')) (quad_get q i) (quad_get q' i)).
  { intros i. unfold quad_get. destruct (norm_idx 4 i) as [j|] eqn:E; [|reflexivity]. apply norm_idx_range in E. cbn [same_outcome].
    split; [apply F, E|apply Hshape, E]. }
  assert (St : forall (e : result Z) (f : Z -> result (stokes b64)) (g : Z -> result (stokes R)),
            (forall a, e = Ok a -> same_outcome (fstokes b k) (f a) (g a)) -> same_outcome (fstokes b k) (bind e f) (bind e g)).
  { intros e f g Hfg. destruct e as [a|e|]; cbn [bind same_outcome]; [apply Hfg; reflexivity|reflexivity|exact I]. }
  assert (Sq : forall i (f : arr b64 -> result (stokes b64)) (g : arr R -> result (stokes R)),
            (forall a r, fimg b k a r -> rows r = rows (q0 q') -> cols r = cols (q0 q') -> same_outcome (fstokes b k) (f a) (g r)) ->
            same_outcome (fstokes b k) (bind (quad_get q i) f) (bind (quad_get q' i) g)).
  { intros i f g Hfg. specialize (G i). destruct (quad_get q i) as [a|e|], (quad_get q' i) as [r|e'|]; cbn [same_outcome] in G; try contradiction;
      cbn [bind same_outcome]; [apply Hfg; tauto|exact G|exact I]. }
  apply St. intros i0 _. apply Sq. intros s0 r0 F0 R0 C0.
  apply St. intros i90 _. apply Sq. intros s90 r90 F90 R90 C90.
  apply St. intros i45 _. apply Sq. intros s45 r45 F45 R45 C45.
  apply St. intros im _. apply Sq. intros sm rm Fm Rm Cm. cbn [same_outcome].
  split; [exact HI|]. split; (apply diff_fimg; [assumption|assumption|congruence|congruence|lia]).
Qed.
Lemma split_fquad b k d r : fimg b k d r -> mosaic r ->
  exists q q', split_polarizations d = Ok q /\ split_polarizations r = Ok q' /\ fquad b k q q' /\
    forall i, (0 <= i < 4)%Z -> rows (qnth q' i) = rows (q0 q') /\ cols (qnth q' i) = cols (q0 q').
Proof.
  intros F Hm. pose proof F as (Er & Ec & _). pose proof Hm as (P1 & P2 & M1 & M2).
  assert (Hm' : mosaic d) by (unfold mosaic in *; rewrite Er, Ec; exact Hm).
  destruct (c01_split d) as (S1 & _); [rewrite Er; exact P1|rewrite Ec; exact P2|]. destruct (S1 Hm') as (q & Eq & Q).
  destruct (c01_split r P1 P2) as (S2 & _). destruct (S2 Hm) as (q' & Eq' & Q').
  exists q, q'. split; [exact Eq|]. split; [exact Eq'|]. split.
  - intros i Hi. destruct (Q i Hi) as (A1 & A2 & A3). destruct (Q' i Hi) as (B1 & B2 & B3).
    split; [rewrite A1, B1, Er; reflexivity|]. split; [rewrite A2, B2, Ec; reflexivity|]. intros y x Hy Hx. rewrite B1 in Hy. rewrite B2 in Hx.
    rewrite A3, B3 by (rewrite ?Er, ?Ec; assumption). apply (sample_fx b k d r i y x F Hm Hi Hy Hx).
  - intros i Hi. destruct (Q' i Hi) as (B1 & B2 & _). destruct (Q' 0%Z ltac:(lia)) as (C1 & C2 & _).
    change (q0 q') with (qnth q' 0). rewrite B1, B2, C1, C2. split; reflexivity.
Qed.
Lemma data_fstokes b k dic d r : fimg b k d r -> mosaic r -> (4 * b < 2 ^ 53)%Z -> (0 <= b)%Z -> (0 <= k)%Z -> (k + 1 <= 1000)%Z ->
  same_outcome (fstokes b k) (data_stokes dic d) (data_stokes dic r).
Proof.
  intros F Hm Hb H0 Hk0 Hk. destruct (split_fquad b k d r F Hm) as (q & q' & Eq & Eq' & Q & Sh). unfold data_stokes. rewrite Eq, Eq'.
  cbn [bind]. apply theo_fstokes; assumption.
Qed.

(** ** pB and DoLP *)
Lemma is_value_nearest x r : is_value x (rnd r) -> nearest x r.
Proof.
  intros (V & F & E). split; [exact V|]. split; [exact F|]. intros z Vz Fz. rewrite E.
  destruct (as_B z Vz) as [bz ->]. rewrite fval_B2R.
  destruct (round_N_pt radix2 fexp64 (fun t => negb (Z.even t)) r) as (_ & N). apply N, fmt.
Qed.
Lemma fx_squares c k q u r v : fx c k q r -> fx c k u v -> (0 <= c)%Z -> (2 * (c * c) < 2 ^ 53)%Z -> (k + k <= 1000)%Z ->
  fx (2 * (c * c)) (k + k) ((q *! q) +! (u *! u)) (r * r + v * v).
Proof.
  intros Fq Fu H0 Hc Hk. replace (2 * (c * c))%Z with (c * c + c * c)%Z by lia. apply fx_add; [|apply fx_mul; [exact Fu|exact Fu|lia|lia]|lia].
  apply fx_mul; [exact Fq|exact Fq|lia|lia].
Qed.
Lemma pb_value c k q u r v : fx c k q r -> fx c k u v -> (0 <= c)%Z -> (2 * (c * c) < 2 ^ 53)%Z -> (k + k <= 1000)%Z ->
  is_value (nsqrt ((q *! q) +! (u *! u))) (rnd (sqrt (r * r + v * v))).
Proof.
  intros Fq Fu H0 Hc Hk. apply sqrt_value; [exact (fx_value _ _ _ _ (fx_squares c k q u r v Fq Fu H0 Hc Hk))|].
  pose proof (Rle_0_sqr r). pose proof (Rle_0_sqr v). unfold Rsqr in *. lra.
Qed.
Lemma neqb_zero x r : is_value x r -> neqb x n0 = true <-> r = 0.
Proof.
  intros V. destruct (B_value x r V) as (bx & -> & Fx & <-). change (neqb (B2SF bx) n0) with (SFeqb (B2SF bx) (S754_zero false)).
  destruct bx as [s|s| |s m e Bx]; try discriminate Fx; cbn [B2SF B2R].
  - split; [reflexivity|]. reflexivity.
  - split.
    + destruct s; cbn; discriminate.
    + intros E. exfalso. apply eq_0_F2R in E. destruct s; discriminate E.
Qed.

Notation eps53 := (bpow radix2 (-53)).
Lemma rnd_rel x : bpow radix2 (-1022) <= Rabs x -> exists e, Rabs e <= eps53 /\ rnd x = x * (1 + e).
Proof.
  intros Hx. destruct (relative_error_N_FLT_ex radix2 (-1074) 53 ltac:(lia) (fun t => negb (Z.even t)) x Hx) as (e & He & E).
  exists e. split; [|exact E]. apply Rle_trans with (1 := He). change (/ 2) with (bpow radix2 (-1)). rewrite <- bpow_plus. apply Rle_refl.
Qed.
Lemma eps_bound e f : Rabs e <= eps53 -> Rabs f <= eps53 -> Rabs ((1 + e) * (1 + f) - 1) <= bpow radix2 (-51).
Proof.
  intros He Hf. replace ((1 + e) * (1 + f) - 1) with (e + f + e * f) by ring.
  assert (Q : Rabs (e * f) <= eps53).
  { rewrite Rabs_mult. replace eps53 with (eps53 * 1) by lra. apply Rmult_le_compat; [apply Rabs_pos|apply Rabs_pos|exact He|].
    apply Rle_trans with (1 := Hf). change 1 with (bpow radix2 0). apply bpow_le. lia. }
  pose proof (Rabs_triang (e + f) (e * f)). pose proof (Rabs_triang e f).
  replace (bpow radix2 (-51)) with (4 * eps53) by (change 4 with (bpow radix2 2); rewrite <- bpow_plus; reflexivity).
  pose proof (bpow_gt_0 radix2 (-53)). lra.
Qed.
Lemma fixed_ge m k : (1 <= m)%Z -> bpow radix2 (- k) <= fixed m k.
Proof.
  intros Hm. unfold fixed. pose proof (bpow_gt_0 radix2 (- k)). pose proof (IZR_le 1 m Hm). rewrite <- (Rmult_1_l (bpow radix2 (- k))) at 1.
  apply Rmult_le_compat_r; lra.
Qed.
Lemma sqrt_ge_bpow a k : bpow radix2 (- (k + k)) <= a -> bpow radix2 (- k) <= sqrt a.
Proof.
  intros Ha. replace (- (k + k))%Z with (- k + - k)%Z in Ha by lia. rewrite bpow_plus in Ha.
  rewrite <- (sqrt_square (bpow radix2 (- k))) by apply bpow_ge_0. apply sqrt_le_1_alt, Ha.
Qed.
Lemma dolp_value c d k l q u i r v w : fx c k q r -> fx c k u v -> fx d l i w ->
  (0 <= c)%Z -> (2 * (c * c) < 2 ^ 53)%Z -> (k <= 100)%Z -> (l <= 100)%Z -> w <> 0 ->
  within (bpow radix2 (-51)) (nsqrt ((q *! q) +! (u *! u)) /! i) (sqrt (r * r + v * v) / w).
Proof.
  intros Fq Fu Fi H0 Hc Hk Hl Hw. set (s := sqrt (r * r + v * v)).
  pose proof (pb_value c k q u r v Fq Fu H0 Hc ltac:(lia)) as Vp. fold s in Vp.
  pose proof (fx_squares c k q u r v Fq Fu H0 Hc ltac:(lia)) as (m & _ & Em & Bm & _ & Kk).
  destruct Fi as (n & Vi & En & Bn & Bd & Kl).
  assert (Hs0 : 0 <= s) by apply sqrt_pos.
  assert (Hn : n <> 0%Z) by (intros ->; apply Hw; rewrite En; unfold fixed; lra).
  assert (Wu : Rabs w <= bpow radix2 53).
  { rewrite En. unfold fixed. rewrite Rabs_mult, (Rabs_pos_eq (bpow radix2 (- l))) by apply bpow_ge_0.
    apply Rle_trans with (Rabs (IZR n) * 1); [apply Rmult_le_compat_l; [apply Rabs_pos|]; change 1 with (bpow radix2 0); apply bpow_le; lia|].
    rewrite Rmult_1_r, <- abs_IZR. change (bpow radix2 53) with (IZR (2 ^ 53)). apply IZR_le. lia. }
  assert (Wl : bpow radix2 (- l) <= Rabs w).
  { rewrite En. unfold fixed. rewrite Rabs_mult, (Rabs_pos_eq (bpow radix2 (- l))) by apply bpow_ge_0. rewrite <- abs_IZR.
    apply (fixed_ge (Z.abs n) l). lia. }
  assert (Wp : 0 < Rabs w) by (pose proof (bpow_gt_0 radix2 (- l)); lra).
  destruct (Req_dec (r * r + v * v) 0) as [Ez|Ez].
  - assert (Es : s = 0) by (unfold s; rewrite Ez; apply sqrt_0). rewrite Es in *. rewrite round_0 in Vp by typeclasses eauto.
    assert (D0 : rnd (0 / w) = 0) by (unfold Rdiv; rewrite Rmult_0_l; apply round_0; typeclasses eauto).
    pose proof (div_value _ _ _ _ Vp Vi Hw) as D. rewrite D0, Rabs_R0 in D. specialize (D (bpow_gt_0 _ _)).
    destruct D as (D1 & D2 & D3). split; [exact D1|]. split; [exact D2|]. rewrite D3. unfold Rdiv. rewrite Rmult_0_l, Rminus_0_r, Rabs_R0. lra.
  - assert (Hm : (1 <= m)%Z).
    { assert (0 <= fixed m (k + k)) by (rewrite <- Em; pose proof (Rle_0_sqr r); pose proof (Rle_0_sqr v); unfold Rsqr in *; lra).
      destruct (Z_lt_le_dec m 1) as [L|L]; [|exact L]. exfalso. pose proof (bpow_gt_0 radix2 (- (k + k))) as Bp.
      destruct (Z.eq_dec m 0) as [->|N]; [apply Ez; rewrite Em; unfold fixed; lra|].
      assert (IZR m <= -1) by (apply IZR_le; lia). unfold fixed in *.
      assert (IZR m * bpow radix2 (- (k + k)) <= -1 * bpow radix2 (- (k + k))) by (apply Rmult_le_compat_r; lra). lra. }
    assert (Sl : bpow radix2 (- k) <= s) by (apply sqrt_ge_bpow; rewrite Em; apply fixed_ge, Hm).
    assert (Su : s <= bpow radix2 53).
    { unfold s. rewrite <- (sqrt_square (bpow radix2 53)) by apply bpow_ge_0. apply sqrt_le_1_alt. rewrite <- bpow_plus.
      apply Rle_trans with (bpow radix2 53); [|apply bpow_le; lia]. rewrite Em. unfold fixed.
      apply Rle_trans with (IZR m * 1); [apply Rmult_le_compat_l; [apply IZR_le; lia|]; change 1 with (bpow radix2 0); apply bpow_le; lia|].
      rewrite Rmult_1_r. change (bpow radix2 53) with (IZR (2 ^ 53)). apply IZR_le. lia. }
    pose proof (bpow_gt_0 radix2 (- k)) as Bk.
    destruct (rnd_rel s) as (e & He & Ee).
    { rewrite Rabs_pos_eq by exact Hs0. apply Rle_trans with (2 := Sl). apply bpow_le. lia. }
    assert (E1 : / 2 <= 1 + e <= 2).
    { pose proof (Rabs_le_inv e _ He). assert (eps53 <= / 2) by (change (/ 2) with (bpow radix2 (-1)); apply bpow_le; lia). lra. }
    assert (Pl : bpow radix2 (- k - 1) <= rnd s).
    { rewrite Ee. replace (- k - 1)%Z with (- k + -1)%Z by lia. rewrite bpow_plus. change (bpow radix2 (-1)) with (/ 2).
      apply Rmult_le_compat; lra. }
    assert (Pu : rnd s <= bpow radix2 54).
    { rewrite Ee. change 54%Z with (53 + 1)%Z. rewrite bpow_plus. change (bpow radix2 1) with 2. apply Rmult_le_compat; lra. }
    assert (Pp : 0 < rnd s) by (pose proof (bpow_gt_0 radix2 (- k - 1)); lra).
    assert (Ab : Rabs (rnd s / w) = rnd s * / Rabs w) by (unfold Rdiv; rewrite Rabs_mult, Rabs_inv, (Rabs_pos_eq (rnd s)); lra).
    destruct (rnd_rel (rnd s / w)) as (f & Hf & Ef).
    { rewrite Ab. apply Rle_trans with (bpow radix2 (- k - 1) * bpow radix2 (-53)).
      - rewrite <- bpow_plus. apply bpow_le. lia.
      - apply Rmult_le_compat; [apply bpow_ge_0|apply bpow_ge_0|exact Pl|]. change (bpow radix2 (-53)) with (bpow radix2 (Z.opp 53)). rewrite bpow_opp. apply Rinv_le; assumption. }
    assert (F1 : Rabs (1 + f) <= 2).
    { pose proof (Rabs_le_inv f _ Hf). assert (eps53 <= / 2) by (change (/ 2) with (bpow radix2 (-1)); apply bpow_le; lia). apply Rabs_le. lra. }
    assert (Big : Rabs (rnd (rnd s / w)) < top).
    { rewrite Ef, Rabs_mult, Ab. apply Rle_lt_trans with (bpow radix2 54 * bpow radix2 l * 2).
      - apply Rmult_le_compat; [|apply Rabs_pos| |exact F1].
        + apply Rmult_le_pos; [lra|]. left. apply Rinv_0_lt_compat, Wp.
        + apply Rmult_le_compat; [lra|left; apply Rinv_0_lt_compat, Wp|exact Pu|].
          rewrite <- (Rinv_inv (bpow radix2 l)). rewrite <- bpow_opp. apply Rinv_le; [apply bpow_gt_0|exact Wl].
      - change 2 with (bpow radix2 1). rewrite <- !bpow_plus. apply bpow_lt. lia. }
    destruct (div_value _ _ _ _ Vp Vi Hw Big) as (D1 & D2 & D3). split; [exact D1|]. split; [exact D2|]. rewrite D3, Ef, Ee.
    replace (s * (1 + e) / w * (1 + f) - s / w) with (((1 + e) * (1 + f) - 1) * (s / w)) by (field; exact Hw).
    rewrite Rabs_mult. apply Rmult_le_compat_r; [apply Rabs_pos|]. apply eps_bound; assumption.
Qed.

Lemma pow2_51 : bpow radix2 (-51) = / 2 ^ 51.
Proof. change (bpow radix2 (-51)) with (/ IZR (2 ^ 51)). f_equal. change (2 ^ 51)%Z with (2 ^ Z.of_nat 51)%Z. rewrite <- pow_IZR. reflexivity. Qed.

(** pB and DoLP of a Stokes vector *)
Lemma pol_floats b k s t y x : fstokes b k s t -> (0 <= b)%Z -> (8 * (b * b) < 2 ^ 53)%Z -> (0 <= k <= 90)%Z ->
  rows (sQ t) = rows (sI t) -> cols (sQ t) = cols (sI t) -> rows (sU t) = rows (sI t) -> cols (sU t) = cols (sI t) ->
  (0 <= y < rows (sI t))%Z -> (0 <= x < cols (sI t))%Z ->
  nearest (cell (pB s) y x) (cell (pB t) y x) /\ within (/ 2 ^ 51) (cell (DoLP s) y x) (cell (DoLP t) y x).
Proof.
  intros ((_ & _ & VI) & (_ & _ & VQ) & (_ & _ & VU)) H0 Hb Hk R1 C1 R2 C2 Hy Hx.
  specialize (VI y x Hy Hx). specialize (VQ y x ltac:(rewrite R1; exact Hy) ltac:(rewrite C1; exact Hx)).
  specialize (VU y x ltac:(rewrite R2; exact Hy) ltac:(rewrite C2; exact Hx)).
  unfold pB, DoLP. cbn [amap2 cell]. fold (pB s). fold (pB t). cbn [pB amap2 cell].
  set (q := cell (sQ s) y x) in *. set (u := cell (sU s) y x) in *. set (i := cell (sI s) y x) in *.
  set (q' := cell (sQ t) y x) in *. set (u' := cell (sU t) y x) in *. set (i' := cell (sI t) y x) in *.
  assert (Hc : (2 * (2 * b * (2 * b)) < 2 ^ 53)%Z) by lia.
  split; [apply is_value_nearest; apply (pb_value (2 * b) k); [exact VQ|exact VU|lia|exact Hc|lia]|].
  rewrite <- pow2_51. change (@neqb R _ i' n0) with (Reqb i' 0). pose proof (neqb_zero i i' (fx_value _ _ _ _ VI)) as Z0.
  unfold Reqb. destruct (Req_EM_T i' 0) as [E|E].
  - rewrite (proj2 Z0 E). cbn [negb]. destruct (zero_fx 0 ltac:(lia)) as (m & (A & B & C) & _). split; [exact A|]. split; [exact B|].
    rewrite C. change (@n0 R _) with 0. rewrite Rminus_0_r, Rabs_R0. lra.
  - destruct (neqb i n0); [exfalso; apply E, Z0; reflexivity|]. cbn [negb].
    apply (dolp_value (2 * b) (4 * b) k (k + 1)); try assumption; lia.
Qed.
Lemma theo_shape dic (q : quad R) t h w : (forall i, (0 <= i < 4)%Z -> rows (qnth q i) = h) -> (forall i, (0 <= i < 4)%Z -> cols (qnth q i) = w) ->
  theo_stokes dic q = Ok t ->
  rows (sI t) = h /\ cols (sI t) = w /\ rows (sQ t) = rows (sI t) /\ cols (sQ t) = cols (sI t) /\
  rows (sU t) = rows (sI t) /\ cols (sU t) = cols (sI t).
Proof.
  intros Hr Hc. unfold theo_stokes.
  assert (G : forall i a, quad_get q i = Ok a -> rows a = h /\ cols a = w).
  { intros i a. unfold quad_get. destruct (norm_idx 4 i) as [j|] eqn:E; [|discriminate]. apply norm_idx_range in E. intros Ea. injection Ea as <-. auto. }
  intros E. apply bind_ok in E as (i0 & _ & E). apply bind_ok in E as (s0 & G0 & E).
  apply bind_ok in E as (i90 & _ & E). apply bind_ok in E as (s90 & G90 & E).
  apply bind_ok in E as (i45 & _ & E). apply bind_ok in E as (s45 & G45 & E).
  apply bind_ok in E as (im & _ & E). apply bind_ok in E as (sm & Gm & E). injection E as <-.
  apply G in G0, G45. cbn [sI sQ sU half_sum amap2 rows cols]. change (q0 q) with (qnth q 0). rewrite Hr, Hc by lia. intuition congruence.
Qed.
Lemma data_stokes_shape dic (r : arr R) t : mosaic r -> data_stokes dic r = Ok t ->
  rows (sI t) = (rows r / 2)%Z /\ cols (sI t) = (cols r / 2)%Z /\ rows (sQ t) = rows (sI t) /\ cols (sQ t) = cols (sI t) /\
  rows (sU t) = rows (sI t) /\ cols (sU t) = cols (sI t).
Proof.
  intros Hm E. pose proof Hm as (P1 & P2 & M1 & M2). destruct (c01_split r P1 P2) as (S2 & _). destruct (S2 Hm) as (q & Eq & Q).
  unfold data_stokes in E. rewrite Eq in E. cbn [bind] in E. revert E. apply theo_shape; intros i Hi; apply Q, Hi.
Qed.

(** ** Statements *)
Section Statements.
  Variables (n : Z) (d : arr b64).
  Hypothesis (Hn : (0 <= n)%Z) (Hc : counts n d) (Hm : mosaic d).
  Let Hm' : mosaic (values d) := Hm.

  Lemma c101_stokes dic : (4 * n < 2 ^ 53)%Z -> same_outcome exact_stokes (data_stokes dic d) (data_stokes dic (values d)).
  Proof.
    intros Hb. pose proof (data_fstokes n 0 dic d (values d) (counts_fimg n d ltac:(lia) Hc) Hm' Hb Hn ltac:(lia) ltac:(lia)) as F.
    destruct (data_stokes dic d), (data_stokes dic (values d)); try exact F. exact (fstokes_exact _ _ _ _ F).
  Qed.
  Lemma c101_demosaic o : (4 * n < 2 ^ 53)%Z -> same_outcome exact_quad (demosaic d o) (demosaic (values d) o).
  Proof.
    intros Hb. pose proof (demosaic_fquad n 0 d (values d) o (counts_fimg n d ltac:(lia) Hc) Hm' Hb Hn ltac:(lia) ltac:(lia)) as F.
    destruct (demosaic d o), (demosaic (values d) o); try exact F. exact (fquad_exact _ _ _ _ F).
  Qed.
  Lemma demosaic_shape o (r : arr R) q : mosaic r -> demosaic r o = Ok q ->
    forall i, (0 <= i < 4)%Z -> rows (qnth q i) = rows r /\ cols (qnth q i) = cols r.
  Proof.
    intros M E i Hi. destruct (String.eqb_spec o "mean") as [->|N1]; [|destruct (String.eqb_spec o "adjacent") as [->|N2];
      [|destruct (String.eqb_spec o "spline") as [->|N3]]].
    - destruct (demosaic_mean_spec r M) as (q' & Eq & Q). rewrite Eq in E. injection E as <-. destruct (Q i Hi) as (A & B & _). auto.
    - destruct (demosaic_adjacent_spec r M) as (q' & Eq & Q). rewrite Eq in E. injection E as <-. destruct (Q i Hi) as (A & B & _). auto.
    - discriminate E.
    - rewrite demosaic_bad_option in E by assumption. discriminate E.
  Qed.
  Lemma demosaiced_fstokes b k a r o dic : fimg b k a r -> mosaic r -> (16 * b < 2 ^ 53)%Z -> (0 <= b)%Z -> (0 <= k <= 90)%Z ->
    same_outcome (fstokes (4 * b) (k + 2)) (let* q := demosaic a o in theo_stokes dic q) (let* q := demosaic r o in theo_stokes dic q).
  Proof.
    intros F M Hb H0 Hk. pose proof (demosaic_fquad b k a r o F M ltac:(lia) H0 ltac:(lia) ltac:(lia)) as Q.
    pose proof (fun q => demosaic_shape o r q M) as Sh.
    destruct (demosaic a o) as [q|e|], (demosaic r o) as [q'|e'|]; cbn [same_outcome] in Q; try contradiction; cbn [bind same_outcome];
      [|exact Q|exact I].
    apply theo_fstokes; [exact Q| |lia|lia|lia|lia]. intros i Hi. change (q0 q') with (qnth q' 0).
    destruct (Sh q' eq_refl i Hi) as (A & B). destruct (Sh q' eq_refl 0%Z ltac:(lia)) as (C & D). rewrite A, B, C, D. auto.
  Qed.
  Lemma c101_binned b : (1 <= b)%Z -> (16 * (b * b * n) < 2 ^ 53)%Z ->
    exists d' r', evaluates (fun fuel => micropolarray_rebin fuel d b) d' /\
      evaluates (fun fuel => micropolarray_rebin fuel (values d) b) r' /\
      exact_image d' r' /\
      (forall dic, same_outcome exact_stokes (data_stokes dic d') (data_stokes dic r')) /\
      forall dic o, same_outcome exact_stokes (let* q := demosaic d' o in theo_stokes dic q) (let* q := demosaic r' o in theo_stokes dic q).
  Proof.
    intros Hb Hs. assert (B1 : (1 <= b * b)%Z) by (apply (Z.mul_le_mono_nonneg 1 b 1 b); lia).
    assert (Hnn : (n <= b * b * n)%Z) by (rewrite <- (Z.mul_1_l n) at 1; apply Z.mul_le_mono_nonneg_r; lia).
    destruct (rebin_fimg n 0 d (values d) b (counts_fimg n d ltac:(lia) Hc) Hn ltac:(lia) Hm' Hb ltac:(lia)) as (d' & r' & E1 & E2 & M & F).
    exists d', r'. split; [exact E1|]. split; [exact E2|]. split; [exact (fimg_exact _ _ _ _ F)|]. split; intros dic.
    - pose proof (data_fstokes _ 0 dic d' r' F M ltac:(lia) ltac:(lia) ltac:(lia) ltac:(lia)) as G.
      destruct (data_stokes dic d'), (data_stokes dic r'); try exact G. exact (fstokes_exact _ _ _ _ G).
    - intros o. pose proof (demosaiced_fstokes _ 0 d' r' o dic F M ltac:(lia) ltac:(lia) ltac:(lia)) as G.
      destruct (bind (demosaic d' o) _), (bind (demosaic r' o) _); try exact G. exact (fstokes_exact _ _ _ _ G).
  Qed.
  Lemma c101_pol dic s : (n <= 2 ^ 24)%Z -> data_stokes dic d = Ok s ->
    exists t, data_stokes dic (values d) = Ok t /\
      forall y x, (0 <= y < rows d / 2)%Z -> (0 <= x < cols d / 2)%Z ->
        nearest (cell (pB s) y x) (cell (pB t) y x) /\ within (/ 2 ^ 51) (cell (DoLP s) y x) (cell (DoLP t) y x).
  Proof.
    intros Hb Es. assert (Hsq : (n * n <= 2 ^ 24 * 2 ^ 24)%Z) by (apply Z.mul_le_mono_nonneg; lia).
    pose proof (data_fstokes n 0 dic d (values d) (counts_fimg n d ltac:(lia) Hc) Hm' ltac:(lia) Hn ltac:(lia) ltac:(lia)) as F.
    rewrite Es in F. destruct (data_stokes dic (values d)) as [t|e|] eqn:Et; cbn [same_outcome] in F; try contradiction.
    exists t. split; [reflexivity|]. destruct (data_stokes_shape dic (values d) t Hm' Et) as (S1 & S2 & S3 & S4 & S5 & S6).
    change (rows (values d)) with (rows d) in S1. change (cols (values d)) with (cols d) in S2.
    intros y x Hy Hx. apply (pol_floats n 0 s t y x F); try assumption; lia.
  Qed.
  Lemma c101_pol_demosaiced dic o s : (n <= 2 ^ 22)%Z -> (let* q := demosaic d o in theo_stokes dic q) = Ok s ->
    exists t, (let* q := demosaic (values d) o in theo_stokes dic q) = Ok t /\
      forall y x, (0 <= y < rows d)%Z -> (0 <= x < cols d)%Z ->
        nearest (cell (pB s) y x) (cell (pB t) y x) /\ within (/ 2 ^ 51) (cell (DoLP s) y x) (cell (DoLP t) y x).
  Proof.
    intros Hb Es. assert (Hsq : (n * n <= 2 ^ 22 * 2 ^ 22)%Z) by (apply Z.mul_le_mono_nonneg; lia).
    pose proof (demosaiced_fstokes n 0 d (values d) o dic (counts_fimg n d ltac:(lia) Hc) Hm' ltac:(lia) Hn ltac:(lia)) as F.
    rewrite Es in F. destruct (demosaic (values d) o) as [q|e|] eqn:Eq; cbn [bind] in F |- *; cbn [same_outcome] in F; try contradiction.
    destruct (theo_stokes dic q) as [t|e|] eqn:Et; cbn [same_outcome] in F; try contradiction.
    exists t. split; [reflexivity|]. pose proof (demosaic_shape o (values d) q Hm' Eq) as Sh.
    destruct (theo_shape dic q t (rows d) (cols d) (fun i Hi => proj1 (Sh i Hi)) (fun i Hi => proj2 (Sh i Hi)) Et) as (S1 & S2 & S3 & S4 & S5 & S6).
    intros y x Hy Hx. apply (pol_floats (4 * n) 2 s t y x F); try assumption; lia.
  Qed.
End Statements.

(** ** Sums of files *)
Lemma ofZ_value z : (Z.abs z < 2 ^ 53)%Z -> is_value (nofZ z) (IZR z).
Proof.
  intros Hz. change (@nofZ b64 _ z) with (b64_ofZ z). rewrite ofZ_equiv.
  pose proof (binary_normalize_correct prec emax Hprec Hmax mode_NE z 0 false) as C.
  assert (Sm : Rabs (rnd (fixed z 0)) < top) by (rewrite rnd_fixed by lia; apply fixed_small; lia).
  cbv zeta in C. rewrite Rlt_bool_true in C by exact Sm. destruct C as (C1 & C2 & _). apply value_B; [exact C2|].
  rewrite <- fixed_0, <- (rnd_fixed z 0) by lia. exact C1.
Qed.
Lemma fx_div_pow b k j x r : fx b k x r -> (0 <= j)%Z -> (k + j <= 1000)%Z -> (2 ^ j < 2 ^ 53)%Z -> fx b (k + j) (x /! nofZ (2 ^ j)) (r / IZR (2 ^ j)).
Proof.
  intros (m & V & E & Bm & Hb & Hk) Hj Hkj Hp. exists m.
  assert (P0 : (0 < 2 ^ j)%Z) by (apply Z.pow_pos_nonneg; lia).
  assert (Ej : IZR (2 ^ j) = bpow radix2 j) by (destruct j; [reflexivity|reflexivity|lia]).
  assert (Er : r / IZR (2 ^ j) = fixed m (k + j)).
  { rewrite E, Ej. unfold fixed, Rdiv. rewrite <- bpow_opp. replace (- (k + j))%Z with (- k + - j)%Z by lia. rewrite bpow_plus. lra. }
  split; [|split; [exact Er|lia]]. rewrite Er, <- (rnd_fixed m (k + j)) by lia. rewrite <- Er.
  apply div_value; [exact V|apply ofZ_value; lia|apply IZR_neq; lia|]. rewrite Er, rnd_fixed by lia. apply fixed_small; lia.
Qed.
