(** Properties C53, C60, C61: clamping, dark subtraction, flat correction, division. *)
From Coq Require Import Reals Lra Floats.SpecFloat.
From Verif Require Import Base.Base Base.Num Base.Bcast Model.Utils Model.Stokes
  Spec.SumSpec Spec.PixelSpec Spec.MosaicSpec Spec.StokesSpec Proofs.UtilFacts.
Local Open Scope Z_scope.

(** ** C53.  Full statement: for all data and lo <= hi every value is clamped into
    [lo, hi].  False: a bound equal to 0 counts as "no bound". *)
Theorem C53_fix_data_partial (d : arr R) (lo hi : R) :
  (lo <= hi)%R -> lo <> 0%R -> hi <> 0%R ->
  holds (fix_data d (Some lo) (Some hi)) d (fun y x => clamp lo hi (cell d y x)).
Proof. exact (fix_data_clamps d lo hi). Qed.
Print Assumptions C53_fix_data_partial.

(** In every remaining case the data comes back untouched. *)
Theorem C53_skipped (d : arr R) mn mx :
  mn = None \/ mx = None \/ mn = Some 0%R \/ mx = Some 0%R -> fix_data d mn mx = d.
Proof. exact (fix_data_skips d mn mx). Qed.
Print Assumptions C53_skipped.

Theorem C53_fix_data_refuted :
  exists (d : arr R) lo hi,
    (lo <= hi)%R /\ exists y x, (0 <= y < rows d /\ 0 <= x < cols d)%Z /\
      ~ (lo <= cell (fix_data d (Some lo) (Some hi)) y x)%R.
Proof. exact fix_data_refuted. Qed.
Print Assumptions C53_fix_data_refuted.

(** In binary64 a NaN pixel becomes the lower bound. *)
Theorem C53_nan (d : arr b64) lo hi y x :
  truthy (Some lo) = true -> truthy (Some hi) = true -> nltb lo hi = true ->
  cell d y x = S754_nan -> cell (fix_data d (Some lo) (Some hi)) y x = lo.
Proof. exact (fix_data_nan d lo hi y x). Qed.
Print Assumptions C53_nan.

Example C53_case :
  ((-5 <= 4095)%R /\ (-5)%R <> 0%R /\ 4095%R <> 0%R) /\
  (truthy (Some (b64_ofZ 1)) = true /\ truthy (Some (b64_ofZ 4095)) = true /\
   nltb (b64_ofZ 1) (b64_ofZ 4095) = true /\ cell (full 2 2 (S754_nan : b64)) 1 1 = S754_nan).
Proof. repeat split; try lra. Qed.

(** ** C60 *)
Theorem C60_dark (data dark : arr R) :
  same_shape data dark ->
  exists d, dark_data data dark = Ok d /\
    holds d data (fun y x => Rmax (cell data y x - cell dark y x)%R 0%R).
Proof. exact (dark_ok data dark). Qed.
Print Assumptions C60_dark.

Theorem C60_dark_shape (data dark : arr R) :
  (rows data <> rows dark /\ rows data <> 1 /\ rows dark <> 1) \/
  (cols data <> cols dark /\ cols data <> 1 /\ cols dark <> 1) ->
  dark_data data dark = Raise ValueError.
Proof. exact (dark_bad data dark). Qed.
Print Assumptions C60_dark_shape.

Theorem C60_dark_of_itself dic a (data : arr R) :
  describes dic a -> mosaic data ->
  exists d s, dark_data data data = Ok d /\ holds d data (fun _ _ => 0%R) /\
    data_stokes dic d = Ok s /\
    stokes_is s (rows data / 2) (cols data / 2)
      (fun _ _ => 0%R) (fun _ _ => 0%R) (fun _ _ => 0%R).
Proof. exact (dark_self dic a data). Qed.
Print Assumptions C60_dark_of_itself.

(** False for images built from unsigned arrays (MicropolImage keeps the array's dtype):
    the difference wraps before it is clipped. *)
Theorem C60_dark_unsigned_refuted :
  exists data dark d, same_shape data dark /\ dark_data_u16 data dark = Ok d /\
    (forall y x, 0 <= cell data y x < 65536 /\ 0 <= cell dark y x < 65536) /\
    cell d 0 0 <> Z.max (cell data 0 0 - cell dark 0 0) 0.
Proof. exact dark_u16_wraps. Qed.
Print Assumptions C60_dark_unsigned_refuted.

Theorem C60_dark_unsigned data dark d y x :
  same_shape data dark -> 0 <= y < rows data -> 0 <= x < cols data ->
  dark_data_u16 data dark = Ok d ->
  cell d y x = (cell data y x - cell dark y x) mod 65536.
Proof. exact (dark_u16_all data dark d y x). Qed.
Print Assumptions C60_dark_unsigned.

Example C60_case :
  same_shape (full 2 4 7%R) (full 2 4 9%R) /\ mosaic (full 2 4 7%R) /\
  describes polarcam_angles (mkarrangement 0 1 2 3) /\
  (rows (full 2 4 7%R) <> rows (full 6 4 7%R) /\ rows (full 2 4 7%R) <> 1 /\ rows (full 6 4 7%R) <> 1) /\
  on_ok to_list (dark_data_u16 (full 1 2 3) (full 1 2 5)) = Ok [[65534; 65534]].
Proof.
  split; [split; reflexivity|]. split; [repeat split; cbn; try lia; reflexivity|].
  split; [|split; [cbn; lia|reflexivity]].
  unfold describes, arrangement_ok, polarcam_angles; cbn [p0 p45 pm45 p90 map fst].
  repeat split; try lia; try (repeat constructor; cbn; intuition lia); cbn; auto.
Qed.

(** ** C61.  Full statement: the result is determined by the inputs at every pixel.
    False: where the divisor is 0 the output keeps the content [junk] of the fresh buffer. *)
Theorem C61_division_partial junk (a b : arr R) :
  same_shape a b ->
  exists c, divide_where junk a b = Ok c /\
    holds c a (fun y x => if Req_EM_T (cell b y x) 0 then junk y x
                          else (cell a y x / cell b y x)%R).
Proof. exact (divide_ok junk a b). Qed.
Print Assumptions C61_division_partial.

Theorem C61_flat_partial junk (data flat : arr R) :
  let mean := (rsum2 (rows flat) (cols flat) (cell flat) / IZR (rows flat * cols flat))%R in
  same_shape data flat -> mean <> 0%R ->
  exists c, flat_data junk data flat = Ok c /\
    holds c data (fun y x => if Req_EM_T (cell flat y x) 0 then junk y x
                             else (cell data y x * mean / cell flat y x)%R).
Proof. exact (flat_ok junk data flat). Qed.
Print Assumptions C61_flat_partial.

Theorem C61_division_refuted :
  exists (a b : arr R) j1 j2 c1 c2,
    same_shape a b /\ divide_where j1 a b = Ok c1 /\ divide_where j2 a b = Ok c2 /\ ~ c1 =a= c2.
Proof. exact division_refuted. Qed.
Print Assumptions C61_division_refuted.

(** Dividing by the number 0 returns the whole buffer. *)
Theorem C61_scalar_zero_refuted junk (a : arr R) :
  holds (divide_scalar junk a 0%R) a junk.
Proof. exact (divide_scalar_zero junk a). Qed.
Print Assumptions C61_scalar_zero_refuted.

Theorem C61_scalar junk (a : arr R) s :
  s <> 0%R -> holds (divide_scalar junk a s) a (fun y x => cell a y x / s)%R.
Proof. exact (divide_scalar_ok junk a s). Qed.
Print Assumptions C61_scalar.

Example C61_case :
  same_shape (full 2 2 8%R) (mkarr 2 2 (fun y x => IZR (y + x))) /\
  (rsum2 2 2 (fun y x => IZR (y + x)) / IZR (2 * 2) <> 0)%R.
Proof.
  split; [split; reflexivity|]. unfold rsum2, rsum. cbn.
  apply Rgt_not_eq. apply Rdiv_lt_0_compat; [|lra].
  change (Pos.to_nat 2) with 2%nat. cbn. lra.
Qed.
