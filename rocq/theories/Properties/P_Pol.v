(** Properties C19-C23: pB, AoLP, DoLP and the Malus model. *)
From Coq Require Import Reals Lra.
From Verif Require Import Base.Base Base.Num Model.Demosaic Model.Stokes Model.Pol
  Spec.MosaicSpec Spec.StokesSpec Proofs.PolFacts.
Local Open Scope R_scope.

(** ** C19 (at every pixel of every Stokes vector) *)
Theorem C19_polar_form (s : stokes R) y x :
  let q := cell (sQ s) y x in
  let u := cell (sU s) y x in
  let p := cell (pB s) y x in
  let a := cell (AoLP s) y x in
  0 <= p /\ - (PI / 2) < a <= PI / 2 /\
  q = p * cos (2 * a) /\ u = p * sin (2 * a) /\ (p = 0 <-> q = 0 /\ u = 0).
Proof. exact (c19_polar s y x). Qed.
Print Assumptions C19_polar_form.

(** Light with Q = 0, U = -3 : pB = 3 and AoLP = -45 degrees. *)
Example C19_case :
  let s := mkstokes (full 1 1 5) (full 1 1 0) (full 1 1 (-3)) in
  cell (pB s) 0 0 = 3 /\ cell (AoLP s) 0 0 = - (PI / 4).
Proof.
  cbn zeta. unfold pB, AoLP, full. cbn [cell amap2 sQ sU nsqrt nadd nmul Num_R]. split.
  - replace (0 * 0 + -3 * -3) with (3 * 3) by ring. apply sqrt_square. lra.
  - rewrite (atan2_unique 3 (- (PI / 2))).
    + field.
    + lra.
    + pose proof PI_RGT_0. lra.
    + rewrite cos_neg, cos_PI2. ring.
    + rewrite sin_neg, sin_PI2. ring.
Qed.

(** ** C20 *)
Theorem C20_dolp_def (s : stokes R) y x :
  let i := cell (sI s) y x in
  (i <> 0 -> cell (DoLP s) y x = cell (pB s) y x / i) /\
  (i = 0 -> cell (DoLP s) y x = 0).
Proof. exact (c20_def s y x). Qed.
Print Assumptions C20_dolp_def.

Theorem C20_dolp_at_most_two dic a (d : arr R) s y x :
  describes dic a -> mosaic d -> data_stokes dic d = Ok s ->
  (forall j i, (0 <= j < rows d)%Z -> (0 <= i < cols d)%Z -> 0 <= cell d j i) ->
  (0 <= y < rows d / 2)%Z -> (0 <= x < cols d / 2)%Z ->
  0 <= cell (DoLP s) y x <= 2.
Proof. exact (c20_bound dic a d s y x). Qed.
Print Assumptions C20_dolp_at_most_two.

(** DoLP <= 1 fails: a non-negative image reaches 2. *)
Theorem C20_dolp_at_most_one_refuted :
  exists (d : arr R) s, mosaic d /\ data_stokes polarcam_angles d = Ok s /\
    (forall j i, 0 <= cell d j i) /\ cell (DoLP s) 0 0 = 2.
Proof. exact c20_refuted. Qed.
Print Assumptions C20_dolp_at_most_one_refuted.

(** ... and holds for what ideal micropolarizers record of physical light. *)
Theorem C20_dolp_at_most_one_partial dic a (d : arr R) (I Q U : Z -> Z -> R) s y x :
  describes dic a -> mosaic d ->
  (forall Y X, (0 <= Y < rows d / 2)%Z -> (0 <= X < cols d / 2)%Z ->
     sample d (p0 a) Y X = ideal 0 (I Y X) (Q Y X) (U Y X) /\
     sample d (p45 a) Y X = ideal (PI / 4) (I Y X) (Q Y X) (U Y X) /\
     sample d (pm45 a) Y X = ideal (- (PI / 4)) (I Y X) (Q Y X) (U Y X) /\
     sample d (p90 a) Y X = ideal (PI / 2) (I Y X) (Q Y X) (U Y X)) ->
  (forall Y X, 0 <= I Y X /\ Q Y X * Q Y X + U Y X * U Y X <= I Y X * I Y X) ->
  data_stokes dic d = Ok s -> (0 <= y < rows d / 2)%Z -> (0 <= x < cols d / 2)%Z ->
  0 <= cell (DoLP s) y x <= 1.
Proof. exact (c20_physical dic a d I Q U s y x). Qed.
Print Assumptions C20_dolp_at_most_one_partial.

(** Example for the hypotheses on the light: see C17_case for the image. *)
Example C20_case : 0 <= 4 /\ 2 * 2 + (-1) * (-1) <= 4 * 4.
Proof. lra. Qed.

(** ** C21 *)
Theorem C21_exposure dic a (d : arr R) c :
  describes dic a -> mosaic d -> 0 < c ->
  exists s t, data_stokes dic d = Ok s /\
    data_stokes dic (amap (fun v => c * v) d) = Ok t /\
    forall y x, (0 <= y < rows d / 2)%Z -> (0 <= x < cols d / 2)%Z ->
      cell (AoLP t) y x = cell (AoLP s) y x /\
      cell (DoLP t) y x = cell (DoLP s) y x /\
      cell (pB t) y x = c * cell (pB s) y x /\
      cell (sI t) y x = c * cell (sI s) y x /\
      cell (sQ t) y x = c * cell (sQ s) y x /\
      cell (sU t) y x = c * cell (sU s) y x.
Proof. exact (c21_exposure dic a d c). Qed.
Print Assumptions C21_exposure.

Example C21_case : mosaic (full 4 6 2%R) /\ 0 < 3.
Proof. split; [repeat split; cbn; (lia || reflexivity)|lra]. Qed.

(** ** C22 *)
Theorem C22_malus_source dic a (d : arr R) S al t e :
  describes dic a -> mosaic d -> 0 < S -> 0 < t -> 0 < e <= 1 ->
  (forall Y X, (0 <= Y < rows d / 2)%Z -> (0 <= X < cols d / 2)%Z ->
     sample d (p0 a) Y X = S * Malus al t e 0 /\
     sample d (p45 a) Y X = S * Malus al t e (PI / 4) /\
     sample d (pm45 a) Y X = S * Malus al t e (- (PI / 4)) /\
     sample d (p90 a) Y X = S * Malus al t e (PI / 2)) ->
  exists s, data_stokes dic d = Ok s /\
    forall y x, (0 <= y < rows d / 2)%Z -> (0 <= x < cols d / 2)%Z ->
      cell (sI s) y x = t * S /\ cell (DoLP s) y x = e /\
      exists k : Z, cell (AoLP s) y x = al + IZR k * PI.
Proof. exact (c22_malus dic a d S al t e). Qed.
Print Assumptions C22_malus_source.

(** For any parameters, an image of any size recording that source exists. *)
Example C22_case (S al t e : R) (h w : Z) : (0 <= h)%Z -> (0 <= w)%Z ->
  let a := mkarrangement 0 1 2 3 in
  let d := mkarr (2 * h) (2 * w) (fun y x =>
     S * Malus al t e (if (y mod 2 =? 0)%Z then if (x mod 2 =? 0)%Z then 0 else PI / 4
                       else if (x mod 2 =? 0)%Z then - (PI / 4) else PI / 2)) in
  mosaic d /\
  forall Y X,
    sample d (p0 a) Y X = S * Malus al t e 0 /\
    sample d (p45 a) Y X = S * Malus al t e (PI / 4) /\
    sample d (pm45 a) Y X = S * Malus al t e (- (PI / 4)) /\
    sample d (p90 a) Y X = S * Malus al t e (PI / 2).
Proof.
  intros Hh Hw. cbn zeta. split.
  - repeat split; cbn [rows cols]; try lia; Z.div_mod_to_equations; lia.
  - intros Y X. unfold sample. cbn [p0 p45 pm45 p90 cell].
    change (0 / 2)%Z with 0%Z. change (1 / 2)%Z with 0%Z. change (2 / 2)%Z with 1%Z.
    change (3 / 2)%Z with 1%Z. change (0 mod 2)%Z with 0%Z. change (1 mod 2)%Z with 1%Z.
    change (2 mod 2)%Z with 0%Z. change (3 mod 2)%Z with 1%Z.
    replace ((2 * Y + 0) mod 2)%Z with 0%Z by (Z.div_mod_to_equations; lia).
    replace ((2 * X + 0) mod 2)%Z with 0%Z by (Z.div_mod_to_equations; lia).
    replace ((2 * Y + 1) mod 2)%Z with 1%Z by (Z.div_mod_to_equations; lia).
    replace ((2 * X + 1) mod 2)%Z with 1%Z by (Z.div_mod_to_equations; lia).
    repeat split; reflexivity.
Qed.

(** ** C23 *)
Theorem C23_malus_curve angle t e phi :
  Malus (angle + PI) t e phi = Malus angle t e phi /\
  Malus angle t e (phi + PI) = Malus angle t e phi /\
  Malus angle t e phi + Malus (angle + PI / 2) t e phi = t /\
  (0 <= t -> 0 <= e ->
   t * (1 - e) / 2 <= Malus angle t e phi <= t * (1 + e) / 2 /\
   Malus phi t e phi = t * (1 + e) / 2 /\ Malus (phi + PI / 2) t e phi = t * (1 - e) / 2).
Proof. exact (c23_malus angle t e phi). Qed.
Print Assumptions C23_malus_curve.

Example C23_case : Malus 0 2 (1/2) 0 = 3/2.
Proof. unfold Malus. rewrite !Rmult_0_r, cos_0, sin_0. field. Qed.
