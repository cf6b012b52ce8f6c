(** C140: arithmetic expressions with images. *)
From Coq Require Import Reals Lra Lia.
From Verif Require Import Base.Base Model.Stokes Model.ImageObj Model.Operators Spec.MosaicSpec Spec.OperatorSpec Proofs.OperatorFacts.

(** An expression in which every operator has operands that go together (numbers and arrays anywhere but on the
    left of an image, images of one class) gives an image, an array or a number with, at every pixel, the value of
    the expression for this pixel; a MicropolImage has the dictionary of the first image named. *)
Theorem C140_meaning_partial : forall W h w e k,
  0 < h -> 0 < w -> h mod 2 = 0 -> w mod 2 = 0 ->
  all_sized h w e -> no_zero_divisor h w e -> makes e k ->
  exists r, eval W e = Ok r /\ kind_of r = k /\ sized h w r /\
    (forall y x, 0 <= y < h -> 0 <= x < w -> shown_at r y x = meaning e y x) /\
    (k = KMicropol -> exists a b dic, r = Micropol a dic /\ leftmost e = Micropol b dic).
Proof. exact c140_meaning. Qed.
Print Assumptions C140_meaning_partial.

(** (image - dark) * 2 / flat, with the flat an array *)
Definition counts (v : R) : arr R := mkarr 4 6 (fun _ _ => v).
Definition corrected : expr :=
  Op Div (Op Mul (Op Sub (Leaf (Micropol (counts 9) polarcam_angles)) (Leaf (Micropol (counts 1) polarcam_angles)))
                 (Leaf (Number 2)))
         (Leaf (Array (counts 4))).

Example C140_case :
  all_sized 4 6 corrected /\ no_zero_divisor 4 6 corrected /\ makes corrected KMicropol /\ meaning corrected 3 5 = 4%R.
Proof.
  assert (D : exists p, describes polarcam_angles p).
  { exists (mkarrangement 0 1 2 3). unfold describes, arrangement_ok. cbn.
    repeat split; try lia; try tauto. repeat constructor; cbn; intuition congruence. }
  repeat apply conj; try reflexivity; try exact D; try exact I; try discriminate.
  - intros _ y x _ _. cbn. lra.
  - eapply mk_op; [eapply mk_op; [eapply mk_op|apply mk_leaf|]|apply mk_leaf|]; try apply mk_leaf; cbn; apply acc_image; tauto.
  - cbn. lra.
Qed.

(** All other expressions raise TypeError. *)
Theorem C140_refused : forall W h w e,
  0 < h -> 0 < w -> h mod 2 = 0 -> w mod 2 = 0 ->
  all_sized h w e -> no_zero_divisor h w e -> (forall k, ~ makes e k) -> eval W e = Raise TypeError.
Proof. exact c140_refused. Qed.
Print Assumptions C140_refused.

(** Among them: a number or an array on the left of an image, an Image and a MicropolImage in either order. *)
Theorem C140_left_refuted : forall W h w f l r a b,
  0 < h -> 0 < w -> h mod 2 = 0 -> w mod 2 = 0 ->
  all_sized h w (Op f l r) -> no_zero_divisor h w (Op f l r) -> makes l a -> makes r b ->
  is_image b -> a <> b -> eval W (Op f l r) = Raise TypeError.
Proof. exact c140_left. Qed.
Print Assumptions C140_left_refuted.

Example C140_left_case :
  let e := Op Mul (Leaf (Number 2)) (Leaf (Plain (counts 9))) in
  all_sized 4 6 e /\ no_zero_divisor 4 6 e /\ makes (Leaf (Number 2)) KNumber /\ makes (Leaf (Plain (counts 9))) KPlain /\
  is_image KPlain.
Proof.
  cbv zeta. split; [split; [exact I|split; reflexivity]|]. split; [split; [exact I|split; [exact I|discriminate]]|].
  split; [exact (mk_leaf (Number 2))|]. split; [exact (mk_leaf (Plain (counts 9)))|]. left. reflexivity.
Qed.

(** Python's sum of a list that begins with an image raises TypeError, *)
Theorem C140_sum_refuted : forall W v l, is_image (kind_of v) -> py_sum W (v :: l) = Raise TypeError.
Proof. exact c140_sum. Qed.
Print Assumptions C140_sum_refuted.

(** while the sum that starts with the first image is the pixelwise sum. *)
Theorem C140_sum_start : forall W h w k v l,
  0 < h -> 0 < w -> h mod 2 = 0 -> w mod 2 = 0 -> is_image k ->
  Forall (fun u => sized h w u /\ kind_of u = k) (v :: l) ->
  exists r, sum_from W v l = Ok r /\ kind_of r = k /\ sized h w r /\
    forall y x, 0 <= y < h -> 0 <= x < w -> shown_at r y x = sum_at (v :: l) y x.
Proof. exact c140_sum_start. Qed.
Print Assumptions C140_sum_start.

Example C140_sum_case :
  Forall (fun u => sized 4 6 u /\ kind_of u = KPlain) [Plain (counts 1); Plain (counts 2); Plain (counts 3)] /\
  sum_at [Plain (counts 1); Plain (counts 2); Plain (counts 3)] 0 0 = 6%R.
Proof. split; [repeat constructor|]. cbn. lra. Qed.

(** Images of sensors whose micropolarizers are arranged differently are combined without an error: whatever the two
    arrangements, there are images the Stokes parameters of whose sum are not the sums of theirs. *)
Theorem C140_angles_refuted : forall W d1 p1 d2 p2,
  describes d1 p1 -> describes d2 p2 -> p1 <> p2 ->
  exists a b r s1 s2 s, operate W Add (Micropol a d1) (Micropol b d2) = Ok (Micropol r d1) /\
    data_stokes d1 a = Ok s1 /\ data_stokes d2 b = Ok s2 /\ data_stokes d1 r = Ok s /\
    (cell (sQ s) 0 0 <> (cell (sQ s1) 0 0 + cell (sQ s2) 0 0)%R \/
     cell (sU s) 0 0 <> (cell (sU s1) 0 0 + cell (sU s2) 0 0)%R).
Proof. exact c140_angles. Qed.
Print Assumptions C140_angles_refuted.

Example C140_angles_case :
  describes polarcam_angles (mkarrangement 0 1 2 3) /\ describes [(90, 0); (45, 1); (-45, 2); (0, 3)] (mkarrangement 3 1 2 0).
Proof.
  split; unfold describes, arrangement_ok; cbn; (repeat split; try lia; try tauto); repeat constructor; cbn; intuition congruence.
Qed.
