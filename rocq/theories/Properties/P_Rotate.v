(** Property C153: images turned by multiples of 90 degrees. *)
From Coq Require Import Reals Lra Lia.
From Verif Require Import Base.Base Base.Num Model.Demosaic Model.Stokes Model.ImageObj Model.Rotate
  Proofs.ObjWitness Proofs.RotateFacts Spec.ImageSpec Spec.MosaicSpec Spec.RotateSpec.
Local Open Scope R_scope.

(** ** Where pixels go *)

(** Every family of pixels and every Stokes parameter is turned about its centre and rounded to 24 bits. *)
Theorem C153_turned hist h W i q v : reached hist h -> view_of h i = Some v -> pillow W ->
  exists h' k n, exec W (Rotate i (IZR (90 * q))) h = (h', Ok (Some k)) /\ view_of h' k = Some n /\
    rows (v_data n) = rows (v_data v) /\ cols (v_data n) = cols (v_data v) /\ v_dic n = v_dic v /\
    (forall f, (0 <= f < 4)%Z -> turned_picture q (family_image (v_data v) f) (family_image (v_data n) f)) /\
    turned_picture q (sI (v_vector v)) (sI (v_vector n)) /\ turned_picture q (sQ (v_vector v)) (sQ (v_vector n)) /\
    turned_picture q (sU (v_vector v)) (sU (v_vector n)).
Proof. exact (c153_rotate hist h W i q v). Qed.
Print Assumptions C153_turned.

(** That says what every pixel is: it comes from exactly one position, unless one side is even and the other one odd. *)
Theorem C153_determined q h w y' x' : fits q h w ->
  (exists y x, turned q h w y x y' x') /\ forall y x z t, turned q h w y x y' x' -> turned q h w z t y' x' -> y = z /\ x = t.
Proof. exact (fun F => conj (turned_covers q h w y' x' F) (fun y x z t => turned_unique q h w y x y' x' z t)). Qed.
Print Assumptions C153_determined.

(** Quarter turns of pictures with one even and one odd side take centres of pixels to corners of pixels.  Then the
    pixel to the right and below is taken. *)
Theorem C153_corners hist h W i q v : reached hist h -> view_of h i = Some v -> pillow W ->
  exists h' k n, exec W (Rotate i (IZR (90 * q))) h = (h', Ok (Some k)) /\ view_of h' k = Some n /\
    rows (v_data n) = rows (v_data v) /\ cols (v_data n) = cols (v_data v) /\ v_dic n = v_dic v /\
    (forall f, (0 <= f < 4)%Z -> turned_to_corners q (family_image (v_data v) f) (family_image (v_data n) f)) /\
    turned_to_corners q (sI (v_vector v)) (sI (v_vector n)) /\ turned_to_corners q (sQ (v_vector v)) (sQ (v_vector n)) /\
    turned_to_corners q (sU (v_vector v)) (sU (v_vector n)).
Proof. exact (c153_corners hist h W i q v). Qed.
Print Assumptions C153_corners.

Theorem C153_corners_determined q h w y' x' : ~ fits q h w ->
  (exists y x, turned_corner q h w y x y' x') /\ forall y x z t, turned_corner q h w y x y' x' -> turned_corner q h w z t y' x' -> y = z /\ x = t.
Proof. exact (fun F => conj (corner_covers q h w y' x' F) (fun y x z t => corner_unique q h w y x y' x' z t)). Qed.
Print Assumptions C153_corners_determined.

(** Turns of square pictures add up. *)
Theorem C153_compose p q (a b c d : arr R) y x : turned_picture p a b -> turned_picture q b c -> turned_picture (p + q) a d -> rows a = cols a ->
  inside (rows a) (cols a) y x -> cell c y x = cell d y x.
Proof. exact (picture_compose p q a b c d y x). Qed.
Print Assumptions C153_compose.

(** Full statement: every pixel shows up somewhere.  Of wide pictures the sides are lost by quarter turns; there is 0. *)
Theorem C153_crop_refuted q a b y x : turned_picture q a b -> (q mod 2 = 1)%Z -> ((rows a + cols a) mod 2 = 0)%Z ->
  inside (rows a) (cols a) y x -> (rows a < Z.abs (2 * x + 1 - cols a))%Z -> cell b y x = 0.
Proof. exact (picture_crop q a b y x). Qed.
Print Assumptions C153_crop_refuted.

(** ** Which values they have there *)

(** Full statement: pixels keep their values.  Here: those that 24-bit floats can express, such as counts below 2^24. *)
Theorem C153_exact_partial q a b y x y' x' : turned_picture q a b -> inside (rows a) (cols a) y x -> inside (rows a) (cols a) y' x' ->
  turned q (rows a) (cols a) y x y' x' -> fits_single (cell a y x) -> cell b y' x' = cell a y x.
Proof. exact (picture_exact q a b y x y' x'). Qed.
Print Assumptions C153_exact_partial.

Theorem C153_error q a b y x y' x' : turned_picture q a b -> inside (rows a) (cols a) y x -> inside (rows a) (cols a) y' x' ->
  turned q (rows a) (cols a) y x y' x' -> powerRZ 2 (-126) <= Rabs (cell a y x) -> Rabs (cell b y' x' - cell a y x) <= / 2 ^ 24 * Rabs (cell a y x).
Proof. exact (picture_error q a b y x y' x'). Qed.
Print Assumptions C153_error.

(** Even rotate(0) changes larger counts. *)
Theorem C153_unturned_refuted a b y x : turned_picture 0 a b -> inside (rows a) (cols a) y x -> cell a y x = IZR (2 ^ 24 + 1) -> cell b y x = IZR (2 ^ 24).
Proof. exact (picture_unturned a b y x). Qed.
Print Assumptions C153_unturned_refuted.

(** ** Polarization *)

(** For images of counts the turned Stokes vector is the one of the turned pixels. *)
Theorem C153_shows_its_data hist h W i q v : reached hist h -> view_of h i = Some v -> pillow W -> shows_its_data v ->
  fits q (rows (v_data v) / 2) (cols (v_data v) / 2) ->
  (forall y x, inside (rows (v_data v)) (cols (v_data v)) y x -> exists c : Z, cell (v_data v) y x = IZR c /\ (Z.abs c < 2 ^ 21)%Z) ->
  exists h' k n, exec W (Rotate i (IZR (90 * q))) h = (h', Ok (Some k)) /\ view_of h' k = Some n /\ shows_its_data n.
Proof. exact (rotate_shows hist h W i q v). Qed.
Print Assumptions C153_shows_its_data.

(** Full statement: the directions of polarization turn with the picture, so a quarter turn changes the sign of Q and U.
    They stay as they were (the image of Q, turned): the sign changes nowhere but where they are 0. *)
Theorem C153_direction_refuted q a b y x y' x' : turned_picture q a b -> inside (rows a) (cols a) y x -> inside (rows a) (cols a) y' x' ->
  turned q (rows a) (cols a) y x y' x' -> cell b y' x' = - cell a y x -> cell a y x = 0.
Proof. exact (picture_direction q a b y x y' x'). Qed.
Print Assumptions C153_direction_refuted.

(** An image of 4 x 8 counts: the families have 2 x 4 pixels.  A quarter turn takes the pixel at (0, 1) to (1, 1) and
    loses the first and the last column. *)
Definition bench : outside :=
  mkoutside (fun _ _ => 7) (fun _ _ _ => 0) (fun angle a => Ok (pil_rotate (fun _ p => p) angle a)) (fun a _ _ => Ok a) 100%nat.
Example C153_case :
  let hist := [(bench, Create (mkarr 4 8 (fun y x => IZR (100 * y + x))) None None None)] in
  arrays_exist hist /\ pillow bench /\ fits 1 2 4 /\
  (exists v, view_of (run_history hist empty_heap) 0 = Some v /\ (rows (v_data v) = 4%Z /\ cols (v_data v) = 8%Z /\ cell (v_data v) 1 2 = 102)) /\
  turned 1 2 4 0 1 1 1 /\ inside 2 4 0 1 /\ inside 2 4 1 1 /\ (2 < Z.abs (2 * 0 + 1 - 4))%Z /\ inside 2 4 0 0 /\
  fits_single (102 / 2) /\ (exists b, turned_picture 1 (mkarr 2 4 (fun y x => IZR (10 * y + x))) b).
Proof.
  cbv zeta. split; [unfold arrays_exist; repeat constructor; cbn; lia|]. split; [exists (fun _ p => p); reflexivity|].
  split; [right; reflexivity|]. split; [apply shown; vm_compute; repeat split; reflexivity|].
  split; [unfold turned; cbv zeta; right; left; split; [reflexivity|lia]|]. unfold inside.
  split; [lia|]. split; [lia|]. split; [lia|]. split; [lia|]. split; [apply (half_fits 102); reflexivity|].
  exists (quarter (1 mod 4) (mkarr 2 4 (fun y x => IZR (10 * y + x)))). apply quarter_turned.
Qed.

(** Families of 2 x 3 pixels, one quarter turn: the pixel at (0, 1) comes from the one at (1, 2). *)
Example C153_corners_case : ~ fits 1 2 3 /\ turned_corner 1 2 3 1 2 0 1 /\ inside 2 3 1 2 /\ inside 2 3 0 1.
Proof.
  split; [unfold fits; intros [H|H]; discriminate H|]. split; [unfold turned_corner; cbv zeta; right; left; split; [reflexivity|lia]|]. unfold inside. lia.
Qed.
