(** Property C152: medians of pixels, and what cleaning of hot pixels puts in their place. *)
From Coq Require Import Reals Lra Lia.
From Verif Require Import Base.Base Base.Num Model.Demosaic Model.Stokes Model.ImageObj Model.Cleaning Model.MedianFilter
  Spec.ImageSpec Spec.MosaicSpec Spec.MedianSpec Proofs.ObjWitness Proofs.MedianFacts.
Local Open Scope R_scope.

(** ** The filter, for values of any kind *)

(** The result is one of the values around the pixel, the one of the middle rank (the upper one of two). *)
Theorem C152_rank {A} (leb : A -> A -> bool) (O : orders leb) (a : arr A) size y x : (0 < size)%Z -> (size <= 2 * rows a)%Z -> (size <= 2 * cols a)%Z -> (0 <= y < rows a)%Z -> (0 <= x < cols a)%Z ->
  ranked leb (Z.to_nat (size * size / 2)) (around a size y x) (cell (filtered leb a size) y x).
Proof. exact (c152_median leb O a size y x). Qed.
Print Assumptions C152_rank.

(** If less than half of the surroundings exceed v, the result does not. *)
Theorem C152_few {A} (leb : A -> A -> bool) (O : orders leb) (a : arr A) size y x v : (0 < size)%Z -> (size <= 2 * rows a)%Z -> (size <= 2 * cols a)%Z -> (0 <= y < rows a)%Z -> (0 <= x < cols a)%Z ->
  (2 * length (filter (fun u => negb (leb u v)) (around a size y x)) < Z.to_nat (size * size))%nat -> leb (cell (filtered leb a size) y x) v = true.
Proof. exact (c152_few leb O a size y x v). Qed.
Print Assumptions C152_few.

(** Filtering follows every change of units that keeps the order. *)
Theorem C152_scale {A B} (leA : A -> A -> bool) (leB : B -> B -> bool) (f : A -> B) (F : forall u v, leB (f u) (f v) = leA u v) (a : arr A) size y x : cell (filtered leB (amap f a) size) y x = f (cell (filtered leA a size) y x).
Proof. exact (c152_scale leA leB f F a size y x). Qed.
Print Assumptions C152_scale.

(** ** Images and maps of hot pixels *)

(** Full statement: a flagged pixel brighter than its neighbours gets a value of theirs.  Here: away from the first rows and
    columns, for one bright pixel among four: the largest of three neighbours.  A dark pixel gets the middle one. *)
Theorem C152_isolated_partial hist h W i mp v w :
  reached hist h -> view_of h i = Some v -> view_of h mp = Some w -> same_shape (v_data w) (v_data v) -> scipy_median W ->
  exists h' k u, exec W (CleanHot i mp) h = (h', Ok (Some k)) /\ view_of h' k = Some u /\
    rows (v_data u) = rows (v_data v) /\ cols (v_data u) = cols (v_data v) /\
    let d := v_data v in
    forall y x, (2 <= y < rows d)%Z -> (2 <= x < cols d)%Z -> cell (v_data w) y x = 1 ->
      (above d y x <= cell d y x -> left d y x <= cell d y x -> corner d y x <= cell d y x ->
         cell (v_data u) y x = largest3 (above d y x) (left d y x) (corner d y x)) /\
      (cell d y x <= above d y x -> cell d y x <= left d y x -> cell d y x <= corner d y x ->
         cell (v_data u) y x = middle3 (above d y x) (left d y x) (corner d y x)).
Proof. exact (c152_clean hist h W i mp v w). Qed.
Print Assumptions C152_isolated_partial.

(** In the first row and column of superpixels the surroundings are mirrored: the pixel is compared with itself, and a
    bright one stays. *)
Theorem C152_border_refuted hist h W i mp v w :
  reached hist h -> view_of h i = Some v -> view_of h mp = Some w -> same_shape (v_data w) (v_data v) -> scipy_median W ->
  exists h' k u, exec W (CleanHot i mp) h = (h', Ok (Some k)) /\ view_of h' k = Some u /\
    rows (v_data u) = rows (v_data v) /\ cols (v_data u) = cols (v_data v) /\
    let d := v_data v in
    forall y x, (0 <= y < rows d)%Z -> (0 <= x < cols d)%Z -> cell (v_data w) y x = 1 ->
      ((y < 2)%Z -> (x < 2)%Z -> cell (v_data u) y x = cell d y x) /\
      ((y < 2)%Z -> (2 <= x)%Z -> cell (v_data u) y x = Rmax (left d y x) (cell d y x)) /\
      ((2 <= y)%Z -> (x < 2)%Z -> cell (v_data u) y x = Rmax (above d y x) (cell d y x)).
Proof. exact (c152_border hist h W i mp v w). Qed.
Print Assumptions C152_border_refuted.

(** Of two bright neighbours the one further from the origin stays bright. *)
Theorem C152_pair_refuted hist h W i mp v w :
  reached hist h -> view_of h i = Some v -> view_of h mp = Some w -> same_shape (v_data w) (v_data v) -> scipy_median W ->
  exists h' k u, exec W (CleanHot i mp) h = (h', Ok (Some k)) /\ view_of h' k = Some u /\
    rows (v_data u) = rows (v_data v) /\ cols (v_data u) = cols (v_data v) /\
    let d := v_data v in
    forall y x bright, (2 <= y < rows d)%Z -> (2 <= x < cols d)%Z -> cell (v_data w) y x = 1 -> bright <= cell d y x ->
      bright <= above d y x \/ bright <= left d y x \/ bright <= corner d y x -> bright <= cell (v_data u) y x.
Proof. exact (c152_pair hist h W i mp v w). Qed.
Print Assumptions C152_pair_refuted.

(** Cleaning never leaves the range of the image. *)
Theorem C152_range hist h W i mp v w lo hi :
  reached hist h -> view_of h i = Some v -> view_of h mp = Some w -> same_shape (v_data w) (v_data v) -> scipy_median W ->
  (forall y x, (0 <= y < rows (v_data v))%Z -> (0 <= x < cols (v_data v))%Z -> lo <= cell (v_data v) y x <= hi) ->
  exists h' k u, exec W (CleanHot i mp) h = (h', Ok (Some k)) /\ view_of h' k = Some u /\
    rows (v_data u) = rows (v_data v) /\ cols (v_data u) = cols (v_data v) /\
    forall y x, (0 <= y < rows (v_data v))%Z -> (0 <= x < cols (v_data v))%Z -> cell (v_data w) y x = 1 -> lo <= cell (v_data u) y x <= hi.
Proof. exact (c152_range hist h W i mp v w lo hi). Qed.
Print Assumptions C152_range.

(** Nor would such pixels be found: the map of get_hot_pixels is zero in the first row and column of every family. *)
Theorem C152_undetected_refuted threshold (a : arr R) y x : 0 <= threshold -> (0 <= y < rows a)%Z -> (0 <= x < cols a)%Z -> (y = 0 \/ x = 0)%Z ->
  (forall y x, 0 <= cell a y x) ->
  cell (hot_map (fun a size y x => window_median Rleb a size y x) threshold a) y x = 0.
Proof. exact (c152_undetected threshold a y x). Qed.
Print Assumptions C152_undetected_refuted.

(** Bright pixels at (0, 0) and (2, 2) of one family, both flagged: the first stays. *)
Definition hot (y x : Z) : Z := if (y =? 0)%Z && (x =? 0)%Z || (y =? 4)%Z && (x =? 4)%Z then 900%Z else (2 * y + x)%Z.
Definition hot_family : arr Z := mkarr 3 3 (fun y x => hot (2 * y) (2 * x)).
Definition flags (y x : Z) : R := if (y =? 0)%Z && (x =? 0)%Z || (y =? 4)%Z && (x =? 4)%Z then 1 else 0.
Definition lab : outside := mkoutside (fun _ _ => 7) (fun a y x => window_median Rleb a 2 y x) (fun _ a => Ok a) (fun a _ _ => Ok a) 100%nat.
Example C152_case :
  let calls := [Create (mkarr 6 6 (fun y x => IZR (hot y x))) None None None; Create (mkarr 6 6 flags) None None None] in
  let hist := map (fun c => (lab, c)) calls in
  arrays_exist hist /\ scipy_median lab /\ orders Z.leb /\
  (exists v, view_of (run_history hist empty_heap) 0 = Some v /\
     (rows (v_data v) = 6%Z /\ cols (v_data v) = 6%Z /\ cell (v_data v) 4 4 = 900 /\ above (v_data v) 4 4 = 8 /\ left (v_data v) 4 4 = 10 /\ corner (v_data v) 4 4 = 6)) /\
  (exists w, view_of (run_history hist empty_heap) 1 = Some w /\ (rows (v_data w) = 6%Z /\ cell (v_data w) 4 4 = 1 /\ cell (v_data w) 0 0 = 1)) /\
  to_list hot_family = [[900; 2; 4]; [4; 6; 8]; [8; 10; 900]]%Z /\
  to_list (filtered Z.leb hot_family 2) = [[900; 900; 4]; [900; 6; 6]; [8; 8; 10]]%Z.
Proof.
  cbv zeta. split; [unfold arrays_exist; cbn; repeat constructor; cbn; lia|]. split; [intros a y x; reflexivity|]. split.
  - split.
    + intros u v. rewrite !Z.leb_le. lia.
    + intros u v w. rewrite !Z.leb_le. lia.
  - split; [apply shown; vm_compute; repeat split; reflexivity|]. split; [apply shown; vm_compute; repeat split; reflexivity|].
    split; vm_compute; reflexivity.
Qed.
