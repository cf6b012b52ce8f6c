(** Property C154: Otsu's threshold of images, with the median filter. *)
From Coq Require Import Reals Lra Lia.
From Verif Require Import Base.Base Base.Num Model.Cleaning Model.MedianFilter Model.Histogram
  Proofs.ThresholdFacts Spec.MedianSpec Spec.ThresholdSpec.
Local Open Scope R_scope.

(** ** Any filter *)

(** Full statement: two populations that do not overlap are told apart.  Here: if the gap between them exceeds their widths
    by the square root of twice the number of pixels. *)
Theorem C154_populations_partial F data a b e :
  let l := pixels (median_filter F data 10) in
  (3 <= length l)%nat -> 0 <= e -> a + e + 1 <= b -> two_populations a b e l ->
  2 * INR (length l) * (e * e) < (b - a - e) * (b - a - e) ->
  exists t, auto_threshold F data = Ok t /\ separates a b e t l.
Proof. exact (populations_apart F data a b e). Qed.
Print Assumptions C154_populations_partial.

(** Wider populations need not be told apart: of a background of 0 and 100 and a signal of 102 the brighter part of the
    background goes with the signal. *)
Theorem C154_populations_refuted : let data := amap IZR strips in let l := pixels (median_filter scipy data 10) in
  two_populations 0 102 100 l /\ exists t, auto_threshold scipy data = Ok t /\ exists v, In v l /\ within_band 0 (0 + 100) v /\ t <= v.
Proof. exact c154_lopsided. Qed.
Print Assumptions C154_populations_refuted.

(** ** scipy's filter *)

(** Pixels whose surroundings are mostly background end up below the threshold, those whose surroundings are mostly signal
    above it, whatever the other pixels of the surroundings are: hot and dead pixels do not count. *)
Theorem C154_image data a b e : (5 <= rows data)%Z -> (5 <= cols data)%Z ->
  0 <= e -> a + e + 1 <= b -> 2 * IZR (rows data * cols data) * (e * e) < (b - a - e) * (b - a - e) ->
  (forall y x, on data y x -> mostly a (a + e) (around data 10 y x) \/ mostly b (b + e) (around data 10 y x)) ->
  (exists y x, on data y x /\ mostly a (a + e) (around data 10 y x)) ->
  (exists y x, on data y x /\ mostly b (b + e) (around data 10 y x)) ->
  exists t, auto_threshold scipy data = Ok t /\
    forall y x, on data y x ->
      (mostly a (a + e) (around data 10 y x) -> cell (filtered Rleb data 10) y x < t) /\
      (mostly b (b + e) (around data 10 y x) -> t <= cell (filtered Rleb data 10) y x).
Proof. exact (fun Hr Hc => c154_separates data Hr Hc a b e). Qed.
Print Assumptions C154_image.

(** Two levels: the threshold is one unit above the background. *)
Theorem C154_two_levels data a b : (5 <= rows data)%Z -> (5 <= cols data)%Z -> a + 1 <= b ->
  (forall y x, on data y x -> mostly a a (around data 10 y x) \/ mostly b b (around data 10 y x)) ->
  (exists y x, on data y x /\ mostly a a (around data 10 y x)) -> auto_threshold scipy data = Ok (a + 1).
Proof. exact (fun Hr Hc => c154_two_levels data Hr Hc a b). Qed.
Print Assumptions C154_two_levels.

(** Full statement: the threshold lies between the background and the signal.  A signal that nowhere fills half of the
    surroundings, be it as faint as a + 1/2 or as bright as it likes, does not change the threshold a + 1. *)
Theorem C154_small_refuted data a : (5 <= rows data)%Z -> (5 <= cols data)%Z ->
  (forall y x, on data y x -> mostly a a (around data 10 y x)) -> auto_threshold scipy data = Ok (a + 1).
Proof. exact (fun Hr Hc => c154_small data Hr Hc a). Qed.
Print Assumptions C154_small_refuted.

(** 8 x 20 counts: background of 3 and 4 on the left, signal of 100 and 101 on the right, a hot pixel and a dead one.
    Then 6 x 6 pixels of 7 with a spot of 6 pixels of 8. *)
Definition scene : arr Z := mkarr 8 20 (fun y x =>
  if (y =? 3) && (x =? 4) then 5000 else if (y =? 5) && (x =? 15) then 0 else (if x <? 10 then 3 else 100) + (x + y) mod 2)%Z.
Definition flat_scene : arr Z := mkarr 8 20 (fun y x => if (y =? 3) && (x =? 4) then 5000 else if x <? 10 then 3 else 100)%Z.
Definition spot : arr Z := mkarr 6 6 (fun y x => if (y <? 3) && (x <? 2) then 8 else 7)%Z.
Example C154_case :
  (2 * IZR (8 * 20) * (1 * 1) < (100 - 3 - 1) * (100 - 3 - 1)) /\
  (forall y x, on (amap IZR scene) y x -> mostly 3 4 (around (amap IZR scene) 10 y x) \/ mostly 100 101 (around (amap IZR scene) 10 y x)) /\
  mostly 3 4 (around (amap IZR scene) 10 3 4) /\ mostly 100 101 (around (amap IZR scene) 10 3 10) /\
  (forall y x, on (amap IZR flat_scene) y x -> mostly 3 3 (around (amap IZR flat_scene) 10 y x) \/ mostly 100 100 (around (amap IZR flat_scene) 10 y x)) /\
  (forall y x, on (amap IZR spot) y x -> mostly 7 7 (around (amap IZR spot) 10 y x)).
Proof.
  split; [change (8 * 20)%Z with 160%Z; lra|]. split; [|split; [|split; [|split]]].
  - intros y x H. rewrite around_map. pose proof (zall scene (fun y x => zmostly 3 4 (around scene 10 y x) || zmostly 100 101 (around scene 10 y x)) ltac:(vm_compute; reflexivity) y x H) as K.
    apply orb_true_iff in K. destruct K as [K|K]; [left; exact (zmostly_ok 3 4 _ K)|right; exact (zmostly_ok 100 101 _ K)].
  - rewrite around_map. apply (zmostly_ok 3 4). vm_compute. reflexivity.
  - rewrite around_map. apply (zmostly_ok 100 101). vm_compute. reflexivity.
  - intros y x H. rewrite around_map. pose proof (zall flat_scene (fun y x => zmostly 3 3 (around flat_scene 10 y x) || zmostly 100 100 (around flat_scene 10 y x)) ltac:(vm_compute; reflexivity) y x H) as K.
    apply orb_true_iff in K. destruct K as [K|K]; [left; exact (zmostly_ok 3 3 _ K)|right; exact (zmostly_ok 100 100 _ K)].
  - intros y x H. rewrite around_map. apply (zmostly_ok 7 7).
    exact (zall spot (fun y x => zmostly 7 7 (around spot 10 y x)) ltac:(vm_compute; reflexivity) y x H).
Qed.
