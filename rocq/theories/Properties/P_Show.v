(** Properties C95, C96 and C97: what the plotting methods draw. *)
From Coq Require Import Reals Lra String.
From Verif Require Import Base.Base Base.Num Model.Demosaic Model.Stokes Model.Pol Model.Show
  Spec.MosaicSpec Spec.HistSpec Spec.ImageSpec Spec.CleanSpec Spec.LimitSpec Spec.ShowSpec Proofs.ShowFacts.
Local Open Scope R_scope.

(** ** C95: demosaiced images, without limits *)
Theorem C95_panels_partial data q d : cols data <> 0%Z ->
  (forall i, (0 <= i < 4)%Z -> (exists k, In (k, i) d) /\ values (qnth q i) <> []) ->
  exists panels, show_demo_images data (Some q) d None None = Ok panels /\ length panels = 4%nat /\
    forall i p, nth_error panels i = Some p ->
      p_image p = qnth q (Z.of_nat i) /\ In (p_title p, Z.of_nat i) d /\
      mean_limits (values (p_image p)) (p_vmin p) (p_vmax p).
Proof. exact (c95_panels data q d). Qed.
Print Assumptions C95_panels_partial.

(** With a limit the call fails for every image. *)
Theorem C95_limits_refuted data q d vmin vmax : cols data <> 0%Z -> vmin <> None \/ vmax <> None ->
  show_demo_images data (Some q) d vmin vmax = Raise UnboundLocalError.
Proof. exact (c95_limits data q d vmin vmax). Qed.
Print Assumptions C95_limits_refuted.

Theorem C95_not_demosaiced data d vmin vmax : cols data <> 0%Z ->
  show_demo_images data None d vmin vmax = Raise TypeError.
Proof. exact (c95_not_demosaiced data d vmin vmax). Qed.
Print Assumptions C95_not_demosaiced.

Theorem C95_unnamed data q d i : cols data <> 0%Z -> (0 <= i < 4)%Z -> (forall k, ~ In (k, i) d) ->
  show_demo_images data (Some q) d None None = Raise ValueError.
Proof. exact (c95_unnamed data q d i). Qed.
Print Assumptions C95_unnamed.

Example C95_case :
  let q := mkquad (full 2 2 1) (full 2 2 2) (full 2 2 3) (full 2 2 4) in
  (forall i, (0 <= i < 4)%Z -> (exists k, In (k, i) polarcam_angles) /\ values (qnth q i) <> []) /\
  (forall k, ~ In (k, 3%Z) [(0, 0); (45, 1)]%Z).
Proof.
  split.
  - intros i Hi. assert (i = 0 \/ i = 1 \/ i = 2 \/ i = 3)%Z as [->|[->|[->| ->]]] by lia;
      (split; [eexists; cbn; eauto|discriminate]).
  - intros k [E|[E|[]]]; discriminate.
Qed.

(** ** C96: the image, its parameters and its four orientations *)
Theorem C96_show data vmin vmax : cols data <> 0%Z -> values data <> [] ->
  exists p lo hi, show data vmin vmax = Ok p /\ p_image p = data /\ p_vmin p = Some lo /\ p_vmax p = Some hi /\
    match vmin with Some v => lo = v | None => is_min lo (values data) end /\
    match vmax with Some v => hi = v | None => is_max hi (values data) end.
Proof. exact (c96_show data vmin vmax). Qed.
Print Assumptions C96_show.

Theorem C96_empty data vmin vmax : cols data <> 0%Z -> values data = [] -> vmin = None \/ vmax = None ->
  show data vmin vmax = Raise ValueError.
Proof. exact (c96_empty data vmin vmax). Qed.
Print Assumptions C96_empty.

Theorem C96_no_columns data s name vmin vmax d demos : cols data = 0%Z ->
  show data vmin vmax = Raise ZeroDivisionError /\ show_pol_params data s = Raise ZeroDivisionError /\
  show_single_pol_images data d = Raise ZeroDivisionError /\
  show_demo_images data demos d vmin vmax = Raise ZeroDivisionError /\
  (In name ["I"; "Q"; "U"; "pB"; "AoLP"; "DoLP"]%string ->
   show_pol_param data s name vmin vmax = Raise ZeroDivisionError).
Proof. exact (c96_no_columns data s name vmin vmax d demos). Qed.
Print Assumptions C96_no_columns.

(** Six panels; drawing one parameter alone gives the same panel. *)
Theorem C96_params data s : cols data <> 0%Z ->
  exists panels, show_pol_params data s = Ok panels /\
    map p_title panels = ["I"; "Q"; "U"; "pB"; "AoLP"; "DoLP"]%string /\
    map p_image panels = [sI s; sQ s; sU s; pB s; AoLP s; DoLP s] /\
    (forall p, In p panels -> values (p_image p) <> [] -> mean_limits (values (p_image p)) (p_vmin p) (p_vmax p)) /\
    (exists first, show_with_pol_params data s = Ok (first, panels) /\ p_image first = data /\
       (values data <> [] -> mean_limits (values data) (p_vmin first) (p_vmax first))) /\
    forall p, In p panels -> values (p_image p) <> [] -> show_pol_param data s (p_title p) None None = Ok p.
Proof. exact (c96_params data s). Qed.
Print Assumptions C96_params.

Theorem C96_param data s name a vmin vmax : cols data <> 0%Z ->
  In (name, a) [("I", sI s); ("Q", sQ s); ("U", sU s); ("pB", pB s); ("AoLP", AoLP s); ("DoLP", DoLP s)]%string ->
  exists p, show_pol_param data s name (Some vmin) (Some vmax) = Ok p /\ p_image p = a /\
    p_vmin p = Some vmin /\ p_vmax p = Some vmax /\ p_title p = name.
Proof. exact (c96_param data s name a vmin vmax). Qed.
Print Assumptions C96_param.

Theorem C96_orientations data d ar : cols data <> 0%Z -> mosaic data -> describes d ar ->
  show_single_pol_images data d = Ok [(family_image data (p0 ar), 0%Z); (family_image data (p45 ar), 45%Z);
    (family_image data (p90 ar), 90%Z); (family_image data (pm45 ar), (-45)%Z)].
Proof. exact (c96_single data d ar). Qed.
Print Assumptions C96_orientations.

Example C96_case :
  mosaic (full 2 4 1) /\ cols (full 2 4 1) <> 0%Z /\ values (full 2 4 1) <> [] /\ values (full 0 3 1) = [] /\
  describes polarcam_angles (mkarrangement 0 1 2 3).
Proof.
  split; [repeat split; discriminate|]. split; [discriminate|]. split; [discriminate|]. split; [reflexivity|].
  split; [repeat split; cbn; lia|]. split; [|repeat split; cbn; auto].
  repeat constructor; cbn; intuition discriminate.
Qed.

(** ** C97: histograms *)
Theorem C97_total data bins range : (1 <= bins)%Z -> valid_range range ->
  exists counts edges, show_histogram data false bins range = Ok [(counts, edges)] /\
    counts_of (values data) counts edges /\ length counts = Z.to_nat bins /\
    ((range = None -> values data <> []) ->
     exists a b n, bin_ends (values data) range a b /\ equal_bins edges (Z.to_nat bins) a b /\
       count (inside a b) (values data) n /\ total_count counts = Z.of_nat n).
Proof. exact (c97_total data bins range). Qed.
Print Assumptions C97_total.

(** Without a range no pixel is left out. *)
Theorem C97_all_pixels data bins : (1 <= bins)%Z -> values data <> [] ->
  exists counts edges, show_histogram data false bins None = Ok [(counts, edges)] /\
    total_count counts = Z.of_nat (List.length (values data)).
Proof. exact (c97_all data bins). Qed.
Print Assumptions C97_all_pixels.

(** The families add up if a range is given. *)
Theorem C97_families_partial data bins a b : (1 <= bins)%Z -> a <= b -> mosaic data ->
  exists total n0 n1 n2 n3 edges,
    show_histogram data true bins (Some (a, b)) =
      Ok [(total, edges); (n0, edges); (n1, edges); (n2, edges); (n3, edges)] /\
    counts_of (values data) total edges /\
    counts_of (values (family_image data 0)) n0 edges /\ counts_of (values (family_image data 1)) n1 edges /\
    counts_of (values (family_image data 2)) n2 edges /\ counts_of (values (family_image data 3)) n3 edges /\
    forall i t, nth_error total i = Some t -> exists c0 c1 c2 c3,
      nth_error n0 i = Some c0 /\ nth_error n1 i = Some c1 /\ nth_error n2 i = Some c2 /\ nth_error n3 i = Some c3 /\
      t = (c0 + c1 + c2 + c3)%Z.
Proof. exact (c97_families data bins a b). Qed.
Print Assumptions C97_families_partial.

(** Without a range each family gets its own bins: here 2 + 2 pixels against 0 + 1 in each family. *)
Theorem C97_default_range_refuted : exists e e0 e1 e2 e3,
  show_histogram two_values true 2 None =
    Ok [([2; 2]%Z, e); ([0; 1]%Z, e0); ([0; 1]%Z, e1); ([0; 1]%Z, e2); ([0; 1]%Z, e3)] /\ e <> e0.
Proof. exact c97_default_differs. Qed.
Print Assumptions C97_default_range_refuted.

Theorem C97_odd data bins range : (1 <= bins)%Z -> valid_range range ->
  (rows data mod 2 <> 0 \/ cols data mod 2 <> 0)%Z ->
  show_histogram data true bins range = Raise ValueError.
Proof. exact (c97_odd data bins range). Qed.
Print Assumptions C97_odd.

Example C97_case : valid_range (Some (0, 2)) /\ mosaic two_values /\ values two_values <> [] /\
  count (inside 0 (1 / 2)) (values two_values) 2.
Proof.
  split; [cbn; lra|]. split; [repeat split; discriminate|]. split; [discriminate|].
  change (values two_values) with [0; 0; 1; 1]. unfold inside.
  apply count_yes; [lra|]. apply count_yes; [lra|]. apply count_no; [lra|]. apply count_no; [lra|]. constructor.
Qed.
