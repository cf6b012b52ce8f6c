(** Properties C55-C59, C62 and C72: images that share arrays and headers, along any history of
    calls. *)
From Coq Require Import Reals Lra.
From Verif Require Import Base.Base Base.Num Model.Demosaic Model.Stokes Model.ImageObj Spec.MosaicSpec
  Spec.StokesSpec Spec.ImageSpec Proofs.ObjViews Proofs.ObjMore Proofs.ObjWitness.

(** ** C55 *)
Theorem C55_images hist h i :
  reached hist h -> (i < length (images h))%nat ->
  exists v, view_of h i = Some v /\ mosaic (v_data v) /\
    v_height v = rows (v_data v) /\ v_width v = cols (v_data v).
Proof. exact (c55_views hist h i). Qed.
Print Assumptions C55_images.

Theorem C55_reflects hist h i v :
  reached hist h -> Forall (fun e => plain_call (snd e)) hist -> view_of h i = Some v ->
  v_demosaiced v = false /\ shows_its_data v.
Proof. exact (c55_reflects hist h i v). Qed.
Print Assumptions C55_reflects.

(** A 4 x 4 image of cells [f]; a rotation by half a turn (in any direction and angle), a filter
    that gives zeros, a resize that gives zeros. *)
Definition square (f : Z -> Z -> R) : arr R := mkarr 4 4 f.
Definition world : outside :=
  mkoutside (fun _ _ => 7%R) (fun _ _ _ => 0%R)
    (fun _ a => Ok (mkarr (rows a) (cols a) (fun y x => cell a (rows a - 1 - y) (cols a - 1 - x))))
    (fun _ y x => Ok (mkarr y x (fun _ _ => 0%R))) 100%nat.
Definition corner (y x : Z) : R := if (y =? 0) && (x =? 0) then 1%R else 0%R.
Definition after (calls : list op) : history := map (fun c => (world, c)) calls.
Definition state (calls : list op) : heap := run_history (after calls) empty_heap.

(** Three images: two made, a difference, which is then shifted and binned. *)
Example C55_case :
  let calls := [Create (square corner) None None None; Create (square (fun _ _ => 1%R)) None None None;
                WithImage Sub 1 0; SubtractDark 2 0; Shift 2 1 0 0%R; Rebin 3 2] in
  arrays_exist (after calls) /\ Forall (fun e => plain_call (snd e)) (after calls) /\
  length (images (state calls)) = 5%nat /\
  exists v, view_of (state calls) 4 = Some v /\ rows (v_data v) = 2%Z.
Proof.
  cbv zeta. split; [|split; [|split]].
  - unfold arrays_exist, after. cbn. repeat constructor; cbn; lia.
  - unfold after. cbn. repeat constructor.
  - vm_compute. reflexivity.
  - apply shown. vm_compute. reflexivity.
Qed.

(** ** C56.  Full statement: every method that returns a new image leaves the data, Stokes
    vector, header, flags and dictionary of every existing image as they were.  It holds for
    demodulation, shifts, cleaning, arithmetic and copies when the header of the image still has
    the size of its data (its size is written there again); binning and congrid change headers,
    rotation changes Stokes vectors. *)
Theorem C56_unchanged_partial hist h W c i j u v h' r :
  reached hist h -> new_from c = Some i -> view_of h i = Some u -> view_of h j = Some v ->
  (match c with Rotate _ _ | Rebin _ _ | Congrid _ _ _ => False | _ => True end) ->
  (match c with WithNumber _ _ _ => True | _ => header_fits u end) -> size_kept h c ->
  exec W c h = (h', r) -> view_of h' j = Some v.
Proof. exact (c56_exec hist h W c i j u v h' r). Qed.
Print Assumptions C56_unchanged_partial.

(** Plain copies, arithmetic with a number and demodulation, whatever the headers. *)
Theorem C56_untouched_partial hist h W c j v h' r :
  reached hist h ->
  (match c with CopyOf _ _ None None | WithNumber _ _ _ | Demodulate _ _ _ => True | _ => False end) ->
  view_of h j = Some v -> exec W c h = (h', r) -> view_of h' j = Some v.
Proof. exact (c56_untouched hist h W c j v h' r). Qed.
Print Assumptions C56_untouched_partial.

Theorem C56_resize_partial hist h W c j v h' r :
  reached hist h -> (match c with Rebin _ _ | Congrid _ _ _ => True | _ => False end) -> view_of h j = Some v ->
  exec W c h = (h', r) ->
  exists hd, view_of h' j = Some (mkview (v_data v) (v_height v) (v_width v) hd (v_vector v) (v_quad v) (v_dic v)
    (v_demosaiced v) (v_demodulated v) (v_dark v) (v_flat v)).
Proof. exact (c56_resize_exec hist h W c j v h' r). Qed.
Print Assumptions C56_resize_partial.

(** Binning writes the size of the new image into the header of the old one. *)
Theorem C56_rebin_refuted hist h W i b v h' k :
  reached hist h -> view_of h i = Some v -> exec W (Rebin i b) h = (h', Ok (Some k)) ->
  exists u n, view_of h' i = Some u /\ view_of h' k = Some n /\
    v_data u = v_data v /\ v_vector u = v_vector v /\
    rows (v_data n) = 2 * (rows (v_data v) / (2 * b)) /\ cols (v_data n) = 2 * (cols (v_data v) / (2 * b)) /\
    v_header u = v_header n /\ header_fits n.
Proof. exact (c56_rebin_header hist h W i b v h' k). Qed.
Print Assumptions C56_rebin_refuted.

(** Rotation turns the Stokes vector of the image it is called on. *)
Theorem C56_rotate_refuted hist h W i angle v h' k :
  reached hist h -> view_of h i = Some v -> exec W (Rotate i angle) h = (h', Ok (Some k)) ->
  exists u, view_of h' i = Some u /\ v_data u = v_data v /\
    turn W angle (sI (v_vector v)) = Ok (sI (v_vector u)) /\
    turn W angle (sQ (v_vector v)) = Ok (sQ (v_vector u)) /\
    turn W angle (sU (v_vector v)) = Ok (sU (v_vector u)).
Proof. exact (c56_rotate hist h W i angle v h' k). Qed.
Print Assumptions C56_rotate_refuted.

(** The same image before, after binning by 2, after a rotation. *)
Example C56_case :
  let made := [Create (square corner) None None None] in
  arrays_exist (after made) /\
  (exists v, view_of (state made) 0 = Some v /\
     (v_header v = mkheader 4 4 /\ cell (sQ (v_vector v)) 0 0 = 1 - 0)%R) /\
  snd (exec world (Shift 0 1 0 0%R) (state made)) = Ok (Some 1%nat) /\
  snd (exec world (Rebin 0 2) (state made)) = Ok (Some 1%nat) /\
  (exists u, view_of (state (made ++ [Rebin 0 2])) 0 = Some u /\ v_header u = mkheader 2 2 /\ rows (v_data u) = 4) /\
  snd (exec world (Rotate 0 180) (state made)) = Ok (Some 1%nat) /\
  (exists u, view_of (state (made ++ [Rotate 0 180])) 0 = Some u /\ (cell (sQ (v_vector u)) 0 0 = 0 - 0)%R).
Proof.
  cbv zeta. split; [unfold arrays_exist, after; cbn; repeat constructor; cbn; lia|].
  split; [apply shown; vm_compute; split; reflexivity|]. split; [vm_compute; reflexivity|].
  split; [vm_compute; reflexivity|]. split; [apply shown; vm_compute; split; reflexivity|].
  split; [vm_compute; reflexivity|]. apply shown; vm_compute; reflexivity.
Qed.

(** ** C57.  Full statement: in every reachable state.  It holds as long as no image is resized
    (or cleaned with a hot-pixel map of another size). *)
Theorem C57_header_partial hist h i v :
  reached hist h -> sizes_kept hist empty_heap -> view_of h i = Some v -> header_fits v.
Proof. exact (c57_fits hist h i v). Qed.
Print Assumptions C57_header_partial.

Theorem C57_rebin_refuted hist h W i b v h' k :
  reached hist h -> view_of h i = Some v -> 0 < rows (v_data v) -> 2 <= b ->
  exec W (Rebin i b) h = (h', Ok (Some k)) ->
  exists u, view_of h' i = Some u /\ v_data u = v_data v /\ ~ header_fits u.
Proof. exact (c57_rebin hist h W i b v h' k). Qed.
Print Assumptions C57_rebin_refuted.

Example C57_case :
  let calls := [Create (square corner) None None None; Create (square corner) None None None;
                WithImage Mul 0 1; Rotate 2 90; DemosaicImage 0 "adjacent"] in
  arrays_exist (after calls) /\ sizes_kept (after calls) empty_heap /\ length (images (state calls)) = 4%nat.
Proof.
  cbv zeta. split; [unfold arrays_exist, after; cbn; repeat constructor; cbn; lia|].
  split; [vm_compute; auto 10|vm_compute; reflexivity].
Qed.

(** ** C58.  Full statement: corrections of a demosaiced image update the Stokes vector according
    to the new data.  They do not: the vector is computed again from the images demosaiced before,
    whatever the new data are.  Demosaicing again brings it up to date. *)
Theorem C58_stale_refuted hist h i v :
  reached hist h -> view_of h i = Some v -> v_demosaiced v = true ->
  exists q S, v_quad v = Some q /\ theo_stokes (v_dic v) q = Ok S /\
    forall W c h' k u, corrects c i -> exec W c h = (h', Ok (Some k)) -> view_of h' k = Some u ->
      v_vector u = S /\ v_quad u = Some q /\ v_demosaiced u = true.
Proof. exact (c58_stale hist h i v). Qed.
Print Assumptions C58_stale_refuted.

Theorem C58_demosaic_again_partial hist h i v W :
  reached hist h -> view_of h i = Some v ->
  exists h' u, exec W (DemosaicImage i "adjacent") h = (h', Ok (Some i)) /\ view_of h' i = Some u /\
    v_data u = v_data v /\ v_demosaiced u = true /\
    forall a, describes (v_dic v) a ->
      let s k := interpolated (v_data v) k in
      stokes_is (v_vector u) (rows (v_data v)) (cols (v_data v))
        (fun y x => (s 0%Z y x + s 1%Z y x + s 2%Z y x + s 3%Z y x) / 2)%R
        (fun y x => s (p0 a) y x - s (p90 a) y x)%R
        (fun y x => s (p45 a) y x - s (pm45 a) y x)%R.
Proof. exact (c58_demosaic_again hist h i v W). Qed.
Print Assumptions C58_demosaic_again_partial.

(** An image minus itself: no light is left, the Stokes vector still has it. *)
Example C58_case :
  let calls := [Create (square (fun _ _ => 1%R)) None None None; DemosaicImage 0 "adjacent"; SubtractDark 0 0] in
  arrays_exist (after calls) /\
  exists u, view_of (state calls) 0 = Some u /\
    (cell (v_data u) 1 1 = 0 /\ cell (sI (v_vector u)) 1 1 = 2)%R.
Proof.
  cbv zeta. split; [unfold arrays_exist, after; cbn; repeat constructor; cbn; lia|]. apply shown. cbv -[Rleb Rplus Rminus Rmult Rdiv IZR Rle_dec]. split.
  - unfold Rleb. destruct (Rle_dec 0 (1 - 1)); lra.
  - lra.
Qed.

(** ** C59 *)
Theorem C59_created hist h W d dic dark flat h' k :
  reached hist h -> wf d -> exec W (Create d dic dark flat) h = (h', Ok (Some k)) ->
  view_of h k = None /\
  exists u, view_of h' k = Some u /\
    v_dic u = match dic with Some a => a | None => last_default hist [(0, 0); (45, 1); (-45, 2); (90, 3)] end.
Proof. exact (c59_created hist h W d dic dark flat h' k). Qed.
Print Assumptions C59_created.

(** The dictionary used is the default from then on. *)
Theorem C59_remembered hist h W d dark flat h' k :
  reached hist h -> exec W (Create d None dark flat) h = (h', Ok k) ->
  default_angles h' = Some (last_default hist [(0, 0); (45, 1); (-45, 2); (90, 3)]).
Proof. exact (c59_remembered hist h W d dark flat h' k). Qed.
Print Assumptions C59_remembered.

Theorem C59_stays hist h rest i v :
  reached hist h -> arrays_exist rest -> view_of h i = Some v ->
  exists u, view_of (run_history rest h) i = Some u /\ v_dic u = v_dic v.
Proof. exact (c59_stays hist h rest i v). Qed.
Print Assumptions C59_stays.

Theorem C59_inherited hist h W c i v h' k :
  reached hist h -> new_from c = Some i -> view_of h i = Some v -> exec W c h = (h', Ok (Some k)) ->
  view_of h k = None /\ exists u, view_of h' k = Some u /\ v_dic u = v_dic v.
Proof. exact (c59_derived hist h W c i v h' k). Qed.
Print Assumptions C59_inherited.

(** Made before and after another default is set; a copy of the first made after it. *)
Example C59_case :
  let d := [(0, 1); (45, 0); (-45, 3); (90, 2)] in
  let calls := [Create (square corner) None None None; SetDefault d; Create (square corner) None None None;
                WithNumber Add 0 1%R] in
  arrays_exist (after calls) /\ last_default (after calls) [(0, 0); (45, 1); (-45, 2); (90, 3)] = d /\
  (exists u, view_of (state calls) 0 = Some u /\ v_dic u = [(0, 0); (45, 1); (-45, 2); (90, 3)]) /\
  (exists u, view_of (state calls) 1 = Some u /\ v_dic u = d) /\
  (exists u, view_of (state calls) 2 = Some u /\ v_dic u = [(0, 0); (45, 1); (-45, 2); (90, 3)]).
Proof.
  cbv zeta. split; [unfold arrays_exist, after; cbn; repeat constructor; cbn; lia|].
  split; [reflexivity|]. repeat split; apply shown; vm_compute; reflexivity.
Qed.

(** ** C62.  Full statement: a copy made with an explicit dictionary uses it.  It is ignored: the
    copy shows exactly what the source shows. *)
Theorem C62_ignored_refuted W h i v dic :
  view_of h i = Some v ->
  exists h' k, exec W (CopyOf i dic None None) h = (h', Ok (Some k)) /\ view_of h' k = Some v.
Proof. exact (c62_ignored W h i v dic). Qed.
Print Assumptions C62_ignored_refuted.

Example C62_case :
  let d := [(0, 1); (45, 0); (-45, 3); (90, 2)] in
  let calls := [Create (square corner) None None None; CopyOf 0 (Some d) None None] in
  (exists u, view_of (state calls) 1 = Some u /\ v_dic u = [(0, 0); (45, 1); (-45, 2); (90, 3)]).
Proof. cbv zeta. apply shown; vm_compute; reflexivity. Qed.

(** ** C72 *)
Theorem C72_flagged_only hist h W i m v w :
  reached hist h -> view_of h i = Some v -> view_of h m = Some w -> same_shape (v_data w) (v_data v) ->
  exists h' k u, exec W (CleanHot i m) h = (h', Ok (Some k)) /\ view_of h' k = Some u /\
    rows (v_data u) = rows (v_data v) /\ cols (v_data u) = cols (v_data v) /\
    forall y x, 0 <= y < rows (v_data v) -> 0 <= x < cols (v_data v) ->
      (cell (v_data w) y x = 1%R ->
         cell (v_data u) y x = median W (family_image (v_data v) (family y x)) (y / 2) (x / 2)) /\
      (cell (v_data w) y x <> 1%R -> cell (v_data u) y x = cell (v_data v) y x).
Proof. exact (c72_clean hist h W i m v w). Qed.
Print Assumptions C72_flagged_only.

(** One flagged pixel in an image of nines. *)
Example C72_case :
  let calls := [Create (square (fun _ _ => 9%R)) None None None; Create (square corner) None None None] in
  arrays_exist (after calls) /\
  (exists v, view_of (state calls) 0 = Some v /\ cell (v_data v) 0 0 = 9%R) /\
  (exists w, view_of (state calls) 1 = Some w /\ rows (v_data w) = 4 /\
     (cell (v_data w) 0 0 = 1 /\ cell (v_data w) 2 3 = 0)%R).
Proof.
  cbv zeta. split; [unfold arrays_exist, after; cbn; repeat constructor; cbn; lia|].
  split; apply shown; vm_compute; repeat split.
Qed.
