(** Property C139: saving an image and loading it again. *)
From Coq Require Import String Ascii Reals Lia Lra.
From Verif Require Import Base.Base Base.Num Model.Paths Model.Codec Model.Fs Model.Save Model.Keywords Model.FileInit
  Model.Demosaic Model.Stokes Model.ImageObj Model.Reload
  Spec.MosaicSpec Spec.StokesSpec Spec.ImageSpec Spec.FsSpec Spec.DirSpec Spec.FilesSpec Spec.ReloadSpec
  Proofs.ObjWitness Proofs.ReloadFacts.
Local Open Scope string_scope.
Local Open Scope Z_scope.

(** Full statement: MicropolImage(name) after image.save_as_fits(name) is an image with the pixels, sizes, polarization
    parameters, orientations and flags of the saved one.  It holds, flags aside, for images whose Stokes vector is that
    of their pixels, if the orientations are given again or are the default ones. *)
Theorem C139_again_partial cwd fits parse head iso ant show time hist h i v d stem s W (avg : bool) dic a :
  is_abs cwd = true -> reads_back fits parse head -> (forall t, dated (disk_reader cwd parse iso ant show t) head time) ->
  reached hist h -> view_of h i = Some v -> 0 < rows (v_data v) -> 0 < cols (v_data v) -> storable (v_data v) ->
  dir_part d -> no_char "/" stem -> stem <> "" -> writable cwd (d ++ stem ++ ".fits") s ->
  dic = Some (v_dic v) \/ dic = None /\ v_dic v = last_default hist polarcam_angles ->
  describes (v_dic v) a -> shows_its_data v ->
  let name := d ++ stem ++ ".fits" in
  let m := save_as_fits cwd fits name None (v_data v) in
  outcome m s = Ok tt /\
  exists h' k u, micropol_from_name W (disk_reader cwd parse iso ant show (after m s)) name avg dic None None h = (h', Ok (Some k)) /\
    view_of h k = None /\ view_of h' k = Some u /\ v_data u =a= v_data v /\ same_stokes (v_vector u) (v_vector v) /\ v_dic u = v_dic v /\
    v_height u = v_height v /\ v_width u = v_width v /\ header_fits u /\
    forall j w, view_of h j = Some w -> view_of h' j = Some w.
Proof. exact (fun Hc Hb Ht => c139_again cwd Hc fits parse head Hb iso ant show time Ht hist h i v d stem s W avg dic a). Qed.
Print Assumptions C139_again_partial.

(** With a dark or a flat the file is like its pixels given as an array (C59, C60, C61). *)
Theorem C139_corrected cwd fits parse head iso ant show time hist h i v d stem s W (avg : bool) dic :
  is_abs cwd = true -> reads_back fits parse head -> (forall t, dated (disk_reader cwd parse iso ant show t) head time) ->
  reached hist h -> view_of h i = Some v -> 0 < rows (v_data v) -> 0 < cols (v_data v) -> storable (v_data v) ->
  dir_part d -> no_char "/" stem -> stem <> "" -> writable cwd (d ++ stem ++ ".fits") s ->
  let name := d ++ stem ++ ".fits" in
  let m := save_as_fits cwd fits name None (v_data v) in
  exists data, data =a= v_data v /\
    forall dark flat, micropol_from_name W (disk_reader cwd parse iso ant show (after m s)) name avg dic dark flat h = create W data dic dark flat h.
Proof. exact (fun Hc Hb Ht => c139_corrected cwd Hc fits parse head Hb iso ant show time Ht hist h i v d stem s W avg dic). Qed.
Print Assumptions C139_corrected.

(** Any other Stokes vector (demodulated, demosaiced, masked, rotated images) is lost: the pixels come back, it does not. *)
Theorem C139_vector_refuted cwd fits parse head iso ant show time hist h i v d stem s W (avg : bool) a :
  is_abs cwd = true -> reads_back fits parse head -> (forall t, dated (disk_reader cwd parse iso ant show t) head time) ->
  reached hist h -> view_of h i = Some v -> 0 < rows (v_data v) -> 0 < cols (v_data v) -> storable (v_data v) ->
  dir_part d -> no_char "/" stem -> stem <> "" -> writable cwd (d ++ stem ++ ".fits") s ->
  describes (v_dic v) a -> ~ shows_its_data v ->
  let name := d ++ stem ++ ".fits" in
  let m := save_as_fits cwd fits name None (v_data v) in
  outcome m s = Ok tt /\
  exists h' k u, micropol_from_name W (disk_reader cwd parse iso ant show (after m s)) name avg (Some (v_dic v)) None None h = (h', Ok (Some k)) /\
    view_of h' k = Some u /\ v_data u =a= v_data v /\ ~ same_stokes (v_vector u) (v_vector v).
Proof. exact (fun Hc Hb Ht => c139_lost cwd Hc fits parse head Hb iso ant show time Ht hist h i v d stem s W avg a). Qed.
Print Assumptions C139_vector_refuted.

(** So are the flags, whatever they were. *)
Theorem C139_flags_refuted cwd fits parse head iso ant show time hist h i v d stem s W (avg : bool) dic a :
  is_abs cwd = true -> reads_back fits parse head -> (forall t, dated (disk_reader cwd parse iso ant show t) head time) ->
  reached hist h -> view_of h i = Some v -> 0 < rows (v_data v) -> 0 < cols (v_data v) -> storable (v_data v) ->
  dir_part d -> no_char "/" stem -> stem <> "" -> writable cwd (d ++ stem ++ ".fits") s ->
  describes (match dic with Some x => x | None => last_default hist polarcam_angles end) a ->
  let name := d ++ stem ++ ".fits" in
  let m := save_as_fits cwd fits name None (v_data v) in
  exists h' k u, micropol_from_name W (disk_reader cwd parse iso ant show (after m s)) name avg dic None None h = (h', Ok (Some k)) /\
    view_of h' k = Some u /\ v_quad u = None /\
    v_demosaiced u = false /\ v_demodulated u = false /\ v_dark u = false /\ v_flat u = false.
Proof. exact (fun Hc Hb Ht => c139_forgotten cwd Hc fits parse head Hb iso ant show time Ht hist h i v d stem s W avg dic a). Qed.
Print Assumptions C139_flags_refuted.

(** The orientations are not in the file: with 0 and 90 degrees the other way round in the default, Q changes sign. *)
Theorem C139_angles_refuted cwd fits parse head iso ant show time hist h i v d stem s W (avg : bool) a :
  is_abs cwd = true -> reads_back fits parse head -> (forall t, dated (disk_reader cwd parse iso ant show t) head time) ->
  reached hist h -> view_of h i = Some v -> 0 < rows (v_data v) -> 0 < cols (v_data v) -> storable (v_data v) ->
  dir_part d -> no_char "/" stem -> stem <> "" -> writable cwd (d ++ stem ++ ".fits") s ->
  describes (v_dic v) a -> shows_its_data v ->
  describes (last_default hist polarcam_angles) (mkarrangement (p90 a) (p45 a) (pm45 a) (p0 a)) ->
  let name := d ++ stem ++ ".fits" in
  let m := save_as_fits cwd fits name None (v_data v) in
  exists h' k u, micropol_from_name W (disk_reader cwd parse iso ant show (after m s)) name avg None None None h = (h', Ok (Some k)) /\
    view_of h' k = Some u /\ v_data u =a= v_data v /\
    forall Y X, 0 <= Y < rows (v_data v) / 2 -> 0 <= X < cols (v_data v) / 2 ->
      cell (sQ (v_vector u)) Y X = (- cell (sQ (v_vector v)) Y X)%R.
Proof. exact (fun Hc Hb Ht => c139_angles cwd Hc fits parse head Hb iso ant show time Ht hist h i v d stem s W avg a). Qed.
Print Assumptions C139_angles_refuted.

(** A missing file is an error that changes no image. *)
Theorem C139_absent cwd parse iso ant show s name W (avg : bool) dic dark flat h : name <> ".raw" -> s (key cwd name) = None ->
  exists h', micropol_from_name W (disk_reader cwd parse iso ant show s) name avg dic dark flat h = (h', Raise FileNotFoundError) /\
    images h' = images h /\ forall j, view_of h' j = view_of h j.
Proof. exact (c139_absent cwd parse iso ant show s name W avg dic dark flat h). Qed.
Print Assumptions C139_absent.

(** A file format and a disk; three images, the second with its own orientations, the third demosaiced. *)
Definition empty_disk : fs := fun p => if String.eqb p "/" || String.eqb p "/data" then Some Dir else None.
Definition crossed : angle_dic := [(90, 0); (45, 1); (-45, 2); (0, 3)].
Definition three : history := after_calls [Create (ones 4 2) None None None; Create (ones 2 2) (Some crossed) None None;
  Create (ones 4 4) None None None; DemosaicImage 2 "adjacent"].
Example C139_case :
  reads_back grid_write grid_read [] /\
  (forall t, dated (disk_reader "/data" grid_read (fun _ => None) (fun _ => None) (fun _ => "") t) [] None) /\
  writable "/data" ("" ++ "x" ++ ".fits") empty_disk /\ storable (ones 4 4) /\
  reached three (run_history three empty_heap) /\
  (exists v, view_of (run_history three empty_heap) 0 = Some v /\ v_data v = ones 4 2 /\ v_dic v = last_default three polarcam_angles /\ shows_its_data v) /\
  (exists v, view_of (run_history three empty_heap) 1 = Some v /\ v_data v = ones 2 2 /\ shows_its_data v /\
     describes (v_dic v) (mkarrangement 3 1 2 0) /\ describes (last_default three polarcam_angles) (mkarrangement 0 1 2 3)) /\
  (exists v, view_of (run_history three empty_heap) 2 = Some v /\ v_data v = ones 4 4 /\ v_demosaiced v = true /\ ~ shows_its_data v).
Proof.
  split; [exact grid_back|]. split; [intros t; apply no_date; intros v C; inversion C|]. split; [|split; [|split]].
  - assert (W2 : forall q, on_the_way (ppath_of "/data") q -> q = ppath_of "/" \/ q = ppath_of "/data").
    { intros q (n & ->). change (proot (ppath_of "/data")) with "/". change (pparts (ppath_of "/data")) with ["data"].
      destruct n as [|n]; [left; reflexivity|right]. rewrite firstn_all2 by (cbn; lia). reflexivity. }
    unfold writable. change (pparent (meant "/data" ("" ++ "x" ++ ".fits"))) with (ppath_of "/data").
    split; [|split; [reflexivity|split; [|discriminate]]]; intros q Hq; destruct (W2 q Hq) as [->| ->]; unfold no_file, found;
      [right; reflexivity|right; reflexivity|discriminate|discriminate].
  - intros y x _ _. exists 1, 0. split; [reflexivity|]. split; [lia|]. cbn. lra.
  - split; [|reflexivity]. unfold arrays_exist, three, after_calls. cbn. repeat constructor; cbn; lia.
  - assert (P : forall i v, (i < 2)%nat -> view_of (run_history three empty_heap) i = Some v -> shows_its_data v).
    { intros i v Hi Ev.
      assert (Ev' : view_of (run_history (firstn 3 three) empty_heap) i = Some v).
      { destruct i as [|[|i]]; [|(exact Ev || (rewrite <- Ev; vm_compute; reflexivity))|lia]; rewrite <- Ev; vm_compute; reflexivity. }
      refine (proj2 (ObjViews.c55_reflects (firstn 3 three) _ i v _ _ Ev')).
      - split; [|reflexivity]. unfold arrays_exist, three, after_calls. cbn. repeat constructor; cbn; lia.
      - cbn. repeat constructor. }
    split; [|split].
    + eexists. split; [vm_compute; reflexivity|]. split; [reflexivity|]. split; [reflexivity|]. apply (P 0%nat); [lia|vm_compute; reflexivity].
    + eexists. split; [vm_compute; reflexivity|]. split; [reflexivity|]. split; [apply (P 1%nat); [lia|vm_compute; reflexivity]|].
      split; (split; [repeat split; cbn; lia|split; [repeat constructor; cbn; intuition discriminate|cbn; intuition]]).
    + assert (D : describes polarcam_angles (mkarrangement 0 1 2 3))
        by (split; [repeat split; cbn; lia|split; [repeat constructor; cbn; intuition discriminate|cbn; intuition]]).
      eexists. split; [vm_compute; reflexivity|]. split; [reflexivity|]. split; [reflexivity|]. intros (_ & C).
      specialize (C (mkarrangement 0 1 2 3) D). destruct C as ((C & _) & _). discriminate C.
Qed.
