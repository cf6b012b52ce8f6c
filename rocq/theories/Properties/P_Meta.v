(** C109, C110: header keywords and file names of derived images. *)
From Coq Require Import Reals String.
From Verif Require Import Base.Base Model.Keywords Model.FileInit Model.Meta Spec.KeywordSpec Spec.MetaSpec
  Proofs.MetaFacts.

(** A file with an exposure time, loaded as MicropolImage (0) and as Image (1). *)
Definition exposure_file : loaded R :=
  mkloaded (mkarr 4 4 (fun _ _ => 1%R)) [("NAXIS1", HInt 4); ("NAXIS2", HInt 4); ("EXPTIME", HInt 30)]%string "flat.fits".
Definition two_loaded : world := run_commands start [FromFile MicropolImage exposure_file; FromFile Image exposure_file].

(** An image made from a MicropolImage has its keywords, and keeps them whatever is done with other images
    as long as no keyword is written by hand. *)
Theorem C109_keywords_kept : forall w c i w' cs,
  can_be w -> class_of w i = Some MicropolImage -> derives c i -> run_command w c = Ok w' ->
  Forall (fun c => ~ writes_keyword c) cs ->
  exists hd hd', header_of w i = Some hd /\ header_of (run_commands w' cs) (newest w') = Some hd' /\
    same_keywords hd hd'.
Proof. exact c109_kept. Qed.
Print Assumptions C109_keywords_kept.

Example C109_case :
  can_be two_loaded /\ class_of two_loaded 0 = Some MicropolImage /\ class_of two_loaded 1 = Some Image /\
  exists w' hd, run_command two_loaded (Make Rebinning 0 (2, 2)) = Ok w' /\ newest w' = 2%nat /\
    header_of w' 2 = Some hd /\ keyword hd "EXPTIME" (HInt 30) /\ keyword hd "NAXIS1" (HInt 2).
Proof.
  repeat apply conj; try reflexivity.
  - eexists; reflexivity.
  - do 2 eexists. repeat apply conj; try reflexivity.
    + apply kw_later; [discriminate|]. apply kw_later; [discriminate|]. apply kw_here.
    + apply kw_here.
Qed.

(** Constructors and rebinning keep the file name of an Image. *)
Theorem C109_image_names : forall w c i w',
  can_be w -> class_of w i = Some Image -> run_command w c = Ok w' ->
  ((exists cl size, c = FromObject cl i size) \/ (exists size, c = Make Rebinning i size)) ->
  name_of w' (newest w') = name_of w i /\ name_of w i <> None.
Proof. exact c109_image_names. Qed.
Print Assumptions C109_image_names.

Example C109_names_case :
  exists w', run_command two_loaded (FromObject MicropolImage 1 (4, 4)) = Ok w' /\
    name_of w' (newest w') = Some "flat.fits"%string.
Proof. eexists. split; reflexivity. Qed.

(** But no image made from an Image has any of its keywords (constructors, shift, rebin, arithmetic). *)
Theorem C109_image_refuted : forall w c i w',
  can_be w -> class_of w i = Some Image -> from_image c i -> run_command w c = Ok w' ->
  exists hd, header_of w' (newest w') = Some hd /\ no_keywords hd.
Proof. exact c109_image_loses. Qed.
Print Assumptions C109_image_refuted.

Example C109_image_case :
  exists hd, header_of two_loaded 1 = Some hd /\ keyword hd "EXPTIME" (HInt 30) /\
    exists w', run_command two_loaded (Make Shifting 1 (4, 4)) = Ok w'.
Proof.
  eexists. split; [reflexivity|]. split.
  - apply kw_later; [discriminate|]. apply kw_later; [discriminate|]. apply kw_here.
  - eexists. reflexivity.
Qed.

(** And no image made from a MicropolImage has its file name. *)
Theorem C109_names_refuted : forall w c i w',
  can_be w -> class_of w i = Some MicropolImage -> derives c i -> run_command w c = Ok w' ->
  name_of w' (newest w') = None \/ name_of w' (newest w') = Some "image.fits"%string.
Proof. exact c109_unnamed. Qed.
Print Assumptions C109_names_refuted.

Example C109_unnamed_case :
  name_of two_loaded 0 = Some "flat.fits"%string /\
  exists w', run_command two_loaded (Make Shifting 0 (4, 4)) = Ok w' /\ name_of w' (newest w') = None.
Proof. split; [reflexivity|]. eexists. split; reflexivity. Qed.

(** Shifting an Image and arithmetic with it give an image named image.fits. *)
Theorem C109_renamed_refuted : forall w m i size w',
  class_of w i = Some Image -> In m [Shifting; WithSameClass; WithValue] -> run_command w (Make m i size) = Ok w' ->
  name_of w' (newest w') = Some "image.fits"%string.
Proof. exact c109_renamed. Qed.
Print Assumptions C109_renamed_refuted.

Example C109_renamed_case :
  name_of two_loaded 1 = Some "flat.fits"%string /\ exists w', run_command two_loaded (Make Shifting 1 (4, 4)) = Ok w'.
Proof. split; [reflexivity|]. eexists. reflexivity. Qed.

(** The sizes in the header of a new image are those of its data: NAXIS1 columns and NAXIS2 rows. *)
Theorem C109_sizes : forall w c w' size,
  can_be w -> sets_size w c size -> run_command w c = Ok w' ->
  exists hd, header_of w' (newest w') = Some hd /\
    keyword hd "NAXIS1" (HInt (snd size)) /\ keyword hd "NAXIS2" (HInt (fst size)).
Proof. exact c109_sizes. Qed.
Print Assumptions C109_sizes.

(** So are those of an image whose data have been rotated in place. *)
Theorem C109_in_place_sizes : forall w i size w',
  can_be w -> run_command w (InPlace i size) = Ok w' ->
  exists hd, header_of w' i = Some hd /\
    keyword hd "NAXIS1" (HInt (snd size)) /\ keyword hd "NAXIS2" (HInt (fst size)).
Proof. exact c109_in_place. Qed.
Print Assumptions C109_in_place_sizes.

Example C109_sizes_case :
  sets_size two_loaded (Make Rebinning 0 (2, 1)) (2, 1) /\
  (exists w', run_command two_loaded (Make Rebinning 0 (2, 1)) = Ok w') /\
  exists w', run_command two_loaded (InPlace 0 (4, 2)) = Ok w'.
Proof.
  split; [|split; eexists; reflexivity].
  right; left. exists Rebinning, 0%nat. split; [reflexivity|]. split; [discriminate|]. intros H; discriminate.
Qed.

(** Writing a keyword of an image leaves the headers of all others alone if one of the two is an Image. *)
Theorem C110_own_header : forall w i j k v w',
  can_be w -> i <> j -> class_of w i = Some Image \/ class_of w j = Some Image ->
  run_command w (Write i k v) = Ok w' -> header_of w' j = header_of w j.
Proof. exact c110_own. Qed.
Print Assumptions C110_own_header.

Example C110_case :
  exists w', run_command two_loaded (Write 1 "EXPTIME" (HInt 60)) = Ok w' /\
    header_of w' 0 = header_of two_loaded 0 /\ header_of w' 1 <> header_of two_loaded 1.
Proof. eexists. repeat apply conj; [reflexivity|reflexivity|]. cbv. discriminate. Qed.

(** A MicropolImage and all images made from it have one header in common for ever. *)
Theorem C110_shared_refuted : forall w c i w' cs,
  can_be w -> class_of w i = Some MicropolImage -> derives c i -> run_command w c = Ok w' ->
  newest w' <> i /\ header_of (run_commands w' cs) (newest w') = header_of (run_commands w' cs) i /\
  header_of (run_commands w' cs) i <> None.
Proof. exact c110_shared. Qed.
Print Assumptions C110_shared_refuted.

(** So a keyword written into the one appears in the other. *)
Theorem C110_written_refuted : forall w c i w' k v,
  can_be w -> class_of w i = Some MicropolImage -> derives c i -> run_command w c = Ok w' ->
  exists w'' hd, run_command w' (Write (newest w') k v) = Ok w'' /\ header_of w'' i = Some hd /\ keyword hd k v.
Proof. exact c110_written. Qed.
Print Assumptions C110_written_refuted.

(** Halving an image and marking the copy as half the exposure marks the original. *)
Example C110_written_case :
  exists w' w'' hd, run_command two_loaded (Make WithValue 0 (4, 4)) = Ok w' /\
    run_command w' (Write 2 "EXPTIME" (HInt 15)) = Ok w'' /\
    header_of w'' 0 = Some hd /\ keyword hd "EXPTIME" (HInt 15).
Proof.
  do 3 eexists. repeat apply conj; try reflexivity.
  apply kw_later; [discriminate|]. apply kw_later; [discriminate|]. apply kw_here.
Qed.
