(** Properties C48-C50, C54, C76: file conversion and saving. *)
From Coq Require Import String Ascii Reals Lra Lia Permutation.
From Verif Require Import Base.Base Model.Paths Model.Codec Model.Fs
  Spec.CodecSpec Spec.FsSpec Spec.Terminates Proofs.PathFacts Proofs.FsFacts Proofs.FsProps
  Proofs.FsMerge Proofs.FsSave Proofs.FsSet.
Local Open Scope string_scope.
Local Open Scope list_scope.
Local Open Scope Z_scope.

(** ** C48 *)
(** Interrupted anywhere: the raw file is as before, or the complete fits file exists; no third
    file is touched. *)
Theorem C48_crash (cwd : string) (fits_u2 : list (list Z) -> bytes) filename h w remove_old s s' :
  is_abs cwd = true -> ends_with ".raw" filename ->
  crash (convert_rawfile_to_fits cwd fits_u2 filename h w remove_old) s s' ->
  exists new, new <> key cwd filename /\
    (forall p, p <> key cwd filename -> p <> new -> s' p = s p) /\
    (s' (key cwd filename) = s (key cwd filename) \/
     exists content img, s (key cwd filename) = Some (File content) /\
       le16_image h w content img /\ s' new = Some (File (fits_u2 (to_list img)))).
Proof. intros H. exact (c48_crash cwd H fits_u2 filename h w remove_old s s'). Qed.
Print Assumptions C48_crash.

Theorem C48_bad_input (cwd : string) (fits_u2 : list (list Z) -> bytes) filename h w remove_old s :
  is_abs cwd = true ->
  (forall content, s (key cwd filename) = Some (File content) ->
     0 <= h -> 0 <= w -> Z.of_nat (length content) < 2 * (h * w)) ->
  fails_cleanly (convert_rawfile_to_fits cwd fits_u2 filename h w remove_old) s.
Proof. intros H. exact (c48_bad_input cwd H fits_u2 filename h w remove_old s). Qed.
Print Assumptions C48_bad_input.

Theorem C48_done (cwd : string) (fits_u2 : list (list Z) -> bytes) filename h w remove_old s :
  is_abs cwd = true -> ends_with ".raw" filename ->
  let m := convert_rawfile_to_fits cwd fits_u2 filename h w remove_old in
  outcome m s = Ok tt ->
  exists new content img, new <> key cwd filename /\
    s (key cwd filename) = Some (File content) /\ le16_image h w content img /\
    after m s new = Some (File (fits_u2 (to_list img))) /\
    after m s (key cwd filename) = (if remove_old then None else Some (File content)).
Proof.
  intros Hc Hr m Hok.
  destruct (c48_done cwd Hc fits_u2 filename h w remove_old s Hr Hok) as (new & c & img & H1 & _ & H2).
  exists new, c, img. exact (conj H1 H2).
Qed.
Print Assumptions C48_done.

(** A two-pixel file, read, converted and removed. *)
Example C48_case :
  let s := demo_fs ["/"; "/d"] "/d/a.raw" [1; 2; 3; 4] in
  let m := convert_rawfile_to_fits "/d" (@concat Z) "a.raw" 1 2 true in
  outcome m s = Ok tt /\ after m s "/d/a.fits" = Some (File [513; 1027]) /\
  after m s "/d/a.raw" = None.
Proof. vm_compute. auto. Qed.

(** ** C49.  False as stated: every "." of the path but the last becomes ":". *)
Theorem C49_converted_name_refuted (fits_u2 : list (list Z) -> bytes) :
  let s := demo_fs ["/"; "/data"] "/data/run.2.raw" [1; 0] in
  let m := convert_rawfile_to_fits "/" fits_u2 "/data/run.2.raw" 1 1 false in
  outcome m s = Ok tt /\ after m s "/data/run.2.fits" = None /\
  after m s "/data/run:2.fits" = Some (File (fits_u2 [[1]])).
Proof. exact (c49_refuted fits_u2). Qed.
Print Assumptions C49_converted_name_refuted.

(** A dot in a directory name makes the conversion fail. *)
Theorem C49_dotted_directory_refuted (fits_u2 : list (list Z) -> bytes) :
  fails_cleanly (convert_rawfile_to_fits "/" fits_u2 "/data/2021.12.01/a.raw" 1 1 false)
    (demo_fs ["/"; "/data"; "/data/2021.12.01"] "/data/2021.12.01/a.raw" [1; 0]).
Proof. exact (c49_dotted_dir fits_u2). Qed.
Print Assumptions C49_dotted_directory_refuted.

(** The name actually written, for every normalised absolute path. *)
Theorem C49_actual_name (cwd : string) (fits_u2 : list (list Z) -> bytes) t h w remove_old s :
  is_abs cwd = true ->
  is_abs (t ++ ".raw") = true -> normpath (t ++ ".raw") = (t ++ ".raw")%string ->
  let m := convert_rawfile_to_fits cwd fits_u2 (t ++ ".raw") h w remove_old in
  outcome m s = Ok tt ->
  exists content img, s (t ++ ".raw")%string = Some (File content) /\ le16_image h w content img /\
    after m s (dots_to_colons t ++ ".fits")%string = Some (File (fits_u2 (to_list img))) /\
    (forall p, p <> (t ++ ".raw")%string -> p <> (dots_to_colons t ++ ".fits")%string ->
       after m s p = s p).
Proof. intros H. exact (c49_name cwd H fits_u2 t h w remove_old s). Qed.
Print Assumptions C49_actual_name.

(** The claim holds for paths without further dots, and the conversion succeeds. *)
Theorem C49_converted_name_partial (cwd : string) (fits_u2 : list (list Z) -> bytes) t h w remove_old s content :
  is_abs cwd = true ->
  is_abs (t ++ ".raw") = true -> normpath (t ++ ".raw") = (t ++ ".raw")%string -> no_char "." t ->
  s (t ++ ".raw")%string = Some (File content) -> 0 <= h -> 0 <= w ->
  2 * (h * w) <= Z.of_nat (length content) ->
  is_dir s (parent_key cwd (t ++ ".raw")) = true ->
  is_dir s (t ++ ".fits") = false ->
  let m := convert_rawfile_to_fits cwd fits_u2 (t ++ ".raw") h w remove_old in
  outcome m s = Ok tt /\
  exists img, le16_image h w content img /\
    after m s (t ++ ".fits")%string = Some (File (fits_u2 (to_list img))).
Proof. intros H. exact (c49_partial cwd H fits_u2 t h w remove_old s content). Qed.
Print Assumptions C49_converted_name_partial.

Example C49_case :
  let s := demo_fs ["/"; "/d"] "/d/a.raw" [1; 2; 3; 4; 5] in
  is_abs ("/d/a" ++ ".raw") = true /\ normpath ("/d/a" ++ ".raw") = "/d/a.raw" /\ no_char "." "/d/a" /\
  s "/d/a.raw" = Some (File [1; 2; 3; 4; 5]) /\ is_dir s (parent_key "/tmp" "/d/a.raw") = true /\
  is_dir s "/d/a.fits" = false.
Proof.
  cbn zeta. repeat split; try reflexivity. intros H. cbn in H.
  repeat (destruct H as [H|H]; [discriminate|]). exact H.
Qed.

(** ** C50 *)
Theorem C50_merge (cwd : string) (fits_f8 : list (list R) -> bytes) files imgs new h w mode s :
  is_abs cwd = true -> 0 <= h -> 0 <= w -> Forall (fun f => ends_in_slash f = false) files ->
  Forall2 (raw_holds cwd s h w) files imgs ->
  let m := merge_rawfiles_to_fits cwd fits_f8 files new h w mode in
  outcome m s = Ok tt ->
  after m s (key cwd new) = Some (File (fits_f8 (pixels h w (merged mode (length files) imgs)))).
Proof. intros H. exact (c50_written cwd H fits_f8 files imgs new h w mode s). Qed.
Print Assumptions C50_merge.

Theorem C50_average (cwd : string) (fits_f8 : list (list R) -> bytes) files imgs new h w s :
  is_abs cwd = true -> 0 <= h -> 0 <= w -> Forall (fun f => ends_in_slash f = false) files ->
  Forall2 (raw_holds cwd s h w) files imgs ->
  let m := average_rawfiles_to_fits cwd fits_f8 files new h w in
  outcome m s = Ok tt ->
  after m s (key cwd new) = Some (File (fits_f8 (pixels h w (fun y x => sum_at imgs y x / INR (length files))%R))).
Proof. intros H. exact (c50_written cwd H fits_f8 files imgs new h w "average" s). Qed.
Print Assumptions C50_average.

(** Nothing else is touched, even when interrupted. *)
Theorem C50_merge_others (cwd : string) (fits_f8 : list (list R) -> bytes) files new h w mode s s' p :
  is_abs cwd = true -> crash (merge_rawfiles_to_fits cwd fits_f8 files new h w mode) s s' ->
  p <> key cwd new -> s' p = s p.
Proof. intros H. exact (c50_others cwd H fits_f8 files new h w mode s s' p). Qed.
Print Assumptions C50_merge_others.

Theorem C50_short_file (cwd : string) (fits_f8 : list (list R) -> bytes) files new h w mode s f :
  In f files -> unreadable cwd s h w f ->
  fails_cleanly (merge_rawfiles_to_fits cwd fits_f8 files new h w mode) s.
Proof. exact (c50_short cwd fits_f8 files new h w mode s f). Qed.
Print Assumptions C50_short_file.

Theorem C50_order (cwd : string) (fits_f8 : list (list R) -> bytes) files files' new h w mode s :
  Permutation files files' ->
  let m := merge_rawfiles_to_fits cwd fits_f8 files new h w mode in
  let m' := merge_rawfiles_to_fits cwd fits_f8 files' new h w mode in
  m s = m' s \/ (fails_cleanly m s /\ fails_cleanly m' s).
Proof. exact (c50_perm cwd fits_f8 files files' new h w mode s). Qed.
Print Assumptions C50_order.

Example C50_case :
  let s := demo_fs ["/"; "/d"] "/d/a.raw" [1; 2; 3; 4; 9] in
  Forall2 (raw_holds "/d" s 1 2) ["a.raw"; "/d/a.raw"] [mkarr 1 2 (fun _ x => 513 + 514 * x); mkarr 1 2 (fun _ x => 513 + 514 * x)] /\
  outcome (merge_rawfiles_to_fits "/d" (fun _ => [1]) ["a.raw"; "/d/a.raw"] "out.fits" 1 2 "sum") s = Ok tt /\
  unreadable "/d" s 3 3 "a.raw".
Proof.
  cbn zeta.
  assert (G : forall f, demo_fs ["/"; "/d"] "/d/a.raw" [1; 2; 3; 4; 9] (key "/d" f) = Some (File [1; 2; 3; 4; 9]) ->
    raw_holds "/d" (demo_fs ["/"; "/d"] "/d/a.raw" [1; 2; 3; 4; 9]) 1 2 f (mkarr 1 2 (fun _ x => 513 + 514 * x))).
  { intros f Hf. exists [1; 2; 3; 4; 9]. split; [exact Hf|]. split; [cbn; lia|]. split; [reflexivity|].
    split; [reflexivity|]. intros y x Hy Hx. assert (y = 0) by lia. subst y.
    assert (Ex : x = 0 \/ x = 1) by lia. destruct Ex as [->| ->]; reflexivity. }
  split; [|split].
  - repeat constructor; apply G; reflexivity.
  - reflexivity.
  - intros c Hc. injection Hc as <-. cbn. lia.
Qed.

(** ** C54.  File name "<d><stem>.fits": the names written are pairwise different - every file
    holds its own content afterwards - and lie in the same directory; nothing else is lost. *)
Theorem C54_all_params (cwd : string) (content : string -> bytes) d stem s :
  is_abs cwd = true -> dir_part d -> no_char "/" stem -> stem <> "" ->
  let m := save_all_pol_params_as_fits cwd content (d ++ stem ++ ".fits") in
  outcome m s = Ok tt ->
  (forall id, In id ["I"; "Q"; "U"; "pB"; "AoLP"; "DoLP"] ->
     after m s (key cwd (d ++ stem ++ "_" ++ id ++ ".fits")) = Some (File (content id))) /\
  (forall p n, (forall id, In id ["I"; "Q"; "U"; "pB"; "AoLP"; "DoLP"] ->
                  p <> key cwd (d ++ stem ++ "_" ++ id ++ ".fits")) ->
     s p = Some n -> after m s p = Some n).
Proof. intros H. exact (c54_all cwd H content d stem s). Qed.
Print Assumptions C54_all_params.

Theorem C54_one_param (cwd : string) (content : bytes) d stem id s :
  is_abs cwd = true -> dir_part d -> no_char "/" stem -> stem <> "" -> no_char "/" id ->
  let m := save_param_as_fits cwd (id, content) (d ++ stem ++ ".fits") in
  outcome m s = Ok tt ->
  after m s (key cwd (d ++ stem ++ "_" ++ id ++ ".fits")) = Some (File content) /\
  (forall p n, p <> key cwd (d ++ stem ++ "_" ++ id ++ ".fits") -> s p = Some n -> after m s p = Some n).
Proof. intros H. exact (c54_param cwd H content d stem id s). Qed.
Print Assumptions C54_one_param.

Theorem C54_single_pol (cwd : string) (pol : string -> result bytes) d stem s :
  is_abs cwd = true -> dir_part d -> no_char "/" stem -> stem <> "" ->
  let m := save_single_pol_images cwd pol (d ++ stem ++ ".fits") in
  outcome m s = Ok tt ->
  (forall id, In id ["0"; "45"; "90"; "-45"] -> exists b, pol id = Ok b /\
     after m s (key cwd (d ++ stem ++ "POL" ++ id ++ ".fits")) = Some (File b)) /\
  (forall p n, (forall id, In id ["0"; "45"; "90"; "-45"] ->
                  p <> key cwd (d ++ stem ++ "POL" ++ id ++ ".fits")) ->
     s p = Some n -> after m s p = Some n).
Proof. intros H. exact (c54_single cwd H pol d stem s). Qed.
Print Assumptions C54_single_pol.

Theorem C54_demosaiced (cwd : string) dic images d stem ext s :
  is_abs cwd = true -> dir_part d -> no_char "/" stem -> stem <> "" ->
  no_char "/" ext -> no_char "." ext -> ext <> "" ->
  NoDup (map fst dic) ->
  let m := save_demosaiced_images_as_fits cwd true dic images (d ++ stem ++ "." ++ ext) in
  outcome m s = Ok tt ->
  (forall i b, nth_error images i = Some b -> exists k, In (k, Z.of_nat i) dic /\
     after m s (key cwd (d ++ stem ++ "_POL" ++ str_of k ++ ".fits")) = Some (File b)) /\
  (forall p n, (forall k, p <> key cwd (d ++ stem ++ "_POL" ++ str_of k ++ ".fits")) ->
     s p = Some n -> after m s p = Some n).
Proof. intros H. exact (c54_demosaiced cwd H dic images d stem ext s). Qed.
Print Assumptions C54_demosaiced.

Theorem C54_invalid_suffix (cwd : string) content dem dic images filename s :
  (psuffix (ppath_of filename) <> ".fits" ->
     fails_cleanly (save_all_pol_params_as_fits cwd content filename) s) /\
  (psuffix (ppath_of filename) = "" ->
     fails_cleanly (save_demosaiced_images_as_fits cwd dem dic images filename) s).
Proof.
  split; [exact (c54_suffix_all cwd content filename s)|
          exact (c54_suffix_demosaiced cwd dem dic images filename s)].
Qed.
Print Assumptions C54_invalid_suffix.

Theorem C54_not_demosaiced (cwd : string) dic images filename s :
  fails_cleanly (save_demosaiced_images_as_fits cwd false dic images filename) s.
Proof. exact (c54_not_demosaiced cwd dic images filename s). Qed.
Print Assumptions C54_not_demosaiced.

(** The single-image variants check the suffix only after creating the directory. *)
Theorem C54_invalid_suffix_refuted (pol : string -> result bytes) :
  (forall id, In id ["0"; "45"; "90"; "-45"] -> exists b, pol id = Ok b) ->
  let s : fs := fun p => if String.eqb p "/" then Some Dir else None in
  let m := save_single_pol_images "/" pol "/out/a.txt" in
  s "/out" = None /\ outcome m s = Raise ValueError /\ after m s "/out" = Some Dir.
Proof. exact (c54_single_refuted pol). Qed.
Print Assumptions C54_invalid_suffix_refuted.

(** They still raise, and no file is created, changed or removed. *)
Theorem C54_invalid_suffix_partial (cwd : string) (pol : string -> result bytes) filename s :
  (forall id, In id ["0"; "45"; "90"; "-45"] -> exists b, pol id = Ok b) ->
  psuffix (pabsolute cwd (ppath_of filename)) <> ".fits" ->
  let m := save_single_pol_images cwd pol filename in
  (exists e, outcome m s = Raise e) /\ only_dirs (fst (m s)) /\
  (forall p n, s p = Some n -> after m s p = Some n).
Proof. exact (c54_suffix_single_partial cwd pol filename s). Qed.
Print Assumptions C54_invalid_suffix_partial.

Example C54_case :
  let s : fs := fun p => if String.eqb p "/" then Some Dir else None in
  let m := save_demosaiced_images_as_fits "/" true [(0, 0); (45, 1); (-45, 2); (90, 3)]
             [[10]; [11]; [12]; [13]] "out/deep/x.fits" in
  dir_part "out/deep/" /\ outcome m s = Ok tt /\
  after m s "/out/deep/x_POL-45.fits" = Some (File [12]) /\
  outcome (save_single_pol_images "/" (fun id => Ok [7]) "x.fits") s = Ok tt /\
  outcome (save_all_pol_params_as_fits "/" (fun id => [7]) "o/x.fits") s = Ok tt.
Proof.
  cbn zeta. split; [right; exists "out/deep"; reflexivity|]. repeat split; reflexivity.
Qed.

(** ** C76 *)
Theorem C76_convert_set_partial (cwd : string) (fits_f8 : list (list R) -> bytes) schedules files imgs new s :
  is_abs cwd = true -> (forall i, complete_schedule 32 (schedules i)) ->
  files <> [] -> Forall (fun f => ends_in_slash f = false) files ->
  Forall2 (bin_holds cwd s) files imgs ->
  let m := convert_set cwd fits_f8 files new 1952 1952 schedules in
  outcome m s = Ok tt ->
  after m s (abspath cwd new) =
    Some (File (fits_f8 (pixels 1952 1952 (merged "average" (length files) imgs)))).
Proof. intros H1 H2. exact (c76_written cwd H1 fits_f8 schedules H2 files imgs new s). Qed.
Print Assumptions C76_convert_set_partial.

(** Not for all files of the right length: a chunk that ends in NUL in any of them makes the
    call fail, and nothing is written. *)
Theorem C76_nul_chunk_refuted (cwd : string) (fits_f8 : list (list R) -> bytes) schedules files new s :
  (forall i, complete_schedule 32 (schedules i)) ->
  Forall (fun f => ends_in_slash f = false) files -> Forall (frame_file cwd s) files ->
  Exists (nul_chunk_file cwd s) files ->
  fails_cleanly (convert_set cwd fits_f8 files new 1952 1952 schedules) s.
Proof. intros H. exact (c76_nul cwd fits_f8 schedules H files new s). Qed.
Print Assumptions C76_nul_chunk_refuted.

Example C76_nul_chunk_case :
  let s : fs := fun p => if String.eqb p "/dark.bin" then Some (File dark_frame) else None in
  Forall (frame_file "/" s) ["/dark.bin"] /\ Exists (nul_chunk_file "/" s) ["/dark.bin"].
Proof.
  intros s. destruct (dark_frame_witness s eq_refl) as [H1 H2].
  split; [constructor; [exact H1|constructor]|constructor; exact H2].
Qed.

Theorem C76_convert_set_others (cwd : string) (fits_f8 : list (list R) -> bytes) schedules files new h w s s' p :
  is_abs cwd = true -> crash (convert_set cwd fits_f8 files new h w schedules) s s' ->
  p <> abspath cwd new -> s' p = s p.
Proof. intros H. exact (c76_others cwd H fits_f8 schedules files new h w s s' p). Qed.
Print Assumptions C76_convert_set_others.

Theorem C76_convert_set_order (cwd : string) (fits_f8 : list (list R) -> bytes) sch1 sch2 files files' imgs new s :
  is_abs cwd = true ->
  (forall i, complete_schedule 32 (sch1 i)) -> (forall i, complete_schedule 32 (sch2 i)) ->
  files <> [] -> Forall (fun f => ends_in_slash f = false) files ->
  Forall2 (bin_holds cwd s) files imgs -> Permutation files files' ->
  convert_set cwd fits_f8 files new 1952 1952 sch1 s = convert_set cwd fits_f8 files' new 1952 1952 sch2 s.
Proof. exact (c76_perm cwd fits_f8 sch1 sch2 files files' imgs new s). Qed.
Print Assumptions C76_convert_set_order.

Example C76_case : exists c s,
  bin_holds "/" s "/a.bin" (mkarr 1952 1952 (fun y x => nth (Z.to_nat (1952 * y + x)) (decode12 c) 0)).
Proof. exact bin_holds_witness. Qed.
