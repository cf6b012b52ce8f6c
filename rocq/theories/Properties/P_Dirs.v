(** Property C94: folders for output. *)
From Coq Require Import String.
From Verif Require Import Base.Base Model.Paths Model.Fs Spec.FsSpec Spec.DirSpec Proofs.DirFacts.
Local Open Scope string_scope.

(** ** C94.  Full statement: after the call the folder of the file named, or the folder named,
    exists.  True for file names, *)
Theorem C94_file_partial cwd name s :
  looks_like_file (meant cwd name) ->
  (forall d, on_the_way (pparent (meant cwd name)) d -> no_file (found cwd s d)) ->
  found cwd s {| proot := proot (meant cwd name); pparts := [] |} = Some Dir ->
  outcome (make_abs_and_create_dir cwd name) s = Ok (meant cwd name) /\
  found cwd (after (make_abs_and_create_dir cwd name) s) (pparent (meant cwd name)) = Some Dir.
Proof. exact (file_folder cwd name s). Qed.
Print Assumptions C94_file_partial.

(** true for folders in an existing one and false for nested new folders, *)
Theorem C94_folder_refuted cwd name s :
  ~ looks_like_file (meant cwd name) ->
  (found cwd s (meant cwd name) <> None ->
   outcome (make_abs_and_create_dir cwd name) s = Ok (meant cwd name) /\ after (make_abs_and_create_dir cwd name) s = s) /\
  (found cwd s (meant cwd name) = None -> found cwd s (pparent (meant cwd name)) = Some Dir ->
   outcome (make_abs_and_create_dir cwd name) s = Ok (meant cwd name) /\
   found cwd (after (make_abs_and_create_dir cwd name) s) (meant cwd name) = Some Dir) /\
  (found cwd s (meant cwd name) = None -> found cwd s (pparent (meant cwd name)) <> Some Dir ->
   fails_cleanly (make_abs_and_create_dir cwd name) s).
Proof. exact (plain_folder cwd name s). Qed.
Print Assumptions C94_folder_refuted.

(** and false for folders with a dot in their name, which are not created. *)
Theorem C94_dotted_refuted cwd name s :
  looks_like_file (meant cwd name) -> found cwd s (pparent (meant cwd name)) <> None ->
  outcome (make_abs_and_create_dir cwd name) s = Ok (meant cwd name) /\
  after (make_abs_and_create_dir cwd name) s = s.
Proof. exact (dotted_folder cwd name s). Qed.
Print Assumptions C94_dotted_refuted.

Example C94_case :
  let s : fs := fun p => if String.eqb p "/" || String.eqb p "/data" then Some Dir else None in
  looks_like_file (meant "/data" "run/a.fits") /\ looks_like_file (meant "/data" "run.2") /\
  ~ looks_like_file (meant "/data" "run/2") /\
  pparent (meant "/data" "run/a.fits") = ppath_of "/data/run" /\
  (forall d, on_the_way (ppath_of "/data/run") d -> no_file (found "/data" s d)) /\
  found "/data" s (ppath_of "/") = Some Dir /\
  found "/data" s (pparent (meant "/data" "run.2")) = Some Dir /\
  found "/data" s (pparent (meant "/data" "run/2")) = None.
Proof.
  cbv zeta. split; [discriminate|]. split; [discriminate|]. split; [intro E; apply E; reflexivity|].
  split; [reflexivity|]. split; [|repeat split].
  intros d (n & ->). unfold no_file, found. 
  destruct n as [|[|[|n]]]; [right; reflexivity|right; reflexivity|left; reflexivity|left].
  change (proot (ppath_of "/data/run")) with "/". change (pparts (ppath_of "/data/run")) with ["data"; "run"].
  rewrite firstn_all2 by (cbn; lia). reflexivity.
Qed.
