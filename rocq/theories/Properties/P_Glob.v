(** C111: which folder a Demodulator is read from. *)
From Coq Require Import String Ascii QArith.
From Verif Require Import Base.Base Base.Num Model.Demodulate Model.DemodLoad Model.Glob Spec.LoadSpec Spec.GlobSpec
  Proofs.GlobFacts.
Local Open Scope list_scope.

(** The matrices are those of the folder given, whatever else the file system contains, if no component of
    its path has one of the characters "*", "?" and "[". *)
Theorem C111_found_partial : forall {A} `{Num A} (t : tree A) p c,
  no_twice t -> plain_path p -> holds t p c ->
  exists d, Demodulator t p = Ok d /\ same_tensor (mij d) (k_m c) /\ fit_found_flags d = Some (k_found c).
Proof. exact @c111_found. Qed.
Print Assumptions C111_found_partial.

(** Two calibrations, in "cal/run[1]" and "cal/run1"; the first folder alone; and "cal/run2". *)
Definition calibration_of (q : Q) : calibration Q :=
  mkcalibration (mktensor 1 1 (fun i j _ _ => q)) (full 1 1 q) (full 1 1 q) (full 1 1 q) (full 1 1 q).
Definition in_folder (p : list string) (c : calibration Q) : tree Q :=
  (p, Folder) :: map (fun e => (p ++ [fst e], File (snd e))) (written_files c).
Definition two_folders : tree Q :=
  in_folder ["cal"; "run[1]"]%string (calibration_of 1) ++ in_folder ["cal"; "run1"]%string (calibration_of 2).

Example C111_case :
  no_twice two_folders /\ plain_path ["cal"; "run1"]%string /\
  holds two_folders ["cal"; "run1"]%string (calibration_of 2) /\
  holds two_folders ["cal"; "run[1]"]%string (calibration_of 1).
Proof.
  assert (H : forall p c q c', p <> [] -> p <> q -> length p = length q ->
            holds (in_folder p c ++ in_folder q c') p c /\ holds (in_folder q c' ++ in_folder p c) p c).
  { intros p c q c' Hp Hpq Hlen.
    assert (K : forall name e, In (p ++ [name], e) (in_folder p c ++ in_folder q c') ->
                exists f, In (name, f) (written_files c)).
    { intros name e Hin. apply in_app_or in Hin as [[K|K]|[K|K]].
      - injection K as K _. apply (f_equal (@length _)) in K. rewrite app_length in K. cbn in K. lia.
      - apply in_map_iff in K as ((n & f) & K & Hf). injection K as K _. apply app_inj_tail in K as (_ & ->). eauto.
      - injection K as K _. apply (f_equal (@length _)) in K. rewrite app_length in K. cbn in K. lia.
      - apply in_map_iff in K as ((n & f) & K & Hf). injection K as K _. apply app_inj_tail in K as (K & _).
        congruence. }
    split; split.
    - split; [exact Hp|]. apply in_or_app. left. left. reflexivity.
    - intros name f Hf. apply in_or_app. left. right. apply in_map_iff. exists (name, f). auto.
    - intros name e i j Hin _ _ _. exact (K _ _ Hin).
    - split; [exact Hp|]. apply in_or_app. right. left. reflexivity.
    - intros name f Hf. apply in_or_app. right. right. apply in_map_iff. exists (name, f). auto.
    - intros name e i j Hin _ _ _. apply (K name e). apply in_app_or in Hin. apply in_or_app. tauto. }
  repeat apply conj.
  - unfold no_twice.
    assert (E : nodup (list_eq_dec string_dec) (map fst two_folders) = map fst two_folders) by (vm_compute; reflexivity).
    rewrite <- E. apply NoDup_nodup.
  - repeat constructor; discriminate.
  - apply H; try discriminate; reflexivity.
  - apply H; try discriminate; reflexivity.
Qed.

(** In "s[x]" glob sees the name "sx": the matrices are those of that folder if it exists, *)
Theorem C111_other_folder_refuted : forall {A} `{Num A} (t : tree A) p s x c c',
  no_twice t -> plain_path p -> plain_name s -> x <> "!"%char -> x <> "]"%char ->
  not_hidden (unbracketed s x) -> holds t (p ++ [bracketed s x]) c -> holds t (p ++ [unbracketed s x]) c' ->
  exists d, Demodulator t (p ++ [bracketed s x]) = Ok d /\ same_tensor (mij d) (k_m c') /\
    fit_found_flags d = Some (k_found c').
Proof. exact @c111_wrong. Qed.
Print Assumptions C111_other_folder_refuted.

(** and the folder is reported as empty otherwise. *)
Theorem C111_not_found_refuted : forall {A} `{Num A} (t : tree A) p s x,
  plain_path p -> plain_name s -> x <> "!"%char -> x <> "]"%char ->
  not_hidden (unbracketed s x) -> ~ In (p ++ [unbracketed s x], Folder) t ->
  Demodulator t (p ++ [bracketed s x]) = Raise FileNotFoundError.
Proof. exact @c111_not_found. Qed.
Print Assumptions C111_not_found_refuted.

Example C111_refuted_case :
  on_ok (fun d => t_cell (mij d) 0 0 0 0) (Demodulator two_folders ["cal"; "run[1]"]%string) = Ok 2%Q /\
  on_ok (fun d => t_cell (mij d) 0 0 0 0) (Demodulator two_folders ["cal"; "run1"]%string) = Ok 2%Q /\
  on_ok (fun d => t_cell (mij d) 0 0 0 0)
    (Demodulator (in_folder ["cal"; "run[1]"]%string (calibration_of 1)) ["cal"; "run[1]"]%string) =
    Raise FileNotFoundError /\
  (** two folders for "run?", 24 matrices *)
  on_ok (fun d => t_cell (mij d) 0 0 0 0)
    (Demodulator (in_folder ["cal"; "run?"]%string (calibration_of 1) ++
                  in_folder ["cal"; "run1"]%string (calibration_of 2)) ["cal"; "run?"]%string) = Raise ValueError.
Proof. repeat apply conj; vm_compute; reflexivity. Qed.
