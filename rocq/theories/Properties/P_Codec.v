(** Properties C44-C47: 12-bit and 16-bit files. *)
From Coq Require Import String Ascii Reals Lra Lia.
From Verif Require Import Base.Base Model.Paths Model.Codec Model.Fs
  Spec.CodecSpec Spec.FsSpec Spec.Terminates Proofs.PathFacts Proofs.CodecFacts
  Proofs.BinaryFacts Proofs.RawFacts Proofs.FsFacts Proofs.FsProps Proofs.FsMerge.
Local Open Scope string_scope.
Local Open Scope list_scope.
Local Open Scope Z_scope.

(** ** C44 *)
Theorem C44_decoding (l : list Z) :
  Forall is_byte l ->
  ((length l mod 3 = 0)%nat ->
     three_bytes_to_two_ints l = Ok (decode12 l) /\
     (length (decode12 l) = 2 * (length l / 3))%nat /\
     Forall is_12bit (decode12 l) /\ encode12 (decode12 l) = l) /\
  ((length l mod 3 <> 0)%nat -> three_bytes_to_two_ints l = Raise IndexError).
Proof. exact (c44_decode l). Qed.
Print Assumptions C44_decoding.

Theorem C44_unique_encoding (vs : list Z) :
  Forall is_12bit vs -> (length vs mod 2 = 0)%nat ->
  exists! l, Forall is_byte l /\ three_bytes_to_two_ints l = Ok vs.
Proof. exact (c44_unique vs). Qed.
Print Assumptions C44_unique_encoding.

Example C44_case :
  three_bytes_to_two_ints [171; 205; 18; 0; 255; 1] = Ok [2748; 301; 15; 31] /\
  encode12 [2748; 301; 15; 31] = [171; 205; 18; 0; 255; 1].
Proof. split; reflexivity. Qed.

(** ** C45.  The full claim - every file of the right length, every schedule - fails on files
    one of whose 32 chunks ends in a NUL byte. *)
Theorem C45_parallel_partial (content : list Z) (schedule : list nat) :
  Forall is_byte content -> complete_schedule 32 schedule ->
  Z.of_nat (length content) = 1952 * 1952 * 3 / 2 ->
  (forall i, (i < 32)%nat -> ~ ends_in_nul (chunk content (length content / 32) i)) ->
  nparr_from_binary content schedule =
  Ok (mkarr 1952 1952 (fun y x => nth (Z.to_nat (1952 * y + x)) (decode12 content) 0)).
Proof. exact (c45_good content schedule). Qed.
Print Assumptions C45_parallel_partial.

Example C45_case :
  exists content, Forall is_byte content /\ Z.of_nat (length content) = 1952 * 1952 * 3 / 2 /\
    (forall i, (i < 32)%nat -> ~ ends_in_nul (chunk content (length content / 32) i)).
Proof. exact c45_witness. Qed.

(** The other files of the right length all raise, whatever the schedule. *)
Theorem C45_parallel_nul_chunk (content : list Z) (schedule : list nat) (i : nat) :
  Forall is_byte content -> complete_schedule 32 schedule ->
  Z.of_nat (length content) = 1952 * 1952 * 3 / 2 ->
  (i < 32)%nat -> ends_in_nul (chunk content (length content / 32) i) ->
  raises (nparr_from_binary content schedule).
Proof. exact (c45_nul content schedule i). Qed.
Print Assumptions C45_parallel_nul_chunk.

(** An all-dark frame of the right length is rejected. *)
Theorem C45_parallel_refuted (schedule : list nat) : complete_schedule 32 schedule ->
  raises (nparr_from_binary (repeat 0 (Z.to_nat (1952 * 1952 * 3 / 2))) schedule).
Proof. exact (c45_zero_file schedule). Qed.
Print Assumptions C45_parallel_refuted.

Example C45_schedule_case : complete_schedule 32 (rev (seq 0 32)) /\ complete_schedule 32 (seq 0 32).
Proof. split; [apply Permutation.Permutation_sym, Permutation.Permutation_rev|apply Permutation.Permutation_refl]. Qed.

(** ** C46.  False: a file 96 bytes too long is accepted. *)
Theorem C46_wrong_length_refuted :
  exists content schedule r, Forall is_byte content /\ complete_schedule 32 schedule /\
    Z.of_nat (length content) = 1952 * 1952 * 3 / 2 + 96 /\ nparr_from_binary content schedule = Ok r.
Proof. exact c46_refuted. Qed.
Print Assumptions C46_wrong_length_refuted.

(** True for all files that are too short, and for files that are too long unless all their
    32 chunks end in a NUL byte. *)
Theorem C46_wrong_length_partial (content : list Z) (schedule : list nat) :
  Forall is_byte content -> complete_schedule 32 schedule ->
  Z.of_nat (length content) <> 1952 * 1952 * 3 / 2 ->
  (Z.of_nat (length content) < 1952 * 1952 * 3 / 2 \/
   (exists i, (i < 32)%nat /\ ~ ends_in_nul (chunk content (length content / 32) i))) ->
  raises (nparr_from_binary content schedule).
Proof. exact (c46_partial content schedule). Qed.
Print Assumptions C46_wrong_length_partial.

Example C46_case : raises (nparr_from_binary [1; 2; 3] (seq 0 32)).
Proof.
  apply C46_wrong_length_partial.
  - repeat constructor; unfold is_byte; lia.
  - apply Permutation.Permutation_refl.
  - cbn [length]. intros H. vm_compute in H. discriminate.
  - left. vm_compute. reflexivity.
Qed.

(** ** C47 *)
Theorem C47_raw_round_trip (oor : R -> Z) (data : arr R) : wf data ->
  (forall y x, 0 <= y < rows data -> 0 <= x < cols data ->
     exists z, cell data y x = IZR z /\ 0 <= z <= 32767) ->
  exists img, u2_array (rows data) (cols data) (raw_bytes oor data) = Ok img /\
    rows img = rows data /\ cols img = cols data /\
    forall y x, 0 <= y < rows data -> 0 <= x < cols data -> IZR (cell img y x) = cell data y x.
Proof. exact (c47_roundtrip oor data). Qed.
Print Assumptions C47_raw_round_trip.

Theorem C47_raw_layout (oor : R -> Z) (data : arr R) (y x z : Z) : wf data ->
  0 <= y < rows data -> 0 <= x < cols data -> cell data y x = IZR z -> 0 <= z <= 32767 ->
  nth (Z.to_nat (2 * (cols data * y + x))) (raw_bytes oor data) 0 = z mod 256 /\
  nth (Z.to_nat (2 * (cols data * y + x) + 1)) (raw_bytes oor data) 0 = z / 256.
Proof. intros H. exact (raw_layout oor data H y x z). Qed.
Print Assumptions C47_raw_layout.

(** Fractions are cut off and negative values wrap modulo 65536 (for values in the int16 range). *)
Theorem C47_raw_other_values (oor : R -> Z) (data : arr R) : wf data ->
  exists img, u2_array (rows data) (cols data) (raw_bytes oor data) = Ok img /\
    rows img = rows data /\ cols img = cols data /\
    forall y x z, 0 <= y < rows data -> 0 <= x < cols data ->
      truncated (cell data y x) z -> -32768 <= z <= 32767 -> cell img y x = z mod 65536.
Proof. exact (raw_roundtrip oor data). Qed.
Print Assumptions C47_raw_other_values.

(** The same through the file system: save_as_raw, then convert_rawfile_to_fits. *)
Theorem C47_raw_files (cwd : string) (oor : R -> Z) (fits_u2 : list (list Z) -> bytes)
    (filename : string) (data : arr R) (z : Z -> Z -> Z) (s : fs) (remove_old : bool) :
  is_abs cwd = true -> wf data -> ends_with ".raw" filename ->
  (forall y x, 0 <= y < rows data -> 0 <= x < cols data ->
     cell data y x = IZR (z y x) /\ 0 <= z y x <= 32767) ->
  outcome (save_as_raw cwd oor filename data) s = Ok tt ->
  let s1 := after (save_as_raw cwd oor filename data) s in
  let conv := convert_rawfile_to_fits cwd fits_u2 filename (rows data) (cols data) remove_old in
  (forall p, p <> key cwd filename -> s1 p = s p) /\
  s1 (key cwd filename) = Some (File (raw_bytes oor data)) /\
  (outcome conv s1 = Ok tt -> exists new, new <> key cwd filename /\
     after conv s1 new = Some (File (fits_u2 (pixels (rows data) (cols data) z)))).
Proof. intros H. exact (c47_files cwd H oor fits_u2 filename data z s remove_old). Qed.
Print Assumptions C47_raw_files.

Example C47_case oor :
  let data := mkarr 2 2 (fun y x => IZR (300 * y + x)) in
  wf data /\
  (forall y x, 0 <= y < rows data -> 0 <= x < cols data ->
     cell data y x = IZR (300 * y + x) /\ 0 <= 300 * y + x <= 32767) /\
  outcome (save_as_raw "/d" oor "a.raw" data) (demo_fs ["/"; "/d"] "/x" []) = Ok tt.
Proof.
  cbn zeta. split; [cbv; split; discriminate|]. split.
  - intros y x Hy Hx. cbn in Hy, Hx. split; [reflexivity|lia].
  - reflexivity.
Qed.
