(** Property C137: from the bytes of a raw file to the polarization. *)
From Coq Require Import Reals Lia Lra.
From Verif Require Import Base.Base Base.Num Model.Stokes Model.Pol Model.Codec Model.Keywords Spec.AngleSpec Spec.MosaicSpec Spec.CodecSpec Spec.Terminates
  Spec.FloatSpec Spec.RawPolSpec Proofs.ExactFacts Proofs.BinaryFacts Proofs.RawPolFacts.
Local Open Scope Z_scope.

(** 12-bit files of the PolarCam.  Missing: files one of whose 32 chunks ends in a NUL byte. *)
Theorem C137_packed_partial (content : list Z) (schedule : list nat) dic a :
  Forall is_byte content -> complete_schedule 32 schedule -> Z.of_nat (length content) = 1952 * 1952 * 3 / 2 ->
  (forall i, (i < 32)%nat -> ~ ends_in_nul (chunk content (length content / 32) i)) -> describes dic a ->
  exists img s, nparr_from_binary content schedule = Ok img /\ data_stokes dic (amap b64_ofZ img) = Ok s /\
    measures a (fun y x => nth (Z.to_nat (1952 * y + x)) (decode12 content) 0) 1952 1952 s.
Proof. exact (c137_packed content schedule dic a). Qed.
Print Assumptions C137_packed_partial.

Theorem C137_packed_refuted (schedule : list nat) : complete_schedule 32 schedule ->
  raises (nparr_from_binary (repeat 0 (Z.to_nat (1952 * 1952 * 3 / 2))) schedule).
Proof. exact (c45_zero_file schedule). Qed.
Print Assumptions C137_packed_refuted.

(** 16-bit raw files *)
Theorem C137_plain (content : list Z) height width dic a :
  Forall is_byte content -> 0 <= height -> 0 <= width -> height mod 2 = 0 -> width mod 2 = 0 ->
  2 * (height * width) <= Z.of_nat (length content) -> describes dic a ->
  exists img s, u2_array height width content = Ok img /\ data_stokes dic (amap b64_ofZ img) = Ok s /\
    measures a (fun y x => nth (Z.to_nat (2 * (width * y + x))) content 0 + 256 * nth (Z.to_nat (2 * (width * y + x) + 1)) content 0) height width s.
Proof. exact (c137_plain content height width dic a). Qed.
Print Assumptions C137_plain.

(** The light: if each count is what an ideal micropolarizer passes, up to [e] (1/2 for a camera that rounds),
    I, Q and U are those of the light up to 2 e, and pB is rounded once from a number within 3 e of its pB. *)
Theorem C137_light a n height width s I Q U e : arrangement_ok a -> measures a n height width s -> (0 <= e)%R ->
  forall Y X, 0 <= Y < height / 2 -> 0 <= X < width / 2 ->
  (Rabs (behind n (p0 a) Y X - ideal 0 I Q U) <= e)%R -> (Rabs (behind n (p45 a) Y X - ideal (PI / 4) I Q U) <= e)%R ->
  (Rabs (behind n (pm45 a) Y X - ideal (- (PI / 4)) I Q U) <= e)%R -> (Rabs (behind n (p90 a) Y X - ideal (PI / 2) I Q U) <= e)%R ->
  (Rabs (fval (cell (sI s) Y X) - I) <= 2 * e)%R /\ (Rabs (fval (cell (sQ s) Y X) - Q) <= 2 * e)%R /\ (Rabs (fval (cell (sU s) Y X) - U) <= 2 * e)%R /\
  exists p, nearest (cell (pB s) Y X) p /\ (Rabs (p - sqrt (Q * Q + U * U)) <= 3 * e)%R.
Proof. exact (c137_light a n height width s I Q U e). Qed.
Print Assumptions C137_light.

(** A superpixel of 16-bit counts 3, 260 / 7, 65535 *)
Definition raw_frame : list Z := [3; 0; 4; 1; 7; 0; 255; 255].
Example C137_case : Forall is_byte raw_frame /\ 2 * (2 * 2) <= Z.of_nat (length raw_frame) /\
  describes polarcam_angles (mkarrangement 0 1 2 3) /\
  u2_array 2 2 raw_frame = Ok (mkarr 2 2 (fun y x => nth (Z.to_nat (2 * (2 * y + x))) raw_frame 0 + 256 * nth (S (Z.to_nat (2 * (2 * y + x)))) raw_frame 0)) /\
  map (fun k => nth (2 * k) raw_frame 0 + 256 * nth (2 * k + 1) raw_frame 0) [0%nat; 1%nat; 2%nat; 3%nat] = [3; 260; 7; 65535] /\
  (exists content, Forall is_byte content /\ Z.of_nat (length content) = 1952 * 1952 * 3 / 2 /\
    (forall i, (i < 32)%nat -> ~ ends_in_nul (chunk content (length content / 32) i))).
Proof.
  split; [repeat constructor; unfold is_byte; lia|]. split; [discriminate|]. split.
  { split; [repeat split; cbn; lia|split; [|cbn; intuition]].
    repeat constructor; cbn; intuition discriminate. }
  split; [reflexivity|]. split; [reflexivity|exact c45_witness].
Qed.
(** Light (I, Q, U) = (100, 21, -30) recorded as whole numbers: 60.5, 35, 65, 39.5 become 60, 35, 65, 40. *)
Example C137_light_case : (Rabs (IZR 60 - ideal 0 100 21 (-30)) <= 1 / 2)%R /\ (Rabs (IZR 35 - ideal (PI / 4) 100 21 (-30)) <= 1 / 2)%R /\
  (Rabs (IZR 65 - ideal (- (PI / 4)) 100 21 (-30)) <= 1 / 2)%R /\ (Rabs (IZR 40 - ideal (PI / 2) 100 21 (-30)) <= 1 / 2)%R.
Proof.
  rewrite StokesFacts.ideal_0, StokesFacts.ideal_45, StokesFacts.ideal_m45, StokesFacts.ideal_90.
  repeat split; apply Rabs_le; lra.
Qed.
