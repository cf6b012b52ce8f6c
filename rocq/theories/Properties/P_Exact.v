(** Property C101: what binary64 arithmetic makes of the integers a camera delivers. *)
From Coq Require Import String Reals Floats.SpecFloat.
From Verif Require Import Base.Base Base.Num Model.Demosaic Model.Rebin Model.Stokes Model.Pol Model.Keywords Model.FileInit
  Spec.Terminates Spec.AngleSpec Spec.MosaicSpec Spec.FilesSpec Spec.CleanSpec Spec.FloatSpec Proofs.ExactFacts Proofs.ExactFiles.
Local Open Scope string_scope.
Local Open Scope Z_scope.

(** Stokes vectors, raw *)
Theorem C101_stokes top (d : arr b64) dic : 0 <= top -> counts top d -> mosaic d -> 4 * top < 2 ^ 53 ->
  same_outcome exact_stokes (data_stokes dic d) (data_stokes dic (values d)).
Proof. exact (fun H0 Hc Hm => c101_stokes top d H0 Hc Hm dic). Qed.
Print Assumptions C101_stokes.

Theorem C101_demosaic top (d : arr b64) o : 0 <= top -> counts top d -> mosaic d -> 4 * top < 2 ^ 53 ->
  same_outcome exact_quad (demosaic d o) (demosaic (values d) o).
Proof. exact (fun H0 Hc Hm => c101_demosaic top d H0 Hc Hm o). Qed.
Print Assumptions C101_demosaic.

(** binned, and binned and demosaiced *)
Theorem C101_binned top (d : arr b64) b : 0 <= top -> counts top d -> mosaic d -> 1 <= b -> 16 * (b * b * top) < 2 ^ 53 ->
  exists d' r', evaluates (fun fuel => micropolarray_rebin fuel d b) d' /\
    evaluates (fun fuel => micropolarray_rebin fuel (values d) b) r' /\
    exact_image d' r' /\
    (forall dic, same_outcome exact_stokes (data_stokes dic d') (data_stokes dic r')) /\
    forall dic o, same_outcome exact_stokes (let* q := demosaic d' o in theo_stokes dic q) (let* q := demosaic r' o in theo_stokes dic q).
Proof. exact (fun H0 Hc Hm => c101_binned top d H0 Hc Hm b). Qed.
Print Assumptions C101_binned.

(** pB is correctly rounded and DoLP has a relative error of at most 2^-51 *)
Theorem C101_polarization top (d : arr b64) dic s : 0 <= top -> counts top d -> mosaic d -> top <= 2 ^ 24 ->
  data_stokes dic d = Ok s ->
  exists t, data_stokes dic (values d) = Ok t /\
    forall y x, 0 <= y < rows d / 2 -> 0 <= x < cols d / 2 ->
      nearest (cell (pB s) y x) (cell (pB t) y x) /\ FloatSpec.within (/ 2 ^ 51) (cell (DoLP s) y x) (cell (DoLP t) y x).
Proof. exact (fun H0 Hc Hm => c101_pol top d H0 Hc Hm dic s). Qed.
Print Assumptions C101_polarization.

Theorem C101_polarization_demosaiced top (d : arr b64) dic o s : 0 <= top -> counts top d -> mosaic d -> top <= 2 ^ 22 ->
  (let* q := demosaic d o in theo_stokes dic q) = Ok s ->
  exists t, (let* q := demosaic (values d) o in theo_stokes dic q) = Ok t /\
    forall y x, 0 <= y < rows d -> 0 <= x < cols d ->
      nearest (cell (pB s) y x) (cell (pB t) y x) /\ FloatSpec.within (/ 2 ^ 51) (cell (DoLP s) y x) (cell (DoLP t) y x).
Proof. exact (fun H0 Hc Hm => c101_pol_demosaiced top d H0 Hc Hm dic o s). Qed.
Print Assumptions C101_polarization_demosaiced.

(** Sums of files, and means of 2, 4, 8, ... files *)
Theorem C101_files (rd : reader b64) names (avg : bool) height width content head time top j :
  series rd names height width content head time -> (2 <= length names)%nat ->
  (forall name, In name names -> counts top (content name)) ->
  0 <= top -> Z.of_nat (length names) * (top + 1) < 2 ^ 53 ->
  0 <= j -> (avg = true -> Z.of_nat (length names) = 2 ^ j) ->
  exists im, image_from_list rd names avg = Ok im /\ rows (l_data im) = height /\ cols (l_data im) = width /\
    forall y x, 0 <= y < height -> 0 <= x < width ->
      is_value (cell (l_data im) y x)
        (let s := total (map (fun name => fval (cell (content name) y x)) names) in
         if avg then s / INR (length names) else s)%R.
Proof. exact (c101_files rd names avg height width content head time top j). Qed.
Print Assumptions C101_files.

(** A 16-bit image *)
Definition frame : arr b64 := of_list (b64_ofZ 0) 2 4 (map b64_ofZ [0; 1; 65535; 65534; 12; 40000; 65535; 3]).
Example C101_case : counts 65535 frame /\ mosaic frame /\ 16 * (10 * 10 * 65535) < 2 ^ 53 /\ 65535 <= 2 ^ 22 /\
  on_ok (fun s => b64_same (cell (sI s) 0 1) (SFdiv 53 1024 (b64_ofZ 196607) (b64_ofZ 2))) (data_stokes polarcam_angles frame) = Ok true /\
  on_ok (fun s => b64_same (cell (sQ s) 0 0) (b64_ofZ (-40000))) (data_stokes polarcam_angles frame) = Ok true.
Proof.
  split; [|split; [repeat split; vm_compute; congruence|split; [reflexivity|split; [discriminate|split; vm_compute; reflexivity]]]].
  intros y x Hy Hx. change (rows frame) with 2 in Hy. change (cols frame) with 4 in Hx.
  exists (nth (Z.to_nat (4 * y + x)) [0; 1; 65535; 65534; 12; 40000; 65535; 3] 0).
  assert (Y : y = 0 \/ y = 1) by lia. assert (X : x = 0 \/ x = 1 \/ x = 2 \/ x = 3) by lia.
  destruct Y as [-> | ->], X as [-> | [-> | [-> | ->]]]; (split; [vm_compute; split; discriminate|apply ofZ_value; reflexivity]).
Qed.
