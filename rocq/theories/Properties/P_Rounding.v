(** Property C103: rounding errors of binning, demosaicing and Stokes parameters for any finite pixels. *)
From Coq Require Import String Reals Floats.SpecFloat.
From Verif Require Import Base.Base Base.Num Model.Demosaic Model.Rebin Model.Stokes Model.Pol
  Spec.Terminates Spec.AngleSpec Spec.MosaicSpec Spec.FloatSpec Proofs.RoundFacts Proofs.RoundImages.
Local Open Scope string_scope.
Local Open Scope Z_scope.

(** Q and U of a raw image are correctly rounded, I is off by at most 2^-50 of the total *)
Theorem C103_stokes top (d : arr b64) dic s : bounded top d -> mosaic d -> (top <= powerRZ 2 1019)%R -> data_stokes dic d = Ok s ->
  exists r m, data_stokes dic (values d) = Ok r /\ data_stokes dic (absolute d) = Ok m /\
    off_image (powerRZ 2 (-50)) (powerRZ 2 (-1075)) (sI s) (sI r) (sI m) /\
    forall y x, 0 <= y < rows d / 2 -> 0 <= x < cols d / 2 ->
      nearest (cell (sQ s) y x) (cell (sQ r) y x) /\ nearest (cell (sU s) y x) (cell (sU r) y x).
Proof. exact (fun Hd Hm => c103_stokes top d Hd Hm dic s). Qed.
Print Assumptions C103_stokes.

Theorem C103_demosaic top (d : arr b64) o q : bounded top d -> mosaic d -> (top <= powerRZ 2 1019)%R -> demosaic d o = Ok q ->
  exists r m, demosaic (values d) o = Ok r /\ demosaic (absolute d) o = Ok m /\ off_quad (powerRZ 2 (-50)) (powerRZ 2 (-1075)) q r m.
Proof. exact (fun Hd Hm => c103_demosaic top d Hd Hm o q). Qed.
Print Assumptions C103_demosaic.

(** binned, and binned, demosaiced and turned into Stokes parameters *)
Theorem C103_binned top (d : arr b64) b : bounded top d -> mosaic d -> 1 <= b -> b * b + 8 <= 2 ^ 52 ->
  (IZR (b * b) * top <= powerRZ 2 1019)%R ->
  exists d' r' m', evaluates (fun fuel => micropolarray_rebin fuel d b) d' /\
    evaluates (fun fuel => micropolarray_rebin fuel (values d) b) r' /\
    evaluates (fun fuel => micropolarray_rebin fuel (absolute d) b) m' /\
    off_image (IZR (b * b) * powerRZ 2 (-52)) 0 d' r' m' /\
    forall dic o s, (let* q := demosaic d' o in theo_stokes dic q) = Ok s ->
      exists r m, (let* q := demosaic r' o in theo_stokes dic q) = Ok r /\ (let* q := demosaic m' o in theo_stokes dic q) = Ok m /\
        off_stokes (IZR (b * b + 8) * powerRZ 2 (-51)) (powerRZ 2 (-1069)) s r m.
Proof. exact (fun Hd Hm => c103_binned top d Hd Hm b). Qed.
Print Assumptions C103_binned.

(** Tenths: no pixel is exact, and 0.1 + 0.2 is not 0.3 *)
Definition tenth (k : Z) : b64 := SFdiv 53 1024 (b64_ofZ k) (b64_ofZ 10).
Definition tenths : arr b64 := of_list (b64_ofZ 0) 2 4 (map tenth [1; -2; 3; 7; 2; 9; 1; -6]).
Example C103_case : bounded 1 tenths /\ mosaic tenths /\ (1 <= powerRZ 2 1019)%R /\ 2 * 2 + 8 <= 2 ^ 52 /\
  on_ok (fun s => b64_same (cell (sQ s) 0 0) (SFsub 53 1024 (tenth 1) (tenth 9))) (data_stokes polarcam_angles tenths) = Ok true /\
  on_ok (fun q => b64_same (cell (q0 q) 0 1) (tenth 2)) (demosaic tenths "adjacent") = Ok true.
Proof.
  split; [|split; [repeat split; vm_compute; congruence|split; [rewrite power2; exact (Flocq.Core.Raux.bpow_le Flocq.Core.Zaux.radix2 0 1019 ltac:(discriminate))|
    split; [discriminate|split; vm_compute; reflexivity]]]].
  intros y x Hy Hx. change (rows tenths) with 2 in Hy. change (cols tenths) with 4 in Hx.
  assert (Y : y = 0 \/ y = 1) by lia. assert (X : x = 0 \/ x = 1 \/ x = 2 \/ x = 3) by lia.
  destruct Y as [-> | ->], X as [-> | [-> | [-> | ->]]];

    match goal with |- is_binary64 ?c /\ _ => let v := eval vm_compute in c in change c with v end; apply below_one; vm_compute; congruence.
Qed.
