(** Property C104: rounding errors of pB and DoLP for any non-negative pixels. *)
From Coq Require Import String Reals Floats.SpecFloat.
From Verif Require Import Base.Base Base.Num Model.Demosaic Model.Rebin Model.Stokes Model.Pol
  Spec.Terminates Spec.AngleSpec Spec.MosaicSpec Spec.FloatSpec Proofs.RoundFacts Proofs.RoundImages Proofs.RoundPol.
Local Open Scope string_scope.
Local Open Scope Z_scope.

(** Raw images: small relative errors, however small the polarization *)
Theorem C104_raw (d : arr b64) dic s : ordinary d -> mosaic d -> data_stokes dic d = Ok s ->
  exists r, data_stokes dic (values d) = Ok r /\
    forall y x, 0 <= y < rows d / 2 -> 0 <= x < cols d / 2 ->
      FloatSpec.within (powerRZ 2 (-51)) (cell (pB s) y x) (cell (pB r) y x) /\
      FloatSpec.within (powerRZ 2 (-49)) (cell (DoLP s) y x) (cell (DoLP r) y x).
Proof. exact (c104_raw d dic s). Qed.
Print Assumptions C104_raw.

(** Demosaiced images: small errors compared with the intensity, where there is light *)
Theorem C104_demosaiced (d : arr b64) dic o s : ordinary d -> mosaic d -> (let* q := demosaic d o in theo_stokes dic q) = Ok s ->
  exists r, (let* q := demosaic (values d) o in theo_stokes dic q) = Ok r /\
    forall y x, 0 <= y < rows d -> 0 <= x < cols d -> (powerRZ 2 (-400) <= cell (sI r) y x)%R ->
      off_by (powerRZ 2 (-46) * cell (sI r) y x) (cell (pB s) y x) (cell (pB r) y x) /\
      off_by (powerRZ 2 (-44)) (cell (DoLP s) y x) (cell (DoLP r) y x).
Proof. exact (c104_demosaiced d dic o s). Qed.
Print Assumptions C104_demosaiced.

Theorem C104_binned (d : arr b64) b : ordinary d -> mosaic d -> 1 <= b -> b * b + 8 <= 2 ^ 41 ->
  exists d' r', evaluates (fun fuel => micropolarray_rebin fuel d b) d' /\ evaluates (fun fuel => micropolarray_rebin fuel (values d) b) r' /\
    forall dic o s, (let* q := demosaic d' o in theo_stokes dic q) = Ok s ->
      exists r, (let* q := demosaic r' o in theo_stokes dic q) = Ok r /\
        forall y x, 0 <= y < rows r' -> 0 <= x < cols r' -> (powerRZ 2 (-400) <= cell (sI r) y x)%R ->
          off_by (3 * (IZR (b * b + 8) * powerRZ 2 (-51)) * cell (sI r) y x) (cell (pB s) y x) (cell (pB r) y x) /\
          off_by (16 * (IZR (b * b + 8) * powerRZ 2 (-51))) (cell (DoLP s) y x) (cell (DoLP r) y x).
Proof. exact (c104_binned d b). Qed.
Print Assumptions C104_binned.

(** A barely polarized superpixel, a dark one, and what is computed for them *)
Definition third (k : Z) : b64 := SFdiv 53 1024 (b64_ofZ k) (b64_ofZ 3).
Definition thirds : arr b64 := of_list (b64_ofZ 0) 2 4 (map third [1000000; 1000001; 0; 0; 1000000; 1000002; 0; 0]).
Example C104_case : ordinary thirds /\ mosaic thirds /\ 2 * 2 + 8 <= 2 ^ 41 /\
  on_ok (fun s => b64_same (cell (sI s) 0 1) n0 && b64_same (cell (DoLP s) 0 1) n0)%bool (data_stokes polarcam_angles thirds) = Ok true /\
  on_ok (fun s => nltb n0 (cell (DoLP s) 0 0) && nltb (cell (DoLP s) 0 0) (SFdiv 53 1024 (b64_ofZ 2) (b64_ofZ 1000000)))%bool
    (data_stokes polarcam_angles thirds) = Ok true.
Proof.
  split; [|split; [repeat split; vm_compute; congruence|split; [discriminate|split; vm_compute; reflexivity]]].
  intros y x Hy Hx. change (rows thirds) with 2 in Hy. change (cols thirds) with 4 in Hx.
  assert (Y : y = 0 \/ y = 1) by lia. assert (X : x = 0 \/ x = 1 \/ x = 2 \/ x = 3) by lia.
  destruct Y as [-> | ->], X as [-> | [-> | [-> | ->]]];
    match goal with |- is_binary64 ?c /\ _ => let v := eval vm_compute in c in change c with v end;
    first [apply ordinary_one; vm_compute; (congruence || (split; congruence))
          |split; [reflexivity|split; [exact I|left; reflexivity]]].
Qed.
