(** Property C105: rounding errors of demodulation and of sums and means of files. *)
From Coq Require Import String Reals Floats.SpecFloat.
From Verif Require Import Base.Base Base.Num Model.Demosaic Model.Stokes Model.Demodulate Model.Keywords Model.FileInit
  Spec.Terminates Spec.AngleSpec Spec.MosaicSpec Spec.DemodSpec Spec.FloatSpec Spec.FilesSpec Spec.CleanSpec
  Proofs.RoundFacts Proofs.RoundImages Proofs.RoundDemod.
Local Open Scope string_scope.
Local Open Scope Z_scope.

(** Demodulated raw images *)
Theorem C105_demodulated (d : demodulator b64) (data : arr b64) old h w big top :
  bounded top data -> tensor_bounded big (mij d) -> (0 <= big)%R -> (0 <= top)%R -> (big * top <= powerRZ 2 1000)%R ->
  mosaic data -> h = rows data / 2 -> w = cols data / 2 -> t_rows (mij d) = h -> t_cols (mij d) = w ->
  (forall f, fit_found_flags d = Some f ->
     (rows f = h /\ cols f = w) /\ (rows (sI old) = h /\ cols (sI old) = w) /\
     (rows (sQ old) = h /\ cols (sQ old) = w) /\ (rows (sU old) = h /\ cols (sU old) = w)) ->
  exists s, demod_raw d data old = Ok s /\
    forall Y X, 0 <= Y < h -> 0 <= X < w ->
      (forall f, fit_found_flags d = Some f -> neqb (cell f Y X) n1 = true) ->
      let m i j := t_cell (mij d) i j Y X in
      let off i x := off_by (powerRZ 2 (-50) * abs_row m (fun k => sample (absolute data) k Y X) i + powerRZ 2 (-1070))
                       x (exact_row m (fun k => sample (values data) k Y X) i) in
      off 0 (cell (sI s) Y X) /\ off 1 (cell (sQ s) Y X) /\ off 2 (cell (sU s) Y X).
Proof. exact (c105_raw d data old h w big top). Qed.
Print Assumptions C105_demodulated.

(** Demodulated with demosaicing *)
Theorem C105_demosaiced dic a (d : demodulator b64) (data : arr b64) f h w big top :
  bounded top data -> tensor_bounded big (mij d) -> (0 <= big <= powerRZ 2 50)%R -> (0 <= top <= powerRZ 2 900)%R ->
  describes dic a -> mosaic data -> h = rows data / 2 -> w = cols data / 2 -> t_rows (mij d) = h -> t_cols (mij d) = w ->
  fit_found_flags d = Some f -> rows f = h -> cols f = w ->
  exists s, demod_with_demosaic dic d data = Ok s /\
    forall y x, 0 <= y < rows data -> 0 <= x < cols data -> neqb (cell f (y / 2) (x / 2)) n1 = true ->
      let m i j := t_cell (mij d) i j (y / 2) (x / 2) in
      let off i p := off_by (powerRZ 2 (-49) * abs_row m (fun k => interpolated (absolute data) k y x) i + powerRZ 2 (-1000))
                       p (exact_row m (fun k => interpolated (values data) k y x) i) in
      off 0 (cell (sI s) y x) /\ off 1 (cell (sQ s) y x) /\ off 2 (cell (sU s) y x).
Proof. exact (c105_demosaiced dic a d data f h w big top). Qed.
Print Assumptions C105_demosaiced.

(** Sums and means of files *)
Theorem C105_files (rd : reader b64) names (avg : bool) height width content head time top :
  series rd names height width content head time -> (2 <= length names)%nat ->
  (forall name, In name names -> bounded top (content name)) ->
  (0 <= top)%R -> (INR (length names) * top <= powerRZ 2 1000)%R -> (INR (length names) <= powerRZ 2 52)%R ->
  exists im, image_from_list rd names avg = Ok im /\ rows (l_data im) = height /\ cols (l_data im) = width /\
    forall y x, 0 <= y < height -> 0 <= x < width ->
      let n := INR (length names) in
      let k := if avg then n else 1%R in
      off_by (n * powerRZ 2 (-52) * (total (map (fun name => Rabs (fval (cell (content name) y x))) names) / k) + n * powerRZ 2 (-1074))%R
        (cell (l_data im) y x) (total (map (fun name => fval (cell (content name) y x)) names) / k)%R.
Proof. exact (c105_files rd names avg height width content head time top). Qed.
Print Assumptions C105_files.

(** Tenths again: a demodulator with one superpixel that was fitted and one that was not, and three files *)
Definition part (k : Z) : b64 := SFdiv 53 1024 (b64_ofZ k) (b64_ofZ 10).
Definition parts : arr b64 := of_list (b64_ofZ 0) 2 4 (map part [1; -2; 3; 7; 2; 9; 1; -6]).
Definition gains : demodulator b64 :=
  mkdemodulator (mktensor 1 2 (fun i j _ _ => part (3 * i - 2 * j))) (Some (mkarr 1 2 (fun _ x => b64_ofZ (1 - x)))).
Definition camera : reader b64 := mkreader b64 (fun _ => Ok (parts, [])) (fun _ => None) (fun _ => None) (fun _ => "").
Example C105_case : bounded 1 parts /\ tensor_bounded 1 (mij gains) /\ (1 * 1 <= powerRZ 2 1000)%R /\ mosaic parts /\
  series camera ["a"; "b"; "c"] 2 4 (fun _ => parts) (fun _ => []) (fun _ => None) /\ (INR 3 * 1 <= powerRZ 2 52)%R /\
  on_ok (fun s => nltb (SFdiv 53 1024 (b64_ofZ 24) (b64_ofZ 100)) (cell (sI s) 0 2) && nltb (cell (sI s) 0 2) (SFdiv 53 1024 (b64_ofZ 26) (b64_ofZ 100)))%bool
    (demod_with_demosaic polarcam_angles gains parts) = Ok true /\
  on_ok (fun im => b64_same (cell (l_data im) 0 0) (part 1)) (image_from_list camera ["a"; "b"; "c"] true) = Ok true /\
  on_ok (fun im => b64_same (cell (l_data im) 0 0) (part 3)) (image_from_list camera ["a"; "b"; "c"] false) = Ok false.
Proof.
  assert (P : forall k, -9 <= k <= 9 -> is_binary64 (part k) /\ finite64 (part k) /\ (Rabs (fval (part k)) <= 1)%R).
  { intros k Hk. assert (E : In k (map (fun i => Z.of_nat i - 9) (seq 0 19))) by (apply in_map_iff; exists (Z.to_nat (k + 9)); split; [lia|apply in_seq; lia]).
    cbn [seq map] in E. destruct E as [<-|[<-|[<-|[<-|[<-|[<-|[<-|[<-|[<-|[<-|[<-|[<-|[<-|[<-|[<-|[<-|[<-|[<-|[<-|[]]]]]]]]]]]]]]]]]]]];
      match goal with |- is_binary64 ?c /\ _ => let v := eval vm_compute in c in change c with v end;
      first [apply below_one; vm_compute; congruence|split; [reflexivity|split; [exact I|cbn [fval]; rewrite Rabs_R0; exact Rle_0_1]]]. }
  assert (T : forall n, 0 <= n -> (1 <= powerRZ 2 n)%R) by (intros n Hn; rewrite power2; exact (Flocq.Core.Raux.bpow_le Flocq.Core.Zaux.radix2 0 n Hn)).
  split; [|split; [|split; [rewrite Rmult_1_l; apply T; discriminate|split; [repeat split; vm_compute; congruence|split; [|split; [|repeat split; vm_compute; reflexivity]]]]]].
  - intros y x Hy Hx. change (rows parts) with 2 in Hy. change (cols parts) with 4 in Hx.
    assert (Y : y = 0 \/ y = 1) by lia. assert (X : x = 0 \/ x = 1 \/ x = 2 \/ x = 3) by lia.
    destruct Y as [-> | ->], X as [-> | [-> | [-> | ->]]]; apply P; lia.
  - intros i j Y X Hi Hj _ _. apply P. lia.
  - split; [cbn; intuition discriminate|]. intros name _. repeat split. constructor. intros v K. inversion K.
  - replace (INR 3 * 1)%R with 3%R by (cbn; ring). rewrite power2. apply Rle_trans with (2 := Flocq.Core.Raux.bpow_le Flocq.Core.Zaux.radix2 2 52 ltac:(discriminate)). apply (IZR_le 3 4). discriminate.
Qed.
