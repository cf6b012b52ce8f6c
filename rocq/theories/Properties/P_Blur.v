(** Properties C106, C107: Stokes parameters of demosaiced, binned and averaged images. *)
From Coq Require Import Reals Lra.
From Verif Require Import Base.Base Base.Num Model.Demosaic Model.Rebin Model.Stokes Model.Pol Model.FileInit
  Spec.SumSpec Spec.MosaicSpec Spec.StokesSpec Spec.Terminates Spec.CleanSpec Spec.FilesSpec Spec.BlurSpec
  Proofs.BlurFacts.
Local Open Scope R_scope.

(** ** C106.  Demosaicing interpolates the Stokes parameters of the raw image, *)
Theorem C106_adjacent dic a (d : arr R) :
  describes dic a -> mosaic d ->
  exists s q t, data_stokes dic d = Ok s /\ demosaic d "adjacent" = Ok q /\ theo_stokes dic q = Ok t /\
    stokes_is t (rows d) (cols d) (stretched (rows d / 2) (cols d / 2) (cell (sI s)))
      (stretched (rows d / 2) (cols d / 2) (cell (sQ s))) (stretched (rows d / 2) (cols d / 2) (cell (sU s))).
Proof. exact (c106_adjacent dic a d). Qed.
Print Assumptions C106_adjacent.

(** or spreads them over the superpixel. *)
Theorem C106_mean dic a (d : arr R) :
  describes dic a -> mosaic d ->
  exists s q t, data_stokes dic d = Ok s /\ demosaic d "mean" = Ok q /\ theo_stokes dic q = Ok t /\
    stokes_is t (rows d) (cols d) (fun y x => cell (sI s) (y / 2) (x / 2) / 4)
      (fun y x => cell (sQ s) (y / 2) (x / 2) / 4) (fun y x => cell (sU s) (y / 2) (x / 2) / 4) /\
    forall y x, (0 <= y < rows d)%Z -> (0 <= x < cols d)%Z ->
      cell (DoLP t) y x = cell (DoLP s) (y / 2) (x / 2) /\ cell (AoLP t) y x = cell (AoLP s) (y / 2) (x / 2) /\
      cell (pB t) y x = cell (pB s) (y / 2) (x / 2) / 4.
Proof. exact (c106_mean dic a d). Qed.
Print Assumptions C106_mean.

(** Four superpixels of 8, 4, 2 and 2: interpolated inside, and beyond the last row and column. *)
Example C106_case :
  mosaic (full 4 4 1) /\
  let f Y X := (if Y =? 0 then if X =? 0 then 8 else 4 else 2)%Z in
  let s := stretched 2 2 (fun Y X => IZR (f Y X)) in
  s 0%Z 0%Z = 8 /\ s 0%Z 1%Z = 6 /\ s 1%Z 0%Z = 5 /\ s 1%Z 1%Z = 4 /\ s 0%Z 3%Z = 4 /\ s 1%Z 3%Z = 3 /\ s 3%Z 3%Z = 2.
Proof.
  split; [repeat split; vm_compute; congruence|]. cbv zeta.
  repeat split; unfold stretched, next; cbn; lra.
Qed.

(** ** C107.  No pixel of the result is more polarized than the most polarized of the superpixels
    it is made of. *)
Theorem C107_demosaic dic a (d : arr R) s q t M :
  describes dic a -> mosaic d -> nonnegative d -> data_stokes dic d = Ok s ->
  demosaic d "adjacent" = Ok q -> theo_stokes dic q = Ok t -> 0 <= M ->
  (forall Y X, (0 <= Y < rows d / 2)%Z -> (0 <= X < cols d / 2)%Z -> cell (DoLP s) Y X <= M) ->
  forall y x, (0 <= y < rows d)%Z -> (0 <= x < cols d)%Z ->
    cell (pB t) y x <= stretched (rows d / 2) (cols d / 2) (cell (pB s)) y x /\ cell (DoLP t) y x <= M.
Proof. exact (c107_demosaic dic a d s q t M). Qed.
Print Assumptions C107_demosaic.

Theorem C107_rebin dic a (d : arr R) b M :
  describes dic a -> mosaic d -> nonnegative d -> (1 <= b)%Z ->
  exists s r t, data_stokes dic d = Ok s /\ evaluates (fun fuel => micropolarray_rebin fuel d b) r /\ data_stokes dic r = Ok t /\
    forall Y X, (0 <= Y < rows r / 2)%Z -> (0 <= X < cols r / 2)%Z ->
      cell (pB t) Y X <= rsum2 b b (fun y x => cell (pB s) (b * Y + y) (b * X + x)) /\
      (0 <= M -> (forall y x, (0 <= y < b)%Z -> (0 <= x < b)%Z -> cell (DoLP s) (b * Y + y) (b * X + x) <= M) ->
       cell (DoLP t) Y X <= M).
Proof. exact (c107_rebin dic a d b M). Qed.
Print Assumptions C107_rebin.

Theorem C107_files (rd : reader R) dic a names (avg : bool) height width content head time st M :
  describes dic a -> series rd names height width content head time -> (2 <= length names)%nat ->
  (forall name, In name names -> mosaic (content name) /\ nonnegative (content name) /\
     data_stokes dic (content name) = Ok (st name)) ->
  let share := if avg then / INR (length names) else 1 in
  exists im t, image_from_list rd names avg = Ok im /\ data_stokes dic (l_data im) = Ok t /\
    forall Y X, (0 <= Y < height / 2)%Z -> (0 <= X < width / 2)%Z ->
      cell (pB t) Y X <= share * total (map (fun name => cell (pB (st name)) Y X) names) /\
      (0 <= M -> (forall name, In name names -> cell (DoLP (st name)) Y X <= M) -> cell (DoLP t) Y X <= M).
Proof. exact (c107_files rd dic a names avg height width content head time st M). Qed.
Print Assumptions C107_files.

(** Fully polarized superpixels of crossed directions, and of two files. *)
Definition crossed : arr R :=
  mkarr 4 4 (fun y x => let v := IZR (if (y mod 2 =? 0)%Z then if (x mod 2 =? 0)%Z then 2 else 1 else if (x mod 2 =? 0)%Z then 1 else 0) in
    if (x <? 2)%Z then v else 2 - v).
Example C107_case :
  mosaic crossed /\ nonnegative crossed /\
  exists s, data_stokes polarcam_angles crossed = Ok s /\
    (cell (sI s) 0 0 = 2 /\ cell (sQ s) 0 0 = 2 /\ cell (sU s) 0 0 = 0) /\
    (cell (sI s) 0 1 = 2 /\ cell (sQ s) 0 1 = -2 /\ cell (sU s) 0 1 = 0).
Proof.
  split; [repeat split; vm_compute; congruence|]. split.
  - intros y x _ _. cbn [crossed cell]. destruct (y mod 2 =? 0)%Z, (x mod 2 =? 0)%Z, (x <? 2)%Z; lra.
  - eexists. split; [reflexivity|]. cbn [sI sQ sU half_sum amap2 cell]. cbn. repeat split; lra.
Qed.

Example C107_files_case :
  let rd := mkreader R (fun name => Ok (if String.eqb name "a" then crossed else full 4 4 3, [])) (fun _ => None) (fun _ => None) (fun _ => ""%string) in
  let content name := if String.eqb name "a" then crossed else full 4 4 3 in
  series rd ["a"; "b"]%string 4 4 content (fun _ => []) (fun _ => None) /\
  forall name, mosaic (content name) /\ nonnegative (content name) /\ exists s, data_stokes polarcam_angles (content name) = Ok s.
Proof.
  cbv zeta. split; [split|].
  - cbn. intuition discriminate.
  - intros name _. split; [reflexivity|]. split; [|split].
    + destruct (String.eqb name "a"); reflexivity.
    + destruct (String.eqb name "a"); reflexivity.
    + apply no_date. intros v H. inversion H.
  - intros name. destruct (String.eqb name "a").
    + destruct C107_case as (M & N & s & E & _). split; [exact M|]. split; [exact N|]. exists s. exact E.
    + split; [repeat split; vm_compute; congruence|]. split; [intros y x _ _; cbn; lra|]. eexists. reflexivity.
Qed.
