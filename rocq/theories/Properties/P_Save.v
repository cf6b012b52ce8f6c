(** Property C99: saving an image as a fits file. *)
From Coq Require Import String Ascii Reals Lra.
From Verif Require Import Base.Base Model.Paths Model.Fs Model.Save Spec.FsSpec Spec.DirSpec Spec.PixelSpec Proofs.SaveFacts.
Local Open Scope string_scope.
Local Open Scope list_scope.

(** ** C99.  Full statement: the image, limited to the range given, is stored under the name
    given, in folders created for it, and nothing else changes.  True without a range and for
    ranges without 0, *)
Theorem C99_saved_partial cwd fits_f8 d stem fixto data s :
  is_abs cwd = true -> dir_part d -> no_char "/" stem -> stem <> "" ->
  writable cwd (d ++ stem ++ ".fits") s ->
  (forall lo hi, fixto = Some (lo, hi) -> (lo <= hi)%R /\ lo <> 0%R /\ hi <> 0%R) ->
  let name := (d ++ stem ++ ".fits")%string in
  let m := save_as_fits cwd fits_f8 name fixto data in
  outcome m s = Ok tt /\
  (exists img, holds img data (fun y x => match fixto with Some (lo, hi) => clamp lo hi (cell data y x) | None => cell data y x end) /\
     after m s (key cwd name) = Some (File (fits_f8 (to_list img)))) /\
  (forall p n, p <> key cwd name -> s p = Some n -> after m s p = Some n) /\
  found cwd (after m s) (pparent (meant cwd name)) = Some Dir.
Proof.
  exact (fun Hc Hd Hs Hne W Hf => match W with conj A (conj B (conj C D)) =>
    c99_saved_range cwd Hc fits_f8 d stem fixto data s Hd Hs Hne A B C D Hf end).
Qed.
Print Assumptions C99_saved_partial.

(** false if one of the bounds is 0: the image is stored as it is. *)
Theorem C99_zero_refuted cwd fits_f8 d stem lo hi data s :
  is_abs cwd = true -> dir_part d -> no_char "/" stem -> stem <> "" ->
  writable cwd (d ++ stem ++ ".fits") s -> lo = 0%R \/ hi = 0%R ->
  let name := (d ++ stem ++ ".fits")%string in
  let m := save_as_fits cwd fits_f8 name (Some (lo, hi)) data in
  outcome m s = Ok tt /\ after m s (key cwd name) = Some (File (fits_f8 (to_list data))).
Proof.
  exact (fun Hc Hd Hs Hne W Hz => match W with conj A (conj B (conj C D)) =>
    c99_zero_refuted cwd Hc fits_f8 d stem lo hi data s Hd Hs Hne A B C D Hz end).
Qed.
Print Assumptions C99_zero_refuted.

(** Other names are refused, *)
Theorem C99_invalid cwd fits_f8 d n fixto data s :
  dir_part d -> no_char "/" n -> n <> "" -> n <> "." ->
  (forall stem, n = (stem ++ ".fits")%string -> stem = "") ->
  fails_cleanly (save_as_fits cwd fits_f8 (d ++ n) fixto data) s.
Proof. exact (c99_invalid cwd fits_f8 d n fixto data s). Qed.
Print Assumptions C99_invalid.

(** and other files survive an interruption, *)
Theorem C99_interrupted cwd fits_f8 d stem fixto data s s' p n :
  is_abs cwd = true -> dir_part d -> no_char "/" stem -> stem <> "" ->
  crash (save_as_fits cwd fits_f8 (d ++ stem ++ ".fits") fixto data) s s' ->
  p <> key cwd (d ++ stem ++ ".fits") -> s p = Some n -> s' p = Some n.
Proof. exact (c99_crash_others cwd fits_f8 d stem fixto data s s' p n). Qed.
Print Assumptions C99_interrupted.

(** but the image saved before is lost. *)
Theorem C99_lost_refuted cwd fits_f8 d stem fixto data s b old :
  is_abs cwd = true -> dir_part d -> no_char "/" stem -> stem <> "" ->
  s (key cwd (d ++ stem ++ ".fits")) = Some (File (b :: old)) ->
  outcome (save_as_fits cwd fits_f8 (d ++ stem ++ ".fits") fixto data) s = Ok tt ->
  exists s', crash (save_as_fits cwd fits_f8 (d ++ stem ++ ".fits") fixto data) s s' /\
    s' (key cwd (d ++ stem ++ ".fits")) = None.
Proof. exact (c99_lost cwd fits_f8 d stem fixto data s b old). Qed.
Print Assumptions C99_lost_refuted.

Example C99_case :
  let s : fs := fun p => if String.eqb p "/" || String.eqb p "/data" then Some Dir
    else if String.eqb p "/data/old.fits" then Some (File [1%Z]) else None in
  writable "/data" ("run/" ++ "a.b" ++ ".fits") s /\ writable "/data" ("" ++ "old" ++ ".fits") s /\
  (forall fits data, outcome (save_as_fits "/data" fits ("" ++ "old" ++ ".fits") None data) s = Ok tt) /\
  (forall lo hi, Some (1, 2)%R = Some (lo, hi) -> (lo <= hi)%R /\ lo <> 0%R /\ hi <> 0%R) /\
  dir_part "run/" /\ no_char "/" "a.b" /\
  (forall stem, "a.png" = (stem ++ ".fits")%string -> stem = "") /\
  (forall stem, ".fits" = (stem ++ ".fits")%string -> stem = "").
Proof.
  cbv zeta.
  assert (W1 : forall q, on_the_way (ppath_of "/data/run") q ->
    q = ppath_of "/" \/ q = ppath_of "/data" \/ q = ppath_of "/data/run").
  { intros q (n & ->). change (proot (ppath_of "/data/run")) with "/". change (pparts (ppath_of "/data/run")) with ["data"; "run"].
    destruct n as [|[|n]]; [left; reflexivity|right; left; reflexivity|right; right]. rewrite firstn_all2 by (cbn; lia). reflexivity. }
  assert (W2 : forall q, on_the_way (ppath_of "/data") q -> q = ppath_of "/" \/ q = ppath_of "/data").
  { intros q (n & ->). change (proot (ppath_of "/data")) with "/". change (pparts (ppath_of "/data")) with ["data"].
    destruct n as [|n]; [left; reflexivity|right]. rewrite firstn_all2 by (cbn; lia). reflexivity. }
  split; [|split; [|split; [intros; reflexivity|split; [intros lo hi E; injection E as <- <-; lra|]]]].
  - unfold writable. change (pparent (meant "/data" ("run/" ++ "a.b" ++ ".fits"))) with (ppath_of "/data/run").
    split; [|split; [reflexivity|split; [|discriminate]]]; intros q Hq; destruct (W1 q Hq) as [->|[->| ->]]; unfold no_file, found;
      [right; reflexivity|right; reflexivity|left; reflexivity|discriminate|discriminate|discriminate].
  - unfold writable. change (pparent (meant "/data" ("" ++ "old" ++ ".fits"))) with (ppath_of "/data").
    split; [|split; [reflexivity|split; [|discriminate]]]; intros q Hq; destruct (W2 q Hq) as [->| ->]; unfold no_file, found;
      [right; reflexivity|right; reflexivity|discriminate|discriminate].
  - split; [right; exists "run"; reflexivity|]. split; [intros [E|[E|[E|[]]]]; discriminate|].
    assert (L : forall a b, String.length (a ++ b) = (String.length a + String.length b)%nat).
    { intros a b. induction a as [|c a IH]; [reflexivity|]. cbn. f_equal. exact IH. }
    split; intros stem E.
    + destruct stem as [|c stem]; [reflexivity|]. exfalso. pose proof (f_equal String.length E) as El. rewrite L in El. cbn in El.
      assert (stem = "") by (destruct stem; [reflexivity|cbn in El; lia]). subst stem. discriminate.
    + destruct stem as [|c stem]; [reflexivity|]. exfalso. pose proof (f_equal String.length E) as El. rewrite L in El. cbn in El. lia.
Qed.
