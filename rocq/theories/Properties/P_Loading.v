(** Properties C51, C52: images made from files. *)
From Coq Require Import Reals Lra String Ascii Permutation.
From Verif Require Import Base.Base Base.Num Model.Keywords Model.FileInit Spec.KeywordSpec Spec.FsSpec Spec.CleanSpec
  Spec.FilesSpec Proofs.FilesFacts.
Local Open Scope string_scope.
Local Open Scope Z_scope.

(** ** C51.  Mean or sum of the files, in exact arithmetic. *)
Theorem C51_data (rd : reader R) names (avg : bool) height width content head time :
  series rd names height width content head time -> (2 <= length names)%nat ->
  exists im, image_from_list rd names avg = Ok im /\ rows (l_data im) = height /\ cols (l_data im) = width /\
    forall y x, 0 <= y < height -> 0 <= x < width ->
      cell (l_data im) y x = (let s := total (map (fun name => cell (content name) y x) names) in
                              if avg then s / INR (length names) else s)%R.
Proof. exact (c51_data rd names avg height width content head time). Qed.
Print Assumptions C51_data.

Theorem C51_order (rd : reader R) names names' (avg : bool) height width content head time :
  series rd names height width content head time -> (2 <= length names)%nat -> Permutation names names' ->
  exists im im', image_from_list rd names avg = Ok im /\ image_from_list rd names' avg = Ok im' /\
    l_data im =a= l_data im'.
Proof. exact (c51_order rd names names' avg height width content head time). Qed.
Print Assumptions C51_order.

(** The header, for any number type. *)
Theorem C51_header {A} `{Num A} (rd : reader A) first second rest (avg : bool) height width content head time :
  let names := first :: second :: rest in
  series rd names height width content head time ->
  exists im, image_from_list rd names avg = Ok im /\
    keyword (l_header im) "SUMOF" (HInt (Z.of_nat (length names))) /\
    keyword (l_header im) "NAXIS1" (HInt width) /\ keyword (l_header im) "NAXIS2" (HInt height) /\
    (forall t, earliest names time t -> keyword (l_header im) "STRT-OBS" (HStr (show_date rd t))) /\
    (forall t, latest names time t -> keyword (l_header im) "END-OBS" (HStr (show_date rd t))) /\
    (forall k v, ~ In k ["NAXIS1"; "NAXIS2"; "SUMOF"; "STRT-OBS"; "END-OBS"] -> keyword (head first) k v ->
       keyword (l_header im) k v) /\
    ((forall name, In name names -> time name = None) -> forall k v, In k ["STRT-OBS"; "END-OBS"] ->
       keyword (head first) k v -> keyword (l_header im) k v).
Proof. exact (c51_header rd first second rest avg height width content head time). Qed.
Print Assumptions C51_header.

(** Three files in a folder, observed in the order 2, 3, 1. *)
Definition observed (z : Z) : header R := [("DATE-OBS", HStr (match z with 1 => "three.5" | 2 => "one" | _ => "two.25" end)); ("GAIN", HInt z)].
Definition disk : reader R := mkreader R
  (fun name => let file z := Ok (mkarr 2 2 (fun y x => IZR (10 * z + 2 * y + x)), observed z) in
     if String.eqb name "d/a.fits" then file 1 else if String.eqb name "d/b.fits" then file 2
     else if String.eqb name "d/c.fits" then file 3 else Raise FileNotFoundError)
  (fun s => if String.eqb s "one" then Some 1 else if String.eqb s "two" then Some 2 else if String.eqb s "three" then Some 3 else None)
  (fun _ => None) (fun t => if t =? 1 then "first" else "later").
Definition which (name : string) : Z := if String.eqb name "d/a.fits" then 1 else if String.eqb name "d/b.fits" then 2 else 3.
Example C51_case :
  let names := ["d/a.fits"; "d/b.fits"; "d/c.fits"] in
  let time name := Some (match which name with 1 => 3 | 2 => 1 | _ => 2 end) in
  series disk names 2 2 (fun name => mkarr 2 2 (fun y x => IZR (10 * which name + 2 * y + x)))
    (fun name => observed (which name)) time /\
  earliest names time 1 /\ latest names time 3.
Proof.
  cbv zeta. split; [split|split; split].
  - cbn. intuition discriminate.
  - assert (U : forall d, d = "three.5" -> upto_dot d "three") by
      (intros d ->; split; [cbn; intros C; repeat (destruct C as [C|C]; [discriminate C|]); exact C|right; exists "5"; reflexivity]).
    assert (V : upto_dot "two.25" "two") by
      (split; [cbn; intros C; repeat (destruct C as [C|C]; [discriminate C|]); exact C|right; exists "25"; reflexivity]).
    intros name [<-|[<-|[<-|[]]]]; (split; [reflexivity|split; [reflexivity|split; [reflexivity|]]]).
    + eapply iso_date; [constructor|apply U; reflexivity|reflexivity].
    + eapply iso_date; [constructor|split; [|left; reflexivity]|reflexivity].
      cbn; intros C; repeat (destruct C as [C|C]; [discriminate C|]); exact C.
    + eapply iso_date; [constructor|exact V|reflexivity].
  - exists "d/b.fits". split; [cbn; tauto|reflexivity].
  - intros name t [<-|[<-|[<-|[]]]] E; injection E as <-; lia.
  - exists "d/a.fits". split; [cbn; tauto|reflexivity].
  - intros name t [<-|[<-|[<-|[]]]] E; injection E as <-; lia.
Qed.

(** In binary64 the order matters: (2^60 + 1) - 2^60 is 0, (2^60 - 2^60) + 1 is 1. *)
Definition float_disk : reader b64 := mkreader b64
  (fun name => let file z := Ok (full 1 1 (b64_ofZ z), []) in
     if String.eqb name "a" then file (2 ^ 60) else if String.eqb name "b" then file 1 else file (- 2 ^ 60))
  (fun _ => None) (fun _ => None) (fun _ => "").
Theorem C51_float_order_refuted :
  on_ok (fun im => neqb (cell (l_data im) 0 0) (b64_ofZ 0)) (image_from_list float_disk ["a"; "b"; "c"] false) = Ok true /\
  on_ok (fun im => neqb (cell (l_data im) 0 0) (b64_ofZ 1)) (image_from_list float_disk ["a"; "c"; "b"] false) = Ok true.
Proof. exact (conj eq_refl eq_refl). Qed.
Print Assumptions C51_float_order_refuted.

(** and the mean of ten equal images is not that image: each is divided by ten first. *)
Definition equal_disk : reader b64 := mkreader b64 (fun _ => Ok (full 1 1 (b64_ofZ 1), [])) (fun _ => None) (fun _ => None) (fun _ => "").
Theorem C51_float_mean_refuted :
  on_ok (fun im => nltb (cell (l_data im) 0 0) (b64_ofZ 1)) (image_from_list equal_disk (repeat "a" 10) true) = Ok true.
Proof. exact eq_refl. Qed.
Print Assumptions C51_float_mean_refuted.

(** A date in neither format: the file cannot be loaded at all without TIME-OBS. *)
Theorem C51_undated {A} `{Num A} (rd : reader A) name a h d p (avg : bool) :
  name <> ".raw" -> fits_open rd name = Ok (a, h) ->
  keyword h "DATE-OBS" (HStr d) -> upto_dot d p -> strptime_iso rd p = None -> absent h "TIME-OBS" ->
  image_from_list rd [name] avg = Raise KeyError /\ image_from_name rd name avg = Raise KeyError.
Proof. exact (c51_undated rd name a h d p avg). Qed.
Print Assumptions C51_undated.

Theorem C51_empty {A} `{Num A} (rd : reader A) avg : image_from_list rd [] avg = Raise NameError.
Proof. exact (c51_empty rd avg). Qed.
Print Assumptions C51_empty.

(** ** C52.  The file name: kept for a list of one, *)
Theorem C52_list_of_one_partial {A} `{Num A} (rd : reader A) name (avg : bool) height width content head time :
  series rd [name] height width content head time ->
  exists im, image_from_list rd [name] avg = Ok im /\ l_filename im = name /\
    rows (l_data im) = height /\ cols (l_data im) = width /\
    (forall y x, 0 <= y < height -> 0 <= x < width -> cell (l_data im) y x = cell (content name) y x /! nofZ 1) /\
    (forall k v, ~ In k ["NAXIS1"; "NAXIS2"] -> keyword (head name) k v -> keyword (l_header im) k v).
Proof. exact (c52_list rd name avg height width content head time). Qed.
Print Assumptions C52_list_of_one_partial.

(** but only its first character for a plain name. *)
Theorem C52_plain_name_refuted {A} `{Num A} (rd : reader A) a name (avg : bool) height width content head time :
  series rd [String a name] height width content head time ->
  exists im, image_from_name rd (String a name) avg = Ok im /\ l_filename im = String a "".
Proof. exact (c52_name rd a name avg height width content head time). Qed.
Print Assumptions C52_plain_name_refuted.

(** Several files are named after the first. *)
Theorem C52_sum_name {A} `{Num A} (rd : reader A) first second rest (avg : bool) height width content head time :
  series rd (first :: second :: rest) height width content head time ->
  exists im, image_from_list rd (first :: second :: rest) avg = Ok im /\
    (no_char "/" first -> l_filename im = "SUM_" ++ first) /\
    forall d b, first = d ++ String "/" b -> no_char "/" b -> l_filename im = d ++ "/SUM_" ++ b.
Proof. exact (c52_sum rd first second rest avg height width content head time). Qed.
Print Assumptions C52_sum_name.

Example C52_case : on_ok l_filename (image_from_list disk ["d/a.fits"; "d/b.fits"] true) = Ok "d/SUM_a.fits" /\
  on_ok l_filename (image_from_list disk ["d/a.fits"] true) = Ok "d/a.fits" /\
  on_ok l_filename (image_from_name disk "d/a.fits" true) = Ok "d".
Proof. split; [|split]; reflexivity. Qed.
