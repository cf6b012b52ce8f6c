(** Property C67: aligning data and keywords. *)
From Coq Require Import Reals String.
From Verif Require Import Base.Base Base.Num Model.Keywords Spec.MosaicSpec Spec.KeywordSpec Proofs.KeywordFacts.
Local Open Scope string_scope.
Local Open Scope Z_scope.

(** ** C67.  Data and header of a square mosaic. *)
Theorem C67_alignment {D} `{Num D} n (h : header R) (data : arr D) (sy sx : R) ps binning date time :
  square n data -> keyword h "DATE-OBS" (HStr date) -> keyword h "TIME-OBS" (HStr time) ->
  exists h' d, align_keywords_and_data h data (sy, sx) ps binning = Ok (h', d) /\
    all_moved n data d /\
    keyword h' "NAXIS1" (HInt (2 * n)) /\ keyword h' "NAXIS2" (HInt (2 * n)) /\
    keyword h' "DATE-OBS" (HStr (date ++ "T" ++ time)) /\
    (let p := if 1 <? binning then (ps * IZR binning)%R else ps in
     keyword h' "CDELT1" (HNum p) /\ keyword h' "CDELT2" (HNum p)) /\
    (forall k v, ~ In k written -> keyword h k v -> keyword h' k v).
Proof. exact (c67_align n h data sy sx ps binning date time). Qed.
Print Assumptions C67_alignment.

(** Twice restores the data; the date keyword gets the time appended twice. *)
Theorem C67_twice {D} `{Num D} n (h : header R) (data : arr D) s1 s2 p1 p2 b1 b2 date time :
  square n data -> keyword h "DATE-OBS" (HStr date) -> keyword h "TIME-OBS" (HStr time) ->
  exists h' d h'' e, align_keywords_and_data h data s1 p1 b1 = Ok (h', d) /\
    align_keywords_and_data h' d s2 p2 b2 = Ok (h'', e) /\ e =a= data /\
    keyword h'' "DATE-OBS" (HStr ((date ++ "T" ++ time) ++ "T" ++ time)).
Proof. exact (c67_twice n h data s1 s2 p1 p2 b1 b2 date time). Qed.
Print Assumptions C67_twice.

(** Other mosaics are rejected. *)
Theorem C67_not_square {D} `{Num D} (h : header R) (data : arr D) sun ps binning :
  mosaic data -> rows data <> cols data -> align_keywords_and_data h data sun ps binning = Raise ValueError.
Proof. exact (align_not_square h data sun ps binning). Qed.
Print Assumptions C67_not_square.

(** Full-size images, sun centre at the pixel (y, x), exact arithmetic. *)
Theorem C67_sun_centre_partial {D} `{Num D} (h : header R) (data : arr D) y x ps binning date time :
  square 976 data -> keyword h "DATE-OBS" (HStr date) -> keyword h "TIME-OBS" (HStr time) ->
  0 <= y < 1952 -> 0 <= x < 1952 ->
  exists h' d c1 c2, align_keywords_and_data h data (IZR y, IZR x) ps binning = Ok (h', d) /\
    keyword h' "CRPIX1" (HInt c1) /\ keyword h' "CRPIX2" (HInt c2) /\
    Z.abs (c1 - 1 - moved_col 976 y x) <= 1 /\ Z.abs (c2 - 1 - moved_row 976 y x) <= 1.
Proof. exact (c67_sun h data y x ps binning date time). Qed.
Print Assumptions C67_sun_centre_partial.

(** In binary64, 1952 * (246 / 1952) is below 246 and truncates to 245: two pixels off. *)
Theorem C67_sun_centre_refuted {D} `{Num D} (h : header b64) (data : arr D) ps binning date time :
  square 976 data -> keyword h "DATE-OBS" (HStr date) -> keyword h "TIME-OBS" (HStr time) ->
  exists h' d, align_keywords_and_data h data (b64_ofZ 246, b64_ofZ 0) ps binning = Ok (h', d) /\
    keyword h' "CRPIX1" (HInt 1707) /\ 1707 - 1 - moved_col 976 246 0 = 2.
Proof. exact (c67_float h data ps binning date time). Qed.
Print Assumptions C67_sun_centre_refuted.

(** Hypotheses: a full-size image with a header. *)
Example C67_case : exists (h : header R) (data : arr R),
  square 976 data /\ keyword h "DATE-OBS" (HStr "2021-06-14") /\ keyword h "TIME-OBS" (HStr "10:00:00") /\
  keyword h "INSTRUME" (HStr "ASPIICS").
Proof.
  exists [("DATE-OBS", HStr "2021-06-14"); ("INSTRUME", HStr "ASPIICS"); ("TIME-OBS", HStr "10:00:00")],
    (mkarr 1952 1952 (fun y x => IZR (y - x))).
  split; [repeat split; cbn; lia|]. split; [constructor|].
  split; [|apply kw_later; [discriminate|constructor]].
  apply kw_later; [discriminate|]. apply kw_later; [discriminate|]. constructor.
Qed.
