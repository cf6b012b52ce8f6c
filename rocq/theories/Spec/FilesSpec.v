(** Observation times of headers, and series of files. *)
From Coq Require Import String Ascii.
From Verif Require Import Base.Base Model.Keywords Model.FileInit Spec.KeywordSpec Spec.FsSpec.
Local Open Scope string_scope.

(** [p] is what precedes the first dot of [s]. *)
Definition upto_dot (s p : string) : Prop := no_char "." p /\ (s = p \/ exists rest, s = p ++ String "." rest).

Definition absent {A} (h : header A) (k : string) : Prop := forall v, ~ keyword h k v.

(** The observation time of a header: none without DATE-OBS, otherwise DATE-OBS alone or with TIME-OBS. *)
Inductive dated {A} (rd : reader A) (h : header A) : option Z -> Prop :=
| no_date : absent h "DATE-OBS" -> dated rd h None
| iso_date d p t : keyword h "DATE-OBS" (HStr d) -> upto_dot d p -> strptime_iso rd p = Some t -> dated rd h (Some t)
| two_part_date d p c q t : keyword h "DATE-OBS" (HStr d) -> upto_dot d p -> strptime_iso rd p = None ->
    keyword h "TIME-OBS" (HStr c) -> upto_dot c q -> strptime_antarticor rd (d ++ "-" ++ q) = Some t ->
    dated rd h (Some t).

(** The named files hold images of one shape, with known or absent observation times. *)
Definition series {A} (rd : reader A) (names : list string) (height width : Z)
    (content : string -> arr A) (head : string -> header A) (time : string -> option Z) : Prop :=
  ~ In ".raw" names /\
  forall name, In name names -> fits_open rd name = Ok (content name, head name) /\
    rows (content name) = height /\ cols (content name) = width /\ dated rd (head name) (time name).

Definition earliest (names : list string) (time : string -> option Z) (t : Z) : Prop :=
  (exists name, In name names /\ time name = Some t) /\
  forall name t', In name names -> time name = Some t' -> (t <= t')%Z.
Definition latest (names : list string) (time : string -> option Z) (t : Z) : Prop :=
  (exists name, In name names /\ time name = Some t) /\
  forall name t', In name names -> time name = Some t' -> (t' <= t)%Z.
