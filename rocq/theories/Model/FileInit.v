(** Image(filename) and Image(list of filenames): micropolarray/image.py 38-111.

    Reading FITS, parsing and printing dates are oracles; dates are integers (ordered instants).
    [hul.verify("fix")] and messages are not represented. *)
From Coq Require Import String Ascii.
From Verif Require Import Base.Base Base.Num Base.Bcast Model.Keywords Model.Paths.
Local Open Scope string_scope.

Record reader (A : Type) : Type := mkreader {
  fits_open : string -> result (arr A * header A);
  strptime_iso : string -> option Z;         (* "%Y-%m-%dT%H:%M:%S"; None is ValueError *)
  strptime_antarticor : string -> option Z;  (* "%Y-%m-%d-%H:%M:%S" *)
  show_date : Z -> string
}.
Arguments fits_open {A} r.
Arguments strptime_iso {A} r.
Arguments strptime_antarticor {A} r.
Arguments show_date {A} r.

(** What the constructor sets. *)
Record loaded (A : Type) : Type := mkloaded { l_data : arr A; l_header : header A; l_filename : string }.
Arguments mkloaded {A} l_data l_header l_filename.
Arguments l_data {A} l.
Arguments l_header {A} l.
Arguments l_filename {A} l.

Fixpoint insertZ (v : Z) (l : list Z) : list Z :=
  match l with
  | [] => [v]
  | u :: l' => if (v <=? u)%Z then v :: l else u :: insertZ v l'
  end.
Definition sortedZ (l : list Z) : list Z := fold_right insertZ [] l.

(** [s.split(".")[0]] of a header value *)
Definition hsplit_dot {A} (v : hval A) : result string :=
  match v with
  | HStr s => Ok (hd "" (split_on dot s))
  | _ => Raise AttributeError
  end.

Section Load.
  Context {A : Type} `{Num A} (rd : reader A).

  (** Lines 73-88; [None] is the 0 left in the list. *)
  Definition date_of (h : header A) : result (option Z) :=
    match hget h "DATE-OBS" with
    | Raise KeyError => Ok None
    | Raise e => Raise e
    | NoFuel => NoFuel
    | Ok d =>
        let* s := hsplit_dot d in
        match strptime_iso rd s with
        | Some t => Ok (Some t)
        | None =>
            let* day := hstr d in
            let* time := hget h "TIME-OBS" in
            let* time := hsplit_dot time in
            match strptime_antarticor rd (day ++ "-" ++ time) with
            | Some t => Ok (Some t)
            | None => Raise ValueError
            end
        end
    end.

  (** Lines 48-88, for the files after the first. *)
  Fixpoint rest_of (all : list string) (divisor : Z) (names : list string) (combined : arr A) (dates : list (option Z))
      : result (arr A * list (option Z)) :=
    match names with
    | [] => Ok (combined, dates)
    | name :: names =>
        if existsb (String.eqb ".raw") all then Raise NameError else
        let* hul := fits_open rd name in
        let* combined := bmap2 nadd combined (amap (fun v => v /! nofZ divisor) (fst hul)) in
        let* d := date_of (snd hul) in
        rest_of all divisor names combined (dates ++ [d])
    end.

  (** Lines 38-97: the combined data, the first header with the sizes, the dates found. *)
  Definition combine_files (names : list string) (averageimages : bool) : result (arr A * header A * list Z) :=
    match names with
    | [] => Raise NameError
    | name :: rest =>
        if existsb (String.eqb ".raw") names then Raise NameError else
        let divisor := (1 + (if averageimages then 1 else 0) * (Z.of_nat (length names) - 1))%Z in
        let* hul := fits_open rd name in
        let combined := amap (fun v => v /! nofZ divisor) (fst hul) in
        let* d := date_of (snd hul) in
        let* (combined, dates) := rest_of names divisor rest combined [d] in
        let dates := flat_map (fun d => match d with Some t => [t] | None => [] end) dates in
        let h := hset (snd hul) "NAXIS1" (HInt (cols combined)) in
        let h := hset h "NAXIS2" (HInt (rows combined)) in
        Ok (combined, h, dates)
    end.

  (** Lines 99-117 for two files or more *)
  Definition summed_header (n : Z) (h : header A) (dates : list Z) : header A :=
    let h := hset h "SUMOF" (HInt n) in
    match sortedZ dates with
    | [] => h
    | d :: ds => let h := hset h "STRT-OBS" (HStr (show_date rd d)) in
                 hset h "END-OBS" (HStr (show_date rd (last ds d)))
    end.
  Definition sum_name (name : string) : string :=
    let pieces := split_on slash name in
    join "/" (removelast pieces ++ ["SUM_" ++ last pieces ""]).

  (** Image(list_of_names) *)
  Definition image_from_list (names : list string) (averageimages : bool) : result (loaded A) :=
    let* (c, dates) := combine_files names averageimages in
    let '(data, h) := c in
    let n := Z.of_nat (length names) in
    match names with
    | [name] => Ok (mkloaded data h name)
    | name :: _ => Ok (mkloaded data (summed_header n h dates) (sum_name name))
    | [] => Raise NameError
    end.

  (** Image(name): line 111 takes the first character of the string *)
  Definition image_from_name (name : string) (averageimages : bool) : result (loaded A) :=
    let* (c, _) := combine_files [name] averageimages in
    let '(data, h) := c in
    match name with
    | EmptyString => Raise IndexError
    | String a _ => Ok (mkloaded data h (String a EmptyString))
    end.
End Load.
