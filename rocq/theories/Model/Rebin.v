(** Model of micropolarray/processing/rebin.py. *)
From Verif Require Import Base.Base Base.Num.

(** One [while n % m: n -= step] loop (rebin.py 131-136, 157-162).
    Python's [%] with a zero divisor raises ZeroDivisionError. *)
Definition trim1 (fuel : nat) (n step m : Z) : result Z :=
  if m =? 0 then Raise ZeroDivisionError
  else while_loop fuel (fun n => negb (n mod m =? 0)) (fun n => n - step) n.

(** rebin.py 117-140 (returns new_height, new_width; the printing is omitted) *)
Definition trim_to_match_2xbinning (fuel : nat) (height width binning : Z) : result (Z * Z) :=
  let* new_width := trim1 fuel width 2 (2 * binning) in
  let* new_height := trim1 fuel height 2 (2 * binning) in
  Ok (new_height, new_width).

(** rebin.py 143-166 *)
Definition trim_to_match_binning (fuel : nat) (height width binning : Z) : result (Z * Z) :=
  let* new_width := trim1 fuel width 1 binning in
  let* new_height := trim1 fuel height 1 binning in
  Ok (new_height, new_width).

(** [np.zeros(shape=(h, w))]: a negative dimension raises ValueError. *)
Definition zeros {A} `{Num A} (h w : Z) : result (arr A) :=
  if (h <? 0) || (w <? 0) then Raise ValueError else Ok (full h w n0).

Section Rebin.
  Context {A : Type} `{Num A}.

  (** [new_data[y, x] += data[i, j]] *)
  Definition add_at (new_data : arr A) (y x : Z) (data : arr A) (i j : Z) : result (arr A) :=
    let* old := get new_data y x in
    let* v := get data i j in
    set new_data y x (old +! v).

  (** rebin.py 65-77 *)
  Definition micropolarray_jitrebin (data : arr A) (new_height new_width binning : Z)
    : result (arr A) :=
    let* new_data := zeros new_height new_width in
    for_range 0 new_height 1 (fun new_y =>
      for_range 0 new_width 1 (fun new_x =>
        for_range (new_y mod 2) (new_y mod 2 + 2 * binning) 2 (fun y_scaler =>
          for_range (new_x mod 2) (new_x mod 2 + 2 * binning) 2 (fun x_scaler new_data =>
            let i := (new_y - new_y mod 2) * binning + y_scaler in
            let j := (new_x - new_x mod 2) * binning + x_scaler in
            add_at new_data new_y new_x data i j)))) new_data.

  (** rebin.py 24-42; [int(n / binning)] truncates towards zero. *)
  Definition micropolarray_rebin (fuel : nat) (data : arr A) (binning : Z) : result (arr A) :=
    let* (new_height, new_width) :=
      trim_to_match_2xbinning fuel (rows data) (cols data) binning in
    let new_height := Z.quot new_height binning in
    let new_width := Z.quot new_width binning in
    micropolarray_jitrebin data new_height new_width binning.

  (** rebin.py 45-62, read as Python source.  (Under numba this kernel calls the
      undecorated [trim_to_match_2xbinning], which nopython mode rejects; it is not
      called anywhere in the package.) *)
  Definition micropolarray_jitrebin_old (fuel : nat) (data : arr A) (height width binning : Z)
    : result (arr A) :=
    let* (new_height, new_width) := trim_to_match_2xbinning fuel height width binning in
    let new_height := Z.quot new_height binning in
    let new_width := Z.quot new_width binning in
    let* new_data := zeros new_height new_width in
    for_range 0 new_height 1 (fun new_y =>
      for_range 0 new_width 1 (fun new_x =>
        for_range (new_y mod 2) (new_y mod 2 + 2 * binning) 2 (fun y_scaler =>
          for_range (new_x mod 2) (new_x mod 2 + 2 * binning) 2 (fun x_scaler new_data =>
            let i := (new_y - new_y mod 2) * binning + y_scaler in
            let j := (new_x - new_x mod 2) * binning + x_scaler in
            add_at new_data new_y new_x data i j)))) new_data.

  (** rebin.py 102-114 *)
  Definition standard_jitrebin (data : arr A) (new_height new_width binning : Z)
    : result (arr A) :=
    let* new_data := zeros new_height new_width in
    for_range 0 new_height 1 (fun new_y =>
      for_range 0 new_width 1 (fun new_x =>
        for_range 0 binning 1 (fun y_scaler =>
          for_range 0 binning 1 (fun x_scaler new_data =>
            add_at new_data new_y new_x data
              (binning * new_y + y_scaler) (binning * new_x + x_scaler))))) new_data.

  (** rebin.py 80-99 *)
  Definition standard_rebin (fuel : nat) (data : arr A) (binning : Z) : result (arr A) :=
    let* (new_height, new_width) :=
      trim_to_match_binning fuel (rows data) (cols data) binning in
    let new_height := Z.quot new_height binning in
    let new_width := Z.quot new_width binning in
    standard_jitrebin data new_height new_width binning.
End Rebin.
