(** Image.save_as_fits: micropolarray/image.py 178-208. *)
From Coq Require Import String Reals.
From Verif Require Import Base.Base Base.Num Model.Paths Model.Codec Model.Fs Model.Utils.
Local Open Scope string_scope.

Section Save.
  Variable cwd : string.
  (** What astropy writes for the image with its header. *)
  Variable fits_f8 : list (list R) -> bytes.

  (** [mkdir(parents=True, exist_ok=True)] is [mkdir_parents].  An empty list or tuple [fixto] is
      the same as none. *)
  Definition save_as_fits (filename : string) (fixto : option (R * R)) (data : arr R) : io unit :=
    let filepath := ppath_of filename in
    if negb (String.eqb (psuffix filepath) ".fits") then io_raise ValueError
    else
      let filepath := if pis_abs filepath then filepath else pjoin (ppath_of cwd) filepath in
      do _ <- mkdir_parents cwd (pparent filepath);
      let data := match fixto with
                  | Some (lo, hi) => fix_data data (Some lo) (Some hi)
                  | None => data
                  end in
      fits_writeto cwd (ppath_str filepath) (fits_f8 (to_list data)).
End Save.
