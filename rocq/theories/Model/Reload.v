(** MicropolImage(filename) on a file system: micropolarray/micropol_image.py 74-112 with image.py
    25-111.

    What astropy makes of the bytes of a file is the parameter [parse]; dates are read and printed by
    the parameters of [reader].  The header of the new object keeps only its sizes, as in
    Model/ImageObj.v. *)
From Coq Require Import String Reals.
From Verif Require Import Base.Base Base.Num Model.Paths Model.Codec Model.Fs Model.Keywords Model.FileInit Model.Stokes Model.ImageObj.

(** [fits.open(name)] in the state [s] of the file system *)
Definition disk_reader (cwd : string) (parse : bytes -> result (arr R * Keywords.header R))
    (iso antarticor : string -> option Z) (show : Z -> string) (s : fs) : reader R :=
  mkreader R (fun name => let* c := snd (read_file cwd name s) in parse c) iso antarticor show.

(** The dictionary is chosen (lines 83-92) before the file is read (lines 98-100); a name is one image. *)
Definition micropol_from_name (W : outside) (rd : reader R) (name : string) (averageimages : bool)
    (dic : option angle_dic) (dark flat : option nat) (h : heap) : heap * result (option nat) :=
  let (d, h) := choose_dic dic h in
  match image_from_name rd name averageimages with
  | Ok l => create W (l_data l) (Some d) dark flat h
  | Raise e => (h, Raise e)
  | NoFuel => (h, NoFuel)
  end.
