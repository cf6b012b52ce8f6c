(** What the constructors do with their argument: image.py 22-39, 112-132 and
    micropol_image.py 74-133 (without dark and flat, which are in Model/ImageObj.v).

    The argument is told apart by [type(x) is ...], so subclasses count as other types.  Headers,
    file names and the reading of files (Model/FileInit.v) are not represented. *)
From Coq Require Import Reals.
From Verif Require Import Base.Base Base.Num Model.Demosaic Model.Stokes.

(** A numpy array of any number of dimensions: a 2-dimensional one with its pixels, or the shape of
    another one. *)
Inductive ndarray : Type := Matrix (a : arr R) | NotMatrix (shape : list Z).

(** The attributes [_data], [height] and [width] of an Image; [None]: not set. *)
Record plain : Type := mkplain { p_data : option (arr R); p_size : option (Z * Z) }.

(** A MicropolImage has these, and a Stokes vector and a dictionary. *)
Record micropol : Type := mkmicropol {
  m_plain : plain; m_stokes : stokes R; m_dic : angle_dic; m_demosaiced : option (quad R)
}.

Inductive initializer : Type :=
| FromFiles (read : result ndarray)  (* str or list: what reading the files gives *)
| FromArray (a : ndarray)
| FromImage (i : plain)
| FromMicropol (i : micropol)
| FromOther.

(** image.py 121-132: [self.height, self.width = input_data.shape] *)
Definition setter (a : ndarray) : result plain :=
  match a with
  | Matrix d => Ok (mkplain (Some d) (Some (rows d, cols d)))
  | NotMatrix _ => Raise ValueError
  end.

(** [image.data] of an Image whose data were never set *)
Definition data_attr (i : plain) : result (arr R) :=
  match p_data i with Some d => Ok d | None => Raise AttributeError end.

(** image.py 22-39, 112-115: [start] is what the object has before. *)
Definition init_plain (start : plain) (x : initializer) : result plain :=
  match x with
  | FromFiles read => let* a := read in setter a
  | FromArray a => setter a
  | FromImage i => let* d := data_attr i in setter (Matrix d)
  | FromMicropol _ | FromOther => Ok start
  end.
Definition new_image (x : initializer) : result plain := init_plain (mkplain None None) x.

(** micropol_image.py 74-133.  [self._data = None] is set first, and [None.shape] is an
    AttributeError. *)
Definition new_micropol (dic : angle_dic) (x : initializer) : result micropol :=
  let* p := init_plain (mkplain None None) x in
  match x with
  | FromMicropol i =>
      let* d := data_attr (m_plain i) in
      let* p := setter (Matrix d) in
      Ok (mkmicropol p (m_stokes i) (m_dic i) (m_demosaiced i))
  | _ =>
      match p_data p with
      | None => Raise AttributeError
      | Some d => let* s := data_stokes dic d in Ok (mkmicropol p s dic None)
      end
  end.
