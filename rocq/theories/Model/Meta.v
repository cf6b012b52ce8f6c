(** Header keywords and file names of images along a program: image.py 22-39, 113-172, 277-303,
    micropol_image.py 74-133, 238-264, 381-428, 823-1080.

    Pixels are left out (they are in Model/ImageObj.v): of the data only the sizes matter here, and
    are arguments of the calls.  Headers are objects that several images may refer to.  Reading
    files is in Model/FileInit.v; of the keywords astropy writes itself, the sizes are kept. *)
From Coq Require Import Reals String.
From Verif Require Import Base.Base Model.Keywords Model.FileInit.
Local Open Scope string_scope.

Inductive class : Type := Image | MicropolImage.

(** [None]: the attribute is not set (no data and header, no file name). *)
Record object : Type := mkobject { o_class : class; o_header : option nat; o_filename : option string }.
Record world : Type := mkworld { w_headers : list (header R); w_objects : list object }.
Definition start : world := mkworld [] [].

(** image.py 128-132: [fits.PrimaryHDU(data).header], and the sizes written into a header *)
Definition set_sizes (hd : header R) (size : Z * Z) : header R :=
  hset (hset hd "NAXIS1" (HInt (snd size))) "NAXIS2" (HInt (fst size)).
Definition primary_header (size : Z * Z) : header R := set_sizes [("NAXIS", HInt 2)] size.

Fixpoint put {A} (l : list A) (p : nat) (f : A -> A) : list A :=
  match l, p with
  | [], _ => []
  | a :: l, O => f a :: l
  | a :: l, S p => a :: put l p f
  end.

(** The methods that return another image; [None] for those that leave the data as they are. *)
Inductive maker : Type :=
| Demodulating | Rebinning | Congridding | Rotating | Shifting | Cleaning
| WithSameClass   (* + - * / with an image of the same class *)
| WithValue.      (* + - * / with anything else *)

Inductive command : Type :=
| FromFile (c : class) (f : loaded R)                    (* c(filename) or c([filenames]) *)
| FromData (c : class) (size : Z * Z)                    (* c(array) *)
| FromObject (c : class) (i : nat) (size : Z * Z)        (* c(image i), whose data have this size *)
| Make (m : maker) (i : nat) (size : Z * Z)              (* a method of image i; the size of the result *)
| InPlace (i : nat) (size : Z * Z)                       (* image i gets data of this size *)
| Write (i : nat) (k : string) (v : hval R).             (* image_i.header[k] = v *)

Definition add (w : world) (o : object) : world := mkworld (w_headers w) (w_objects w ++ [o]).

(** A new object with a header of its own. *)
Definition add_own (w : world) (c : class) (hd : header R) (name : option string) : world :=
  add (mkworld (w_headers w ++ [hd]) (w_objects w)) (mkobject c (Some (length (w_headers w))) name).

Definition change_header (w : world) (p : nat) (f : header R -> header R) : world :=
  mkworld (put (w_headers w) p f) (w_objects w).

(** [image.header], after [image.data] where the method reads the data first *)
Definition header_place (o : object) : result nat :=
  match o_header o with Some p => Ok p | None => Raise AttributeError end.

Definition the_object (w : world) (i : nat) : result object :=
  match nth_error (w_objects w) i with Some o => Ok o | None => Raise NameError end.

(** [Image(o)] *)
Definition plain_from (w : world) (o : object) (size : Z * Z) : result world :=
  match o_class o with
  | MicropolImage => Ok (add w (mkobject Image None None))
  | Image =>
      let* _ := header_place o in
      match o_filename o with
      | Some name => Ok (add_own w Image (primary_header size) (Some name))
      | None => Raise AttributeError
      end
  end.

(** [MicropolImage(o)]: of an Image, data and file name; of a MicropolImage, the attributes of
    [_import_image_parameters] (123-133), which has no file name among them. *)
Definition micropol_from (w : world) (o : object) (size : Z * Z) : result world :=
  let* p := header_place o in
  match o_class o with
  | MicropolImage => Ok (add w (mkobject MicropolImage (Some p) None))
  | Image =>
      match o_filename o with
      | Some name => Ok (add_own w MicropolImage (primary_header size) (Some name))
      | None => Raise AttributeError
      end
  end.

(** Methods of a MicropolImage: a copy, whose data are then set; for [WithValue] a new image that is
    given the header (1012-1014 and likewise below). *)
Definition micropol_makes (w : world) (m : maker) (o : object) (size : Z * Z) : result world :=
  let* p := header_place o in
  match m with
  | Demodulating => micropol_from w o size
  | WithValue => Ok (add w (mkobject MicropolImage (Some p) (Some "image.fits")))
  | _ => let* w' := micropol_from w o size in
         Ok (change_header w' p (fun hd => set_sizes hd size))
  end.

(** Methods of an Image (image.py 134-172, 277-303) *)
Definition image_makes (w : world) (m : maker) (o : object) (size : Z * Z) : result world :=
  match m with
  | Rebinning => plain_from w o size
  | Shifting | WithSameClass | WithValue =>
      let* _ := header_place o in
      Ok (add_own w Image (primary_header size) (Some "image.fits"))
  | Demodulating | Congridding | Rotating | Cleaning => Raise AttributeError
  end.

Definition run_command (w : world) (c : command) : result world :=
  match c with
  | FromFile c f => Ok (add_own w c (l_header f) (Some (l_filename f)))
  | FromData c size => Ok (add_own w c (primary_header size) (Some "image.fits"))
  | FromObject Image i size => let* o := the_object w i in plain_from w o size
  | FromObject MicropolImage i size => let* o := the_object w i in micropol_from w o size
  | Make m i size =>
      let* o := the_object w i in
      match o_class o with
      | MicropolImage => micropol_makes w m o size
      | Image => image_makes w m o size
      end
  | InPlace i size =>
      let* o := the_object w i in
      let* p := header_place o in
      Ok (change_header w p (fun hd => set_sizes hd size))
  | Write i k v =>
      let* o := the_object w i in
      let* p := header_place o in
      Ok (change_header w p (fun hd => hset hd k v))
  end.

(** A program, which may catch exceptions.  A call that raises is taken to change nothing; if it has set
    the data before it raises, that is an [InPlace] of its own. *)
Fixpoint run_commands (w : world) (cs : list command) : world :=
  match cs with
  | [] => w
  | c :: cs => run_commands (match run_command w c with Ok w' => w' | _ => w end) cs
  end.
