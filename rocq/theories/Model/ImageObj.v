(** MicropolImage objects and what they share (micropolarray/micropol_image.py 53-133, 233-264,
    381-428, 806-1080 and the data property of image.py 117-132).

    The heap holds the numpy arrays, FITS headers and image objects; attributes are positions
    in these lists, so that two images may refer to the same array or header.  Arrays hold real
    numbers (dtype conversions and rounding are not represented).  Angle dictionaries are
    values: nothing in the package changes one in place. *)
From Coq Require Import Reals.
From Verif Require Import Base.Base Base.Num Base.Bcast Model.Demosaic Model.Rebin Model.Shift Model.Ifov
  Model.Stokes Model.Utils Model.Roi Model.Demodulate.

(** NAXIS1 (width) and NAXIS2 (height); the other keywords are not represented. *)
Record header : Type := mkheader { naxis1 : Z; naxis2 : Z }.

Record image : Type := mkimage {
  i_data : nat; i_height : Z; i_width : Z; i_header : nat; i_stokes : nat; i_demos : option nat;
  i_dic : angle_dic; i_demosaiced : bool; i_demodulated : bool; i_dark : bool; i_flat : bool
}.

Record heap : Type := mkheap {
  arrays : list (arr R); headers : list header; vectors : list (stokes R); quads : list (quad R);
  images : list image; default_angles : option angle_dic
}.
Definition empty_heap : heap := mkheap [] [] [] [] [] None.

(** What is not the package's own code: numpy's uninitialised memory, the values of scipy's
    median filter (the result has the shape of its argument), Pillow's rotation, congrid, the
    fuel of the trimming loops. *)
Record outside : Type := mkoutside {
  junk : Z -> Z -> R; median : arr R -> Z -> Z -> R; turn : R -> arr R -> result (arr R);
  resize : arr R -> Z -> Z -> result (arr R); fuel : nat
}.

(** A method running on an object: the object and the heap, and the outcome. *)
Definition method (A : Type) : Type := image * heap -> image * heap * result A.
Definition ret {A} (a : A) : method A := fun st => (st, Ok a).
Definition lift {A} (r : result A) : method A := fun st => (st, r).
Definition mbind {A B} (m : method A) (k : A -> method B) : method B := fun st =>
  let (st', r) := m st in
  match r with
  | Ok a => k a st'
  | Raise e => (st', Raise e)
  | NoFuel => (st', NoFuel)
  end.
Notation "'call' x <- m ; k" := (mbind m (fun x => k)) (at level 60, x name, right associativity).

Definition self : method image := fun st => (st, Ok (fst st)).
Definition set_self (f : image -> image) : method unit := fun st => ((f (fst st), snd st), Ok tt).
Definition deref {A} (field : heap -> list A) (p : nat) : method A := fun st =>
  (st, match nth_error (field (snd st)) p with Some a => Ok a | None => Raise RuntimeError end).

Fixpoint replace {A} (l : list A) (p : nat) (a : A) : list A :=
  match l, p with
  | [], _ => []
  | _ :: rest, O => a :: rest
  | b :: rest, S p' => b :: replace rest p' a
  end.

Definition new_array (a : arr R) : method nat := fun '(im, h) =>
  ((im, mkheap (arrays h ++ [a]) (headers h) (vectors h) (quads h) (images h) (default_angles h)),
   Ok (length (arrays h))).
Definition new_header (a : header) : method nat := fun '(im, h) =>
  ((im, mkheap (arrays h) (headers h ++ [a]) (vectors h) (quads h) (images h) (default_angles h)),
   Ok (length (headers h))).
Definition new_vector (a : stokes R) : method nat := fun '(im, h) =>
  ((im, mkheap (arrays h) (headers h) (vectors h ++ [a]) (quads h) (images h) (default_angles h)),
   Ok (length (vectors h))).
Definition new_quad (a : quad R) : method nat := fun '(im, h) =>
  ((im, mkheap (arrays h) (headers h) (vectors h) (quads h ++ [a]) (images h) (default_angles h)),
   Ok (length (quads h))).
Definition write_header (p : nat) (a : header) : method unit := fun '(im, h) =>
  ((im, mkheap (arrays h) (replace (headers h) p a) (vectors h) (quads h) (images h) (default_angles h)),
   Ok tt).
Definition write_vector (p : nat) (a : stokes R) : method unit := fun '(im, h) =>
  ((im, mkheap (arrays h) (headers h) (replace (vectors h) p a) (quads h) (images h) (default_angles h)),
   Ok tt).
Definition set_default_dic (d : angle_dic) (h : heap) : heap :=
  mkheap (arrays h) (headers h) (vectors h) (quads h) (images h) (Some d).
Definition put_images (l : list image) (h : heap) : heap :=
  mkheap (arrays h) (headers h) (vectors h) (quads h) l (default_angles h).

(** ** Attributes *)

Definition my_data : method (arr R) := call im <- self; deref arrays (i_data im).
Definition data_of (j : nat) : method (arr R) := call im <- deref images j; deref arrays (i_data im).

(** image.py 121-132: the data setter writes the sizes into the header object *)
Definition set_data (a : arr R) : method unit :=
  call p <- new_array a;
  call _ <- set_self (fun im => mkimage p (rows a) (cols a) (i_header im) (i_stokes im) (i_demos im)
                         (i_dic im) (i_demosaiced im) (i_demodulated im) (i_dark im) (i_flat im));
  call im <- self;
  write_header (i_header im) (mkheader (cols a) (rows a)).

Definition set_stokes (p : nat) : method unit :=
  set_self (fun im => mkimage (i_data im) (i_height im) (i_width im) (i_header im) p (i_demos im)
              (i_dic im) (i_demosaiced im) (i_demodulated im) (i_dark im) (i_flat im)).
Definition set_demosaiced (p : nat) (flag : bool) : method unit :=
  set_self (fun im => mkimage (i_data im) (i_height im) (i_width im) (i_header im) (i_stokes im) (Some p)
              (i_dic im) flag (i_demodulated im) (i_dark im) (i_flat im)).
Definition set_demodulated : method unit :=
  set_self (fun im => mkimage (i_data im) (i_height im) (i_width im) (i_header im) (i_stokes im) (i_demos im)
              (i_dic im) (i_demosaiced im) true (i_dark im) (i_flat im)).
Definition set_dark_flag : method unit :=
  set_self (fun im => mkimage (i_data im) (i_height im) (i_width im) (i_header im) (i_stokes im) (i_demos im)
              (i_dic im) (i_demosaiced im) (i_demodulated im) true (i_flat im)).
Definition set_flat_flag : method unit :=
  set_self (fun im => mkimage (i_data im) (i_height im) (i_width im) (i_header im) (i_stokes im) (i_demos im)
              (i_dic im) (i_demosaiced im) (i_demodulated im) (i_dark im) true).

(** micropol_image.py 266-282 *)
Definition theo_components : method (stokes R) :=
  call im <- self;
  call subimages <-
    (if i_demosaiced im then
       match i_demos im with
       | Some p => deref quads p
       | None => lift (Raise TypeError)
       end
     else call data <- my_data; lift (split_polarizations data));
  lift (theo_stokes (i_dic im) subimages).

Definition update_stokes : method unit :=
  call s <- theo_components;
  call p <- new_vector s;
  set_stokes p.

(** micropol_image.py 233-236 *)
Definition update_data_and_stokes (newdata : arr R) : method unit :=
  call _ <- set_data newdata; update_stokes.

(** ** Methods that change the object *)

(** 381-394 *)
Definition subtract_dark (dark : nat) : method unit :=
  call data <- my_data;
  call dark_data <- data_of dark;
  call d <- lift (bmap2 Rminus data dark_data);
  call _ <- set_data d;
  call _ <- set_data (amap (fun v => if Rleb 0 v then v else 0%R) d);
  call _ <- update_stokes;
  set_dark_flag.

(** 396-417 *)
Definition correct_flat (W : outside) (flat : nat) : method unit :=
  call flat_image <- data_of flat;
  call data <- my_data;
  call d <- lift (flat_data (junk W) data flat_image);
  call _ <- set_data d;
  call _ <- update_stokes;
  set_flat_flag.

(** 419-428 *)
Definition correct_ifov : method unit :=
  call data <- my_data;
  call im <- self;
  call corrected <- lift (ifov_jitcorrect data (i_height im) (i_width im));
  update_data_and_stokes corrected.

(** 806-821 *)
Definition demosaic_image (mode : string) : method unit :=
  call data <- my_data;
  call q <- lift (demosaic data mode);
  call p <- new_quad q;
  call _ <- set_demosaiced p true;
  update_stokes.

(** 915-961 *)
Definition mask_quad (f : arr R -> result (arr R)) (q : quad R) : result (quad R) :=
  let* a := f (q0 q) in let* b := f (q1 q) in let* c := f (q2 q) in let* d := f (q3 q) in
  Ok (mkquad a b c d).
(** [S[i] = f(S[i])] for the three components in turn, in the memory of [S] *)
Definition overwrite_vector (f : arr R -> result (arr R)) (p : nat) : method unit :=
  call s <- deref vectors p;
  call i <- lift (f (sI s));
  call _ <- write_vector p (mkstokes i (sQ s) (sU s));
  call q <- lift (f (sQ s));
  call _ <- write_vector p (mkstokes i q (sU s));
  call u <- lift (f (sU s));
  write_vector p (mkstokes i q u).
Definition mask_occulter (y x r overoccult : Z) (fill : R) : method unit :=
  let r := r + overoccult in
  call im <- self;
  call data <- my_data;
  let limit := IZR (2 * Z.max (i_height im) (i_width im)) in
  call d <- lift (roi_from_polar data (Some (IZR y, IZR x)) (Some (IZR r, limit)) full_circle fill true);
  call _ <- set_data d;
  call im <- self;
  call _ <-
    (if i_demosaiced im then
       match i_demos im with
       | None => lift (Raise TypeError)
       | Some p =>
           call q <- deref quads p;
           call q <- lift (mask_quad (fun a => roi_from_polar a (Some (IZR y, IZR x))
                                       (Some (IZR r, limit)) full_circle fill true) q);
           call p <- new_quad q;
           set_demosaiced p true
       end
     else ret tt);
  let half v := if i_demosaiced im then v else Z.quot v 2 in
  overwrite_vector (fun c => roi_from_polar c (Some (IZR (half y), IZR (half x)))
                      (Some (IZR (half r), IZR (2 * Z.max (rows c) (cols c)))) full_circle fill false)
    (i_stokes im).

(** ** Constructors *)

(** 82-92: without a dictionary the default is used, and PolarCam's becomes the default if
    there is none. *)
Definition choose_dic (dic : option angle_dic) (h : heap) : angle_dic * heap :=
  match dic with
  | Some d => (d, h)
  | None =>
      match default_angles h with
      | Some d => (d, h)
      | None => (polarcam_angles, set_default_dic polarcam_angles h)
      end
  end.

(** 106-112 *)
Definition corrections (W : outside) (dark flat : option nat) : method unit :=
  call _ <- match dark with None => ret tt | Some j => subtract_dark j end;
  match flat with None => ret tt | Some j => correct_flat W j end.

(** A new object that the caller gets only if its constructor (or the method) returns. *)
Definition returning (start : image * heap) (m : method unit) : heap * result (option nat) :=
  let '((im, h), r) := m start in
  match r with
  | Ok _ => (put_images (images h ++ [im]) h, Ok (Some (length (images h))))
  | Raise e => (h, Raise e)
  | NoFuel => (h, NoFuel)
  end.

(** 74-112 from an array, which is copied *)
Definition create (W : outside) (data : arr R) (dic : option angle_dic) (dark flat : option nat) (h : heap)
    : heap * result (option nat) :=
  let (d, h) := choose_dic dic h in
  let blank := mkimage (length (arrays h)) (rows data) (cols data) (length (headers h)) 0 None d
                 false false false false in
  returning (blank, h)
    (call _ <- new_array data;
     call _ <- new_header (mkheader (cols data) (rows data));
     call _ <- update_stokes;
     corrections W dark flat).

(** 74-133 from another image: every attribute of the source, also its dictionary; arrays and
    header are those of the source (the header made by the setter is dropped). *)
Definition copy_of (dic : option angle_dic) (im : image) (h : heap) : image * heap :=
  let (_, h) := choose_dic dic h in (im, h).

(** ** Calls *)

Inductive arith : Type := Add | Sub | Mul | Div.
Inductive op : Type :=
| SetDefault (d : angle_dic)
| Create (data : arr R) (dic : option angle_dic) (dark flat : option nat)
| CopyOf (i : nat) (dic : option angle_dic) (dark flat : option nat)
| SubtractDark (i dark : nat)
| CorrectFlat (i flat : nat)
| CorrectIfov (i : nat)
| DemosaicImage (i : nat) (mode : string)
| MaskOcculter (i : nat) (y x r overoccult : Z) (fill : R)
| Rebin (i : nat) (binning : Z)
| Congrid (i : nat) (newdim_y newdim_x : Z)
| Rotate (i : nat) (angle : R)
| Shift (i : nat) (y x : Z) (missing : R)
| CleanHot (i map : nat)
| WithImage (f : arith) (i j : nat)
| WithNumber (f : arith) (i : nat) (s : R)
| Demodulate (i : nat) (d : demodulator R) (demosaicing : bool).

(** A method of image [i], which keeps what was done before an exception. *)
Definition in_place (i : nat) (m : method unit) (h : heap) : heap * result (option nat) :=
  match nth_error (images h) i with
  | None => (h, Raise NameError)
  | Some im =>
      let '((im, h), r) := m (im, h) in
      (put_images (replace (images h) i im) h, on_ok (fun _ => Some i) r)
  end.

(** A method of image [i] that works on a copy made by [MicropolImage(self)]: [before] is
    what is computed first (no object is changed by it). *)
Definition on_copy {A} (i : nat) (before : method A) (m : A -> method unit) (h : heap)
    : heap * result (option nat) :=
  match nth_error (images h) i with
  | None => (h, Raise NameError)
  | Some im =>
      let '((_, h), r) := before (im, h) in
      match r with
      | Ok a => returning (copy_of None im h) (m a)
      | Raise e => (h, Raise e)
      | NoFuel => (h, NoFuel)
      end
  end.

(** 1004-1065 *)
Definition combine_arrays (W : outside) (f : arith) (a b : arr R) : result (arr R) :=
  match f with
  | Add => bmap2 Rplus a b
  | Sub => bmap2 Rminus a b
  | Mul => bmap2 Rmult a b
  | Div => divide_where (junk W) a b
  end.
Definition combine_number (W : outside) (f : arith) (a : arr R) (s : R) : arr R :=
  match f with
  | Add => amap (fun v => v + s)%R a
  | Sub => amap (fun v => v - s)%R a
  | Mul => amap (fun v => v * s)%R a
  | Div => divide_scalar (junk W) a s
  end.

(** [stack[i] = f(stack[i])] where the new image must have the old shape *)
Definition keep_shape (f : arr R -> result (arr R)) (a : arr R) : result (arr R) :=
  let* b := f a in if same_shapeb b a then Ok b else Raise ValueError.

(** 862-892: [newdim - newdim % 2] is where the trimming loop ends *)
Definition congrid_data (W : outside) (data : arr R) (y x : Z) : result (arr R) :=
  let* s := split_polarizations data in
  let y := Z.quot y 2 in
  let x := Z.quot x 2 in
  if (y <? 0) || (x <? 0) then Raise ValueError else
  let* q := mask_quad (fun a => let* b := resize W a y x in
                                if (rows b =? y) && (cols b =? x) then Ok b else Raise ValueError) s in
  Ok (merge_polarizations q).

(** 990-996: [np.where(flagged == 1, blurred, sub)] on the four families *)
Definition clean_family (W : outside) (flag a : arr R) : result (arr R) :=
  let blurred := mkarr (rows a) (cols a) (median W a) in
  bmap2 (fun f (uv : R * R) => if Reqb f 1 then fst uv else snd uv) flag (amap2 pair blurred a).
Definition clean_data (W : outside) (flags data : arr R) : result (arr R) :=
  let* s := split_polarizations data in
  let* f := split_polarizations flags in
  let* a := clean_family W (q0 f) (q0 s) in
  let* b := clean_family W (q1 f) (q1 s) in
  let* c := clean_family W (q2 f) (q2 s) in
  let* d := clean_family W (q3 f) (q3 s) in
  Ok (merge_polarizations (mkquad a b c d)).

(** 284-379 on the copy *)
Definition stokes_from_demodulator (d : demodulator R) (demosaicing : bool) : method (stokes R) :=
  if demosaicing then
    call _ <- demosaic_image "adjacent";
    call im <- self;
    match i_demos im with
    | None => lift (Raise TypeError)
    | Some p =>
        call q <- deref quads p;
        call theo <- deref vectors (i_stokes im);
        lift (demod_demosaiced d q theo)
    end
  else
    call data <- my_data;
    call im <- self;
    call old <- deref vectors (i_stokes im);
    lift (demod_raw d data old).

Definition exec (W : outside) (c : op) (h : heap) : heap * result (option nat) :=
  match c with
  | SetDefault d => (set_default_dic d h, Ok None)
  | Create data dic dark flat => create W data dic dark flat h
  | CopyOf i dic dark flat =>
      match nth_error (images h) i with
      | None => (h, Raise NameError)
      | Some im => returning (copy_of dic im h) (corrections W dark flat)
      end
  | SubtractDark i dark => in_place i (subtract_dark dark) h
  | CorrectFlat i flat => in_place i (correct_flat W flat) h
  | CorrectIfov i => in_place i correct_ifov h
  | DemosaicImage i mode => in_place i (demosaic_image mode) h
  | MaskOcculter i y x r overoccult fill =>
      let (h, r) := in_place i (mask_occulter y x r overoccult fill) h in (h, on_ok (fun _ => None) r)
  (* 823-860 *)
  | Rebin i binning =>
      if binning <=? 0 then (h, Raise ValueError) else
      on_copy i my_data (fun data =>
        call d <- lift (micropolarray_rebin (fuel W) data binning); update_data_and_stokes d) h
  (* 862-892 *)
  | Congrid i newdim_y newdim_x =>
      let y := newdim_y - newdim_y mod 2 in
      let x := newdim_x - newdim_x mod 2 in
      on_copy i (call data <- my_data; lift (congrid_data W data y x)) (fun d =>
        call _ <- set_data d;
        call im <- self;
        call s <- deref vectors (i_stokes im);
        call i <- lift (resize W (sI s) y x);
        call q <- lift (resize W (sQ s) y x);
        call u <- lift (resize W (sU s) y x);
        call p <- new_vector (mkstokes i q u);
        set_stokes p) h
  (* 894-913: the rotated components go into the array of the image itself *)
  | Rotate i angle =>
      on_copy i
        (call data <- my_data;
         call s <- lift (split_polarizations data);
         call q <- lift (mask_quad (keep_shape (turn W angle)) s);
         call im <- self;
         call _ <- overwrite_vector (keep_shape (turn W angle)) (i_stokes im);
         ret (merge_polarizations q))
        set_data h
  (* 963-979 *)
  | Shift i y x missing =>
      on_copy i (call data <- my_data; lift (shift_micropol data y x missing)) update_data_and_stokes h
  (* 981-999 *)
  | CleanHot i map =>
      on_copy i (call data <- my_data; call flags <- data_of map; lift (clean_data W flags data))
        update_data_and_stokes h
  (* 1004-1080: between images, and with a number (a new image with the same dictionary) *)
  | WithImage f i j =>
      on_copy i (call data <- my_data; call second <- data_of j; lift (combine_arrays W f data second))
        update_data_and_stokes h
  | WithNumber f i s =>
      match nth_error (images h) i with
      | None => (h, Raise NameError)
      | Some im =>
          match nth_error (arrays h) (i_data im) with
          | None => (h, Raise RuntimeError)
          | Some data =>
              let d := combine_number W f data s in
              returning (mkimage (length (arrays h)) (rows d) (cols d) (length (headers h)) 0 None
                           (i_dic im) false false false false, h)
                (call _ <- new_array d;
                 call _ <- new_header (mkheader (cols d) (rows d));
                 call _ <- update_stokes;
                 set_self (fun new => mkimage (i_data new) (i_height new) (i_width new) (i_header im)
                             (i_stokes new) (i_demos new) (i_dic new) (i_demosaiced new)
                             (i_demodulated new) (i_dark new) (i_flat new)))
          end
      end
  (* 238-264 *)
  | Demodulate i d demosaicing =>
      on_copy i (ret tt) (fun _ =>
        call s <- stokes_from_demodulator d demosaicing;
        call p <- new_vector s;
        call _ <- set_stokes p;
        set_demodulated) h
  end.

(** Any sequence of calls, those that raise included. *)
Definition history : Type := list (outside * op).
Definition run_history (hist : history) : heap -> heap :=
  fold_left (fun h e => fst (exec (fst e) (snd e) h)) hist.
