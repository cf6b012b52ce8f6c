(** A file system with crash points, and the functions that read and write files:
    convert.py 96-212 (raw to fits), image.py 178-222 (saving), utils.py 34-46 and
    micropol_image.py 649-801 (parameter files).

    A file is addressed by the normalised absolute path of the string given to the
    operating system (no symbolic links).  Every operation produces a list of atomic
    effects; an interruption leaves the effects of some prefix of that list. *)
From Coq Require Import String Ascii Reals Decimal DecimalString.
From Verif Require Import Base.Base Base.Num Model.Paths Model.Codec.
Local Open Scope string_scope.
Local Open Scope list_scope.
Local Open Scope Z_scope.

Inductive node := File (content : bytes) | Dir.
Definition fs := string -> option node.

Definition upd (s : fs) (p : string) (v : option node) : fs :=
  fun q => if String.eqb q p then v else s q.

Inductive effect :=
| ECreate (p : string)              (* create or truncate an empty file *)
| EAppend (p : string) (b : Z)      (* one more byte reaches the file *)
| ERemove (p : string)
| EMkdir (p : string).

Definition apply (s : fs) (e : effect) : fs :=
  match e with
  | ECreate p => upd s p (Some (File []))
  | EAppend p b =>
      match s p with
      | Some (File c) => upd s p (Some (File (c ++ [b])))
      | _ => s
      end
  | ERemove p => upd s p None
  | EMkdir p => upd s p (Some Dir)
  end.

Definition run (es : list effect) (s : fs) : fs := fold_left apply es s.

(** Computations on a file system: the effects performed and the outcome. *)
Definition io (A : Type) : Type := fs -> list effect * result A.
Definition io_ret {A} (a : A) : io A := fun _ => ([], Ok a).
Definition io_raise {A} (e : exn) : io A := fun _ => ([], Raise e).
Definition io_lift {A} (r : result A) : io A := fun _ => ([], r).
Definition io_bind {A B} (m : io A) (k : A -> io B) : io B := fun s =>
  let (es, r) := m s in
  match r with
  | Ok a => let (es', r') := k a (run es s) in (es ++ es', r')
  | Raise e => (es, Raise e)
  | NoFuel => (es, NoFuel)
  end.
Notation "'do' x <- m ; k" := (io_bind m (fun x => k)) (at level 60, x name, right associativity).

Section OS.
  Variable cwd : string.            (* os.getcwd() *)

  Definition key (p : string) : string := abspath cwd p.
  Definition parent_key (p : string) : string := normpath (path_join (key p) "..").
  Definition is_dir (s : fs) (k : string) : bool :=
    match s k with Some Dir => true | _ => false end.
  Definition exists_ (s : fs) (k : string) : bool :=
    match s k with Some _ => true | _ => false end.

  (** [open(p, "rb").read()] *)
  Definition read_file (p : string) : io bytes := fun s =>
    match s (key p) with
    | Some (File c) => if ends_in_slash p then ([], Raise OSError) else ([], Ok c)
    | Some Dir => ([], Raise OSError)
    | None => ([], Raise FileNotFoundError)
    end.

  (** Opening for writing and writing all of [content]. *)
  Definition write_effects (k : string) (content : bytes) : list effect :=
    ECreate k :: map (EAppend k) content.

  Definition write_file (p : string) (content : bytes) : io unit := fun s =>
    if ends_in_slash p then ([], Raise OSError)
    else if negb (is_dir s (parent_key p)) then ([], Raise FileNotFoundError)
    else if is_dir s (key p) then ([], Raise OSError)
    else (write_effects (key p) content, Ok tt).

  (** astropy [hdu.writeto(p, overwrite=True)]: a non-empty existing file is removed, then
      the new one is created and written. *)
  Definition fits_writeto (p : string) (content : bytes) : io unit := fun s =>
    if ends_in_slash p then ([], Raise OSError)
    else if is_dir s (key p) then ([], Raise OSError)
    else if negb (is_dir s (parent_key p)) then ([], Raise FileNotFoundError)
    else
      let pre := match s (key p) with
                 | Some (File (_ :: _)) => [ERemove (key p)]
                 | _ => []
                 end in
      ((pre ++ write_effects (key p) content)%list, Ok tt).

  Definition remove_file (p : string) : io unit := fun s =>
    match s (key p) with
    | Some (File _) => ([ERemove (key p)], Ok tt)
    | Some Dir => ([], Raise OSError)
    | None => ([], Raise FileNotFoundError)
    end.

  (** What astropy writes for an image of unsigned 16-bit integers, of floats; header
      content (CREATED, ...) is not modelled separately from the bytes. *)
  Variable fits_u2 : list (list Z) -> bytes.
  Variable fits_f8 : list (list R) -> bytes.

  (** convert.py 206-207 *)
  Definition converted_name (filename : string) : string :=
    (join ":" (removelast (split_on dot (abspath cwd filename))) ++ ".fits")%string.

  (** convert.py 186-212 *)
  Definition convert_rawfile_to_fits (filename : string) (height width : Z) (remove_old : bool)
    : io unit :=
    if negb (contains ".raw" filename) then io_raise ValueError
    else
      do buffer <- read_file filename;
      do data <- io_lift (u2_array height width buffer);
      do _ <- fits_writeto (converted_name filename) (fits_u2 (to_list data));
      if remove_old then remove_file (abspath cwd filename) else io_ret tt.

  (** convert.py 168-172: reading and adding the files, one after the other.  Sums are real
      numbers (float64 sums of 16-bit integers are exact up to 2^37 files). *)
  Fixpoint add_raw_files (filenames : list string) (height width : Z) (arr0 : arr R)
    : io (arr R) :=
    match filenames with
    | [] => io_ret arr0
    | filename :: rest =>
        do buffer <- read_file filename;
        do data <- io_lift (u2_array height width buffer);
        add_raw_files rest height width (amap2 (fun a d => (a + IZR d)%R) arr0 data)
    end.

  Definition last_piece (p : string) : string := last (split_on dot p) "".

  (** convert.py 144-183; [average_rawfiles_to_fits] (96-116) calls it with mode
      "average".  Simplification: the mean of an empty list (0/0) is left to the real
      division; theorems exclude it. *)
  Definition merge_rawfiles_to_fits (filenames : list string) (new_filename : string)
      (height width : Z) (mode : string) : io unit :=
    let abs_new_filename := ppath_str (pabsolute cwd (ppath_of new_filename)) in
    if negb (String.eqb (last_piece abs_new_filename) "fits") then io_raise ValueError
    else if (height <? 0) || (width <? 0) then io_raise ValueError
    else
      do arr1 <- add_raw_files filenames height width (full height width 0%R);
      let images_n := IZR (Z.of_nat (length filenames)) in
      let arr2 := if String.eqb mode "average" then amap (fun a => (a / images_n)%R) arr1 else arr1 in
      fits_writeto abs_new_filename (fits_f8 (to_list arr2)).

  Definition average_rawfiles_to_fits (filenames : list string) (new_filename : string)
      (height width : Z) : io unit :=
    merge_rawfiles_to_fits filenames new_filename height width "average".

  (** convert.py 66-93.  [arr += ...] needs equal shapes.  [schedules i] is the completion
      order of the worker pool for the i-th file. *)
  Fixpoint add_bin_files (filenames : list string) (schedules : nat -> list nat) (i : nat)
      (images_n : R) (arr0 : arr R) : io (arr R) :=
    match filenames with
    | [] => io_ret arr0
    | filename :: rest =>
        do content <- read_file filename;
        do data <- io_lift (nparr_from_binary content (schedules i));
        if (rows arr0 =? rows data) && (cols arr0 =? cols data) then
          add_bin_files rest schedules (S i) images_n
            (amap2 (fun a d => (a + IZR d / images_n)%R) arr0 data)
        else io_raise ValueError
    end.

  Definition convert_set (filenames : list string) (new_filename : string) (height width : Z)
      (schedules : nat -> list nat) : io unit :=
    let abs_new_filename := abspath cwd new_filename in
    if negb (String.eqb (last_piece abs_new_filename) "fits") then io_raise ValueError
    else if (height <? 0) || (width <? 0) then io_raise ValueError
    else
      do arr1 <- add_bin_files filenames schedules 0 (IZR (Z.of_nat (length filenames)))
                               (full height width 0%R);
      fits_writeto abs_new_filename (fits_f8 (to_list arr1)).

  (** image.py 210-222 *)
  Definition save_as_raw (oor : R -> Z) (filename : string) (data : arr R) : io unit :=
    if negb (String.eqb (psuffix (ppath_of filename)) ".raw") then io_raise ValueError
    else write_file filename (raw_bytes oor data).

  (** ** Directories *)

  (** [path.mkdir()] and [path.mkdir(parents=True)]; [mkdir_parents] walks the parts from
      the root down, creating what is missing. *)
  Definition mkdir (q : ppath) : io unit := fun s =>
    let k := key (ppath_str q) in
    if exists_ s k then ([], Raise OSError)
    else if negb (is_dir s (key (ppath_str (pparent q)))) then ([], Raise FileNotFoundError)
    else ([EMkdir k], Ok tt).

  Fixpoint mkdir_from (root : string) (done rest : list string) : io unit :=
    match rest with
    | [] => io_ret tt
    | c :: rest' =>
        let q := {| proot := root; pparts := (done ++ [c])%list |} in
        do _ <- (fun s => if exists_ s (key (ppath_str q))
                          then if is_dir s (key (ppath_str q)) then ([], Ok tt) else ([], Raise OSError)
                          else ([EMkdir (key (ppath_str q))], Ok tt));
        mkdir_from root (done ++ [c])%list rest'
    end.
  Definition mkdir_parents (q : ppath) : io unit := mkdir_from (proot q) [] (pparts q).

  (** utils.py 34-46 *)
  Definition make_abs_and_create_dir (filename : string) : io ppath :=
    let path := ppath_of filename in
    let path := if pis_abs path then path else pjoin (ppath_of cwd) path in
    if negb (String.eqb (psuffix path) "") then
      do _ <- (fun s => if exists_ s (key (ppath_str (pparent path))) then ([], Ok tt)
                        else mkdir_parents (pparent path) s);
      io_ret path
    else
      do _ <- (fun s => if exists_ s (key (ppath_str path)) then ([], Ok tt) else mkdir path s);
      io_ret path.

  Fixpoint io_iter {A} (f : A -> io unit) (l : list A) : io unit :=
    match l with
    | [] => io_ret tt
    | a :: l' => do _ <- f a; io_iter f l'
    end.

  Definition group_name (path : ppath) : string :=
    ppath_str {| proot := proot path; pparts := (pparts (pparent path) ++ [pstem path])%list |}.

  (** micropol_image.py 649-685.  [pol id] is what astropy writes for the subimage of that
      orientation, or the KeyError of [self.angle_dic[id]]; all four are evaluated first
      (line 661). *)
  Definition single_pol_ids : list string := ["0"; "45"; "90"; "-45"]%string.
  Fixpoint eval_all (pol : string -> result bytes) (ids : list string)
    : result (list (string * bytes)) :=
    match ids with
    | [] => Ok []
    | id :: rest => let* b := pol id in let* l := eval_all pol rest in Ok ((id, b) :: l)
    end.
  Definition save_single_pol_images (pol : string -> result bytes) (filename : string)
    : io unit :=
    do polslist <- io_lift (eval_all pol single_pol_ids);
    do filepath <- make_abs_and_create_dir filename;
    if negb (String.eqb (psuffix filepath) ".fits") then io_raise ValueError
    else io_iter (fun pb => fits_writeto (group_name filepath ++ "POL" ++ fst pb ++ ".fits")%string (snd pb))
                 polslist.

  (** micropol_image.py 687-732 *)
  Definition save_param_as_fits (polparam : string * bytes) (filename : string) : io unit :=
    do filepath <- make_abs_and_create_dir filename;
    if negb (String.eqb (psuffix filepath) ".fits") then io_raise ValueError
    else fits_writeto (group_name filepath ++ "_" ++ fst polparam ++ ".fits")%string (snd polparam).

  (** micropol_image.py 734-764 *)
  Definition polparam_ids : list string := ["I"; "Q"; "U"; "pB"; "AoLP"; "DoLP"]%string.
  Definition save_all_pol_params_as_fits (content : string -> bytes) (filename : string) : io unit :=
    if negb (String.eqb (psuffix (ppath_of filename)) ".fits") then io_raise ValueError
    else
      do filepath <- make_abs_and_create_dir filename;
      io_iter (fun id => fits_writeto (group_name filepath ++ "_" ++ id ++ ".fits")%string (content id))
              polparam_ids.

  (** micropol_image.py 766-801.  The angle dictionary is an association list in insertion
      order; keys are integers. *)
  Definition key_of_value (angle_dic : list (Z * Z)) (i : Z) : result Z :=
    match find (fun kv => snd kv =? i) angle_dic with
    | Some kv => Ok (fst kv)
    | None => Raise ValueError
    end.

  (** [str(k)] for an integer. *)
  Definition str_of (k : Z) : string := NilZero.string_of_int (Z.to_int k).

  Definition save_demosaiced_images_as_fits (is_demosaiced : bool)
      (angle_dic : list (Z * Z)) (images : list bytes) (filename : string) : io unit :=
    if negb is_demosaiced then io_raise ValueError
    else if String.eqb (psuffix (ppath_of filename)) "" then io_raise ValueError
    else
      do filepath <- make_abs_and_create_dir filename;
      io_iter (fun ib =>
                 do pol_id <- io_lift (key_of_value angle_dic (fst ib));
                 fits_writeto (group_name filepath ++ "_POL" ++ str_of pol_id ++ ".fits")%string (snd ib))
              (combine (zrange (Z.of_nat (length images))) images).
End OS.
