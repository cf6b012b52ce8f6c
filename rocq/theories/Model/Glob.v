(** Which files a Demodulator reads: glob.glob in micropolarray/processing/demodulation.py 45-47 and
    150-155, with the part of Python's glob and fnmatch it uses.

    Paths are lists of components below the root (or the current folder); "." , ".." and empty
    components do not occur in them.  The order of a listing is the order of the file system's list. *)
From Coq Require Import String Ascii.
From Verif Require Import Base.Base Base.Num Model.Demodulate Model.DemodLoad Model.DemodCov.
Local Open Scope list_scope.

(** ** fnmatch *)

Inductive token : Type :=
| Star                                              (* any characters *)
| One                                               (* ? *)
| Lit (c : ascii)
| Class (negated : bool) (ranges : list (ascii * ascii)).

Definition ascii_le (a b : ascii) : bool := (N_of_ascii a <=? N_of_ascii b)%N.
Definition in_class (ranges : list (ascii * ascii)) (c : ascii) : bool :=
  existsb (fun r => ascii_le (fst r) c && ascii_le c (snd r)) ranges.

(** The characters between the brackets; "a-z" is a range. *)
Fixpoint ranges_of (s : string) : list (ascii * ascii) :=
  match s with
  | EmptyString => []
  | String a rest =>
      match rest with
      | String "-" (String b rest') => (a, b) :: ranges_of rest'
      | _ => (a, a) :: ranges_of rest
      end
  end.

(** Up to the first "]", and after it *)
Fixpoint until_close (s : string) : option (string * string) :=
  match s with
  | EmptyString => None
  | String "]" rest => Some (EmptyString, rest)
  | String a rest => match until_close rest with
                     | Some (inside, after) => Some (String a inside, after)
                     | None => None
                     end
  end.
(** After "[": whether negated, the inside and what follows; a "]" at the beginning belongs to the
    inside.  [None]: there is no closing bracket, and "[" stands for itself. *)
Definition bracket (s : string) : option (bool * string * string) :=
  let (negated, s) := match s with String "!" rest => (true, rest) | _ => (false, s) end in
  match s with
  | String "]" rest => match until_close rest with
                       | Some (inside, after) => Some (negated, String "]" inside, after)
                       | None => None
                       end
  | _ => match until_close s with
         | Some (inside, after) => Some (negated, inside, after)
         | None => None
         end
  end.

(** fnmatch.translate; [fuel] is the length of the pattern *)
Fixpoint tokens (fuel : nat) (s : string) : list token :=
  match fuel, s with
  | S fuel, String c rest =>
      if Ascii.eqb c "*" then Star :: tokens fuel rest
      else if Ascii.eqb c "?" then One :: tokens fuel rest
      else if Ascii.eqb c "[" then
        match bracket rest with
        | Some (negated, inside, after) => Class negated (ranges_of inside) :: tokens fuel after
        | None => Lit c :: tokens fuel rest
        end
      else Lit c :: tokens fuel rest
  | _, _ => []
  end.

Fixpoint token_match (ts : list token) (s : string) : bool :=
  match ts with
  | [] => match s with EmptyString => true | _ => false end
  | Star :: ts =>
      (fix after_some (s : string) : bool :=
         token_match ts s || match s with EmptyString => false | String _ s => after_some s end) s
  | One :: ts => match s with EmptyString => false | String _ s => token_match ts s end
  | Lit c :: ts => match s with EmptyString => false | String d s => Ascii.eqb c d && token_match ts s end
  | Class negated ranges :: ts =>
      match s with
      | EmptyString => false
      | String d s => xorb negated (in_class ranges d) && token_match ts s
      end
  end.
Definition fnmatch (name pattern : string) : bool := token_match (tokens (String.length pattern) pattern) name.

(** glob.has_magic: one of "*", "?", "[" *)
Fixpoint has_magic (s : string) : bool :=
  match s with
  | EmptyString => false
  | String c s => Ascii.eqb c "*" || Ascii.eqb c "?" || Ascii.eqb c "[" || has_magic s
  end.
Definition hidden (s : string) : bool := match s with String "." _ => true | _ => false end.

(** ** File systems and glob *)

Section Glob.
  Context {A : Type} `{Num A}.

  Inductive entry : Type := Folder | File (f : fits_file A).
  Definition tree : Type := list (list string * entry).
  Definition path_eqb (p q : list string) : bool := if list_eq_dec string_dec p q then true else false.
  Definition is_folder (e : entry) : bool := match e with Folder => true | File _ => false end.

  (** [os.path.exists]; the root exists *)
  Definition exists_path (t : tree) (p : list string) : bool :=
    match p with [] => true | _ => existsb (fun e => path_eqb (fst e) p) t end.

  (** The entries of folder [p] with their names *)
  Definition listdir (t : tree) (p : list string) : list (string * entry) :=
    flat_map (fun e => match fst e with
                       | [] => []
                       | c :: q => if path_eqb (removelast (fst e)) p then [(last (fst e) c, snd e)] else []
                       end) t.

  (** One component with special characters: _glob1 *)
  Definition glob1 (l : list (string * entry)) (pattern : string) : list (string * entry) :=
    filter (fun e => (hidden pattern || negb (hidden (fst e))) && fnmatch (fst e) pattern) l.

  (** The folders that a path stands for.  Components without special characters are taken as they are
      (whether they exist is seen when they are listed). *)
  Fixpoint glob_folders (t : tree) (base path : list string) : list (list string) :=
    match path with
    | [] => [base]
    | c :: path =>
        if has_magic c then
          flat_map (fun e => glob_folders t (base ++ [fst e]) path)
            (filter (fun e => is_folder (snd e)) (glob1 (listdir t base) c))
        else glob_folders t (base ++ [c]) path
    end.

  (** glob.glob(path + "/" + pattern): the names and contents of the files *)
  Definition glob_files (t : tree) (path : list string) (pattern : string) : list (string * entry) :=
    flat_map (fun p => glob1 (listdir t p) pattern) (glob_folders t [] path).

  (** What astropy finds in an entry: a folder cannot be opened. *)
  Definition opened (e : string * entry) : string * fits_file A :=
    (fst e, match snd e with File f => f | Folder => Broken end).

  (** demodulation.py 147-155 and [load] *)
  Definition Demodulator (t : tree) (path : list string) : result (demodulator A) :=
    if negb (exists_path t path) then Raise FileNotFoundError
    else load (map opened (glob_files t path "*.fits")).

  (** demodulation.py 43-79 *)
  Definition covariance (t : tree) (path : list string) : result (option (tensor A)) :=
    Cij (map opened (glob_files t (path ++ ["covariance_tensor"%string]) "*")).
End Glob.
Arguments entry A : clear implicits.
Arguments tree A : clear implicits.
