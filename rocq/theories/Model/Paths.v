(** Path strings as the package uses them: [str.split], [str.join], [os.path.abspath] and
    the parts of [pathlib.Path] it calls (POSIX flavour).  These are library functions; they
    are modelled because convert.py 74-75, 159-160, 206-207, image.py 187-193, 219 and
    micropol_image.py 663-801 build every output name with them. *)
From Coq Require Import String Ascii.
From Verif Require Import Base.Base.
Local Open Scope string_scope.

(** [s.split(c)] for a one-character separator: never empty. *)
Fixpoint split_on (c : ascii) (s : string) : list string :=
  match s with
  | EmptyString => [""]
  | String a s' =>
      if Ascii.eqb a c then "" :: split_on c s'
      else match split_on c s' with
           | h :: t => String a h :: t
           | [] => [String a ""]
           end
  end.

(** [sep.join(l)] *)
Definition join (sep : string) (l : list string) : string := String.concat sep l.

(** [sub in s] *)
Definition contains (sub s : string) : bool :=
  match String.index 0 sub s with Some _ => true | None => false end.

Definition slash : ascii := "/".
Definition dot : ascii := ".".

Definition starts_with (p s : string) : bool := String.prefix p s.
Definition is_abs (p : string) : bool := starts_with "/" p.

(** posixpath.normpath: one component at a time on the stack of kept components
    (innermost first). *)
Definition norm_step (abs : bool) (stack : list string) (comp : string) : list string :=
  if String.eqb comp "" || String.eqb comp "." then stack
  else if negb (String.eqb comp "..") then comp :: stack
  else match stack with
       | [] => if abs then [] else [comp]
       | top :: rest => if String.eqb top ".." then comp :: stack else rest
       end.

Definition initial_slashes (p : string) : string :=
  if starts_with "/" p then
    if starts_with "//" p && negb (starts_with "///" p) then "//" else "/"
  else "".

Definition normpath (p : string) : string :=
  if String.eqb p "" then "."
  else
    let comps := rev (fold_left (norm_step (is_abs p)) (split_on slash p) []) in
    let q := initial_slashes p ++ join "/" comps in
    if String.eqb q "" then "." else q.

Definition ends_in_slash (p : string) : bool :=
  match p with
  | EmptyString => false
  | _ => String.eqb (substring (String.length p - 1) 1 p) "/"
  end.

(** posixpath.join with two arguments. *)
Definition path_join (a b : string) : string :=
  if is_abs b then b
  else if String.eqb a "" || ends_in_slash a then a ++ b
  else a ++ "/" ++ b.

(** os.path.abspath, with the current directory as a parameter. *)
Definition abspath (cwd p : string) : string := normpath (path_join cwd p).

(** ** pathlib.PurePosixPath: root and parts. *)
Record ppath := { proot : string; pparts : list string }.

Definition ppath_of (p : string) : ppath :=
  {| proot := initial_slashes p;
     pparts := filter (fun c => negb (String.eqb c "" || String.eqb c ".")) (split_on slash p) |}.

Definition ppath_str (q : ppath) : string :=
  let s := (proot q ++ join "/" (pparts q))%string in
  if String.eqb s "" then "." else s.

(** [p.name], [p.suffix], [p.stem]: the last dot of the name, unless it is the first or the
    last character. *)
Definition pname (q : ppath) : string := last (pparts q) "".

Definition split_name (name : string) : string * string :=
  let pieces := split_on dot name in
  let stem := join "." (removelast pieces) in
  let ext := last pieces "" in
  if String.eqb stem "" || String.eqb ext "" then (name, "") else (stem, "." ++ ext).

Definition psuffix (q : ppath) : string := snd (split_name (pname q)).
Definition pstem (q : ppath) : string := fst (split_name (pname q)).
Definition pparent (q : ppath) : ppath := {| proot := proot q; pparts := removelast (pparts q) |}.
Definition pis_abs (q : ppath) : bool := negb (String.eqb (proot q) "").

(** [a / b] *)
Definition pjoin (a b : ppath) : ppath :=
  if pis_abs b then b else {| proot := proot a; pparts := pparts a ++ pparts b |}.

(** [p.absolute()] (no ".." processing). *)
Definition pabsolute (cwd : string) (q : ppath) : ppath :=
  if pis_abs q then q else pjoin (ppath_of cwd) q.
