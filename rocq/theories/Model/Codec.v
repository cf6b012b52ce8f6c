(** Binary file codecs: micropolarray/processing/convert.py 14-63 and
    micropolarray/image.py 210-222. *)
From Coq Require Import Reals.
From Verif Require Import Base.Base Base.Num.

(** File contents are lists of bytes (integers in [0, 256)). *)
Definition bytes := list Z.
Definition zlen {A} (l : list A) : Z := Z.of_nat (length l).

(** [bin(j)[2:].zfill(8)] for a byte, most significant bit first, and [int(s, 2)]
    (ValueError on the empty string). *)
Definition bits8 (j : Z) : list bool :=
  map (Z.testbit j) [7; 6; 5; 4; 3; 2; 1; 0].
Definition int2 (s : list bool) : result Z :=
  match s with
  | [] => Raise ValueError
  | _ => Ok (fold_left (fun acc (b : bool) => 2 * acc + (if b then 1 else 0)) s 0)
  end.
(** [s[a:b]] *)
Definition slice {A} (s : list A) (a b : nat) : list A := firstn (b - a) (skipn a s).

(** [newarr[position] = v] on a one-dimensional array of the given size. *)
Definition store (size : Z) (newarr : list Z) (position v : Z) : result (list Z) :=
  if (0 <=? position) && (position <? size)
  then Ok (firstn (Z.to_nat position) newarr ++ v :: skipn (S (Z.to_nat position)) newarr)
  else Raise IndexError.

(** convert.py 14-27.  [int(len(filecontent) * 2 / 3)] is the integer quotient.
    The array is kept as the list of its cells; values below 4096 are exact floats. *)
Fixpoint three_loop (n : nat) (i : nat) (filecontent : bytes) (size position : Z)
    (newarr : list Z) : result (list Z) :=
  match n with
  | O => Ok newarr
  | S n' =>
      let binsum := concat (map bits8 (slice filecontent i (i + 3))) in
      let* v0 := int2 (slice binsum 0 12) in
      let* newarr := store size newarr position v0 in
      let* v1 := int2 (slice binsum 16 24 ++ slice binsum 12 16) in
      let* newarr := store size newarr (position + 1) v1 in
      three_loop n' (i + 3) filecontent size (position + 2) newarr
  end.

Definition three_bytes_to_two_ints (filecontent : bytes) : result (list Z) :=
  let size := zlen filecontent * 2 / 3 in
  three_loop (Nat.div (length filecontent + 2) 3) 0 filecontent size 0
             (repeat 0 (Z.to_nat size)).

(** numpy stores a list of byte strings in an array of fixed width; reading an element
    back drops its trailing NUL bytes. *)
Fixpoint drop_while0 (l : bytes) : bytes :=
  match l with
  | 0 :: l' => drop_while0 l'
  | _ => l
  end.
Definition strip_nul (l : bytes) : bytes := rev (drop_while0 (rev l)).

(** [mp.Pool.map]: tasks complete in the order given by [schedule] (task numbers); a
    completion fills its slot; the first failing completion decides the exception;
    otherwise the slots are returned in task order. *)
Fixpoint pool_run {A B} (f : A -> result B) (tasks : list A) (schedule : list nat)
    (slots : list (option B)) : result (list (option B)) :=
  match schedule with
  | [] => Ok slots
  | k :: sch =>
      match nth_error tasks k with
      | None => pool_run f tasks sch slots
      | Some t =>
          let* b := f t in
          pool_run f tasks sch (firstn k slots ++ Some b :: skipn (S k) slots)
      end
  end.

Fixpoint all_some {B} (l : list (option B)) : result (list B) :=
  match l with
  | [] => Ok []
  | Some b :: l' => let* r := all_some l' in Ok (b :: r)
  | None :: _ => NoFuel      (* a task never completed: the call does not return *)
  end.

Definition pool_map {A B} (f : A -> result B) (tasks : list A) (schedule : list nat)
  : result (list B) :=
  let* slots := pool_run f tasks schedule (repeat None (length tasks)) in
  all_some slots.

(** [np.array(result).reshape((dim, dim))]: equally long rows, then total size dim*dim. *)
Definition stack_reshape (dim : Z) (parts : list (list Z)) : result (arr Z) :=
  if forallb (fun p => zlen p =? zlen (hd [] parts)) parts then
    if zlen (concat parts) =? dim * dim
    then Ok (mkarr dim dim (fun y x => nth (Z.to_nat (dim * y + x)) (concat parts) 0))
    else Raise ValueError
  else Raise ValueError.

(** convert.py 30-63 with the constants 1952 and 32 as parameters [dim] and [chunks_n];
    [content] is what [file.read()] returned.  Simplification: the float tests
    [chunk_size % 1] and [(chunk_size / 3) % 1] are divisibility tests (exact for file
    lengths below 2^50). *)
Definition nparr_from_binary_gen (dim chunks_n : Z) (content : bytes) (schedule : list nat)
  : result (arr Z) :=
  let n := zlen content in
  if negb (n mod chunks_n =? 0) || negb ((n / chunks_n) mod 3 =? 0) then Raise ValueError
  else
    let chunk_size := Z.to_nat (n / chunks_n) in
    let splitted :=
      map (fun i => strip_nul (slice content (Z.to_nat i * chunk_size)
                                     ((Z.to_nat i + 1) * chunk_size)))
          (zrange chunks_n) in
    let* result := pool_map three_bytes_to_two_ints splitted schedule in
    stack_reshape dim result.

Definition image_dimension : Z := 1952.
Definition nparr_from_binary (content : bytes) (schedule : list nat) : result (arr Z) :=
  nparr_from_binary_gen image_dimension 32 content schedule.

(** ** 16-bit raw files *)

(** [astype("int16")] truncates towards zero; for values outside the int16 range the
    conversion is implementation-defined: [oor]. *)
Definition rtrunc (r : R) : Z := if Rleb 0 r then Int_part r else (- Int_part (- r))%Z.
Definition to_int16 (oor : R -> Z) (r : R) : Z :=
  let z := rtrunc r in
  if (-32768 <=? z) && (z <=? 32767) then z else oor r.

(** One int16 in memory order (little endian). *)
Definition enc16 (z : Z) : bytes := [z mod 256; (z / 256) mod 256].

(** image.py 222: [self.data.astype("int16").tofile(filename)], row by row. *)
Definition raw_bytes (oor : R -> Z) (data : arr R) : bytes :=
  concat (map (fun y => concat (map (fun x => enc16 (to_int16 oor (cell data y x)))
                                    (zrange (cols data))))
              (zrange (rows data))).

(** [np.ndarray(shape=(height, width), dtype="<u2", buffer=buffer)] (convert.py 170, 204):
    TypeError when the buffer is too small, extra bytes ignored. *)
Definition u2_array (height width : Z) (buffer : bytes) : result (arr Z) :=
  if (height <? 0) || (width <? 0) then Raise ValueError
  else if zlen buffer <? height * width * 2 then Raise TypeError
  else Ok (mkarr height width (fun y x =>
         let k := Z.to_nat (2 * (width * y + x)) in
         nth k buffer 0 + 256 * nth (S k) buffer 0)).
