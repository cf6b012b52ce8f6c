(** functools.lru_cache on map_polar_coordinates (micropolarray/processing/nrgf.py 91-103): the last 128
    results are kept and handed out again, as the same arrays, to roi_from_polar (57-61), nrgf (142-144) and
    whoever calls map_polar_coordinates.  Keys are compared with ==, so whole numbers and floats of the same value
    are the same key. *)
From Coq Require Import Reals.
From Verif Require Import Base.Base Base.Num Base.Bcast Model.Codec Model.Roi Model.Nrgf.

Record polar_key : Type := mkkey { k_height : Z; k_width : Z; k_y : R; k_x : R }.
Definition key_eqb (a b : polar_key) : bool :=
  (k_height a =? k_height b) && (k_width a =? k_width b) && Reqb (k_y a) (k_y b) && Reqb (k_x a) (k_x b).

(** most recently used first *)
Definition cache : Type := list (polar_key * (arr R * arr R)).
Definition cache_get (c : cache) (k : polar_key) : option (arr R * arr R) :=
  match find (fun e => key_eqb (fst e) k) c with Some e => Some (snd e) | None => None end.
Definition cache_drop (c : cache) (k : polar_key) : cache := filter (fun e => negb (key_eqb (fst e) k)) c.
Definition polar_call (c : cache) (k : polar_key) : (arr R * arr R) * cache :=
  match cache_get c k with
  | Some m => (m, (k, m) :: cache_drop c k)
  | None => let m := map_polar_coordinates (k_height k) (k_width k) (k_y k) (k_x k) in (m, firstn 128 ((k, m) :: c))
  end.

(** Key of the call in roi_from_polar; [None] if it raises before. *)
Definition roi_key {A} (data : arr A) (center rho : option (R * R)) (include_superpixels : bool) : option polar_key :=
  match rho with
  | None => None
  | Some _ =>
      let (yc, xc) := match center with
                      | None => (IZR (Z.quot (rows data) 2), IZR (Z.quot (cols data) 2))
                      | Some c => c
                      end in
      Some (if include_superpixels then mkkey (Z.quot (rows data) 2) (Z.quot (cols data) 2) (int_half yc) (int_half xc)
            else mkkey (rows data) (cols data) yc xc)
  end.
Definition nrgf_key {A} (data : arr A) (y_center x_center : R) : polar_key :=
  mkkey (rows data) (cols data) (IZR (rtrunc y_center)) (IZR (rtrunc x_center)).

(** What a program does; [Change] writes one element of the distances it got from map_polar_coordinates. *)
Inductive call : Type :=
| CallMap (k : polar_key)
| CallRoi (data : arr R) (center rho : option (R * R)) (theta : R * R) (fill : R) (incl : bool)
| CallNrgf (data : arr R) (y_center x_center : R) (rho_min step : Z) (phi_to_mean output_phi : R * R)
| Change (k : polar_key) (y x : Z) (v : R).
Inductive outcome : Type :=
| Maps (m : arr R * arr R)
| Image (r : result (arr R))
| Done.

Definition written (y x : Z) (v : R) (a : arr R) : arr R :=
  mkarr (rows a) (cols a) (fun y' x' => if (y' =? y) && (x' =? x) then v else cell a y' x').

Definition step_call (c : cache) (i : call) : outcome * cache :=
  match i with
  | CallMap k => let (m, c') := polar_call c k in (Maps m, c')
  | CallRoi data center rho theta fill incl =>
      match roi_key data center rho incl with
      | None => (Image (Raise TypeError), c)
      | Some k =>
          let (m, c') := polar_call c k in
          (Image (let* condition := roi_condition_from (fun _ _ _ _ => m) data center rho theta incl in where_fill condition data fill), c')
      end
  | CallNrgf data y x r s tm to =>
      let (m, c') := polar_call c (nrgf_key data y x) in
      (Image (nrgf_from (fun _ _ _ _ => m) data y x r s tm to), c')
  | Change k y x v => (Done, map (fun e => if key_eqb (fst e) k then (fst e, (written y x v (fst (snd e)), snd (snd e))) else e) c)
  end.
Fixpoint run_calls (c : cache) (p : list call) : list outcome * cache :=
  match p with
  | [] => ([], c)
  | i :: p => let (o, c1) := step_call c i in let (os, c2) := run_calls c1 p in (o :: os, c2)
  end.
