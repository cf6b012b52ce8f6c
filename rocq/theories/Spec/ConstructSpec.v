(** Images with data, and sizes of Stokes vectors (vocabulary for C82 and C83). *)
From Coq Require Import Reals.
From Verif Require Import Base.Base Model.Demosaic Model.Stokes Model.Construct Spec.MosaicSpec Spec.ImageSpec.

(** Two-dimensional data, and sizes that agree. *)
Definition has_data (p : plain) : Prop := exists d, p_data p = Some d /\ p_size p = Some (rows d, cols d).

(** Arguments of a kind the constructor of Image knows. *)
Definition known (x : initializer) : Prop :=
  match x with FromFiles _ | FromArray _ | FromImage _ => True | _ => False end.

(** An image that could itself have been constructed. *)
Definition source_ok (x : initializer) : Prop :=
  match x with
  | FromMicropol i => has_data (m_plain i)
  | _ => True
  end.

(** Stokes parameters of half the sides of a mosaic, of all of it once demosaiced. *)
Definition vector_fits (v : view) : Prop :=
  let n := if v_demosaiced v then 1 else 2 in
  n * rows (sI (v_vector v)) = rows (v_data v) /\ n * cols (sI (v_vector v)) = cols (v_data v) /\
  n * rows (sQ (v_vector v)) = rows (v_data v) /\ n * cols (sQ (v_vector v)) = cols (v_data v) /\
  n * rows (sU (v_vector v)) = rows (v_data v) /\ n * cols (sU (v_vector v)) = cols (v_data v).
