(** Propagation of errors through demodulation
    (micropolarray/processing/demodulation_errors.py 14-88). *)
From Coq Require Import Reals.
From Verif Require Import Base.Base Base.Num Base.Bcast Model.Demosaic Model.Stokes Model.Demodulate.

Section Errors.
  Context {A : Type} `{Num A}.

  Definition square (v : A) : A := v *! v.
  Definition tensor_map (f : A -> A) (m : tensor A) : tensor A :=
    mktensor (t_rows m) (t_cols m) (fun i j y x => f (t_cell m i j y x)).
  Definition stokes_map (f : A -> A) (s : stokes A) : stokes A :=
    mkstokes (amap f (sI s)) (amap f (sQ s)) (amap f (sU s)).

  (** 26-54.  The product is the same matmul as in MicropolImage.demodulate. *)
  Definition get_error_on_Stokes (image_error : arr A) (d : demodulator A) : result (stokes A) :=
    let mij_square := tensor_map square (mij d) in
    let* single_pol_subimages := split_polarizations image_error in
    let pixel_poisson_variance := quad_map (amap square) single_pol_subimages in
    let* S_variance := demod_product mij_square pixel_poisson_variance in
    Ok (stokes_map nsqrt S_variance).

  (** A formula of I, Q, U and their errors applied to two stacks; the planes of a stack have
      one shape, and numpy broadcasts the two. *)
  Definition pixelwise (f : A -> A -> A -> A -> A -> A -> A) (S sigma : stokes A) : result (arr A) :=
    match bdim (rows (sI S)) (rows (sI sigma)), bdim (cols (sI S)) (cols (sI sigma)) with
    | Some h, Some w =>
        Ok (mkarr h w (fun y x =>
          f (bcell (sI S) y x) (bcell (sQ S) y x) (bcell (sU S) y x)
            (bcell (sI sigma) y x) (bcell (sQ sigma) y x) (bcell (sU sigma) y x)))
    | _, _ => Raise ValueError
    end.

  (** 57-63 *)
  Definition get_error_on_pB : stokes A -> stokes A -> result (arr A) :=
    pixelwise (fun _ Q U _ sigma_Q sigma_U =>
      let pb_var :=
        (((Q *! Q) *! sigma_Q) *! sigma_Q +! ((U *! U) *! sigma_U) *! sigma_U) /! (Q *! Q +! U *! U) in
      nsqrt pb_var).

  (** 66-76 *)
  Definition get_error_on_DoLP : stokes A -> stokes A -> result (arr A) :=
    pixelwise (fun I Q U sigma_I sigma_Q sigma_U =>
      let pB := nsqrt (Q *! Q +! U *! U) in
      let dolp_var :=
        (((Q *! Q) *! sigma_Q) *! sigma_Q +! ((U *! U) *! sigma_U) *! sigma_U) /! ((I *! pB) *! (I *! pB))
        +! (((pB /! (I *! I)) *! (pB /! (I *! I))) *! sigma_I) *! sigma_I in
      nsqrt dolp_var).

  (** 79-87 *)
  Definition get_error_on_AoLP : stokes A -> stokes A -> result (arr A) :=
    pixelwise (fun _ Q U _ sigma_Q sigma_U =>
      let aolp_var :=
        (sigma_U *! sigma_U +! (((sigma_Q *! sigma_Q) *! U) *! U) /! (Q *! Q))
        /! ((((nofZ 4 *! Q) *! Q) *! (n1 +! ((U *! U) /! (Q *! Q)))) *! (n1 +! ((U *! U) /! (Q *! Q)))) in
      nsqrt aolp_var).

  (** 14-23: the four attributes of a MicropolImageError *)
  Definition MicropolImageError (Stokes_vec : stokes A) (image_error : arr A) (d : demodulator A)
    : result (stokes A * arr A * arr A * arr A) :=
    let* sigma_S := get_error_on_Stokes image_error d in
    let* sigma_pB := get_error_on_pB Stokes_vec sigma_S in
    let* sigma_DoLP := get_error_on_DoLP Stokes_vec sigma_S in
    let* sigma_AoLP := get_error_on_AoLP Stokes_vec sigma_S in
    Ok (sigma_S, sigma_pB, sigma_DoLP, sigma_AoLP).
End Errors.
