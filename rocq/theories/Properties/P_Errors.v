(** Property C65: propagation of errors. *)
From Coq Require Import Reals Lra QArith Floats.SpecFloat.
From Verif Require Import Base.Base Base.Num Model.Stokes Model.Pol Model.Demodulate Model.Errors
  Spec.MosaicSpec Spec.StokesSpec Spec.DemodSpec Spec.ErrorSpec Proofs.ErrorFacts.
Local Open Scope Z_scope.

(** ** C65.  "Wherever defined": pB and DoLP where the light is polarized (and I is not 0), AoLP
    where Q is not 0, away from the half line where the angle jumps by 180 degrees. *)
Theorem C65_errors (s : stokes R) (e : arr R) (d : demodulator R) I Q U h w :
  mosaic e -> h = rows e / 2 -> w = cols e / 2 -> t_rows (mij d) = h -> t_cols (mij d) = w ->
  stokes_is s h w I Q U ->
  exists sS sP sD sA, MicropolImageError s e d = Ok (sS, sP, sD, sA) /\
    let sigma i Y X :=
      sqrt (sum4 (fun j => ((t_cell (mij d) i j Y X * sample e j Y X) *
                            (t_cell (mij d) i j Y X * sample e j Y X))%R)) in
    stokes_is sS h w (sigma 0) (sigma 1) (sigma 2) /\
    (rows sP = h /\ cols sP = w) /\ (rows sD = h /\ cols sD = w) /\ (rows sA = h /\ cols sA = w) /\
    forall Y X, 0 <= Y < h -> 0 <= X < w ->
      let propagated f v :=
        first_order f (I Y X) (Q Y X) (U Y X) (sigma 0 Y X) (sigma 1 Y X) (sigma 2 Y X) v in
      (0 <= cell sP Y X /\ 0 <= cell sD Y X /\ 0 <= cell sA Y X)%R /\
      (~ (Q Y X = 0 /\ U Y X = 0)%R -> propagated (fun i q u => value (pB (pixel i q u))) (cell sP Y X)) /\
      (I Y X <> 0%R -> ~ (Q Y X = 0 /\ U Y X = 0)%R ->
         propagated (fun i q u => value (DoLP (pixel i q u))) (cell sD Y X)) /\
      (Q Y X <> 0%R -> (0 < Q Y X \/ U Y X <> 0)%R ->
         propagated (fun i q u => value (AoLP (pixel i q u))) (cell sA Y X)).
Proof. exact (c65_all s e d I Q U h w). Qed.
Print Assumptions C65_errors.

(** The angle of light with Q = 0 is well defined, but in binary64 its error is always NaN. *)
Theorem C65_no_Q_refuted (I U si sq su : b64) sg :
  let one v : arr b64 := full 1 1 v in
  get_error_on_AoLP (mkstokes (one I) (one (S754_zero sg)) (one U)) (mkstokes (one si) (one sq) (one su))
    = Ok (mkarr 1 1 (fun _ _ => S754_nan)).
Proof. exact (aolp_nan I U si sq su sg). Qed.
Print Assumptions C65_no_Q_refuted.

(** Errors 1..4 through the matrix whose rows are (1,1,1,1), (1,0,0,0), (0,2,0,0). *)
Example C65_case :
  let m i j := if i =? 0 then 1%Q else if (i =? 1) && (j =? 0) then 1%Q
               else if (i =? 2) && (j =? 1) then 2%Q else 0%Q in
  let d := mkdemodulator (mktensor 1 1 (fun i j _ _ => m i j)) None in
  let e := mkarr 2 2 (fun y x => inject_Z (2 * y + x + 1)) in
  (mosaic e /\ rows e / 2 = 1 /\ cols e / 2 = 1 /\ t_rows (mij d) = 1 /\ t_cols (mij d) = 1) /\
  match demod_product (tensor_map square (mij d)) (Demosaic.quad_map (amap square)
          (Demosaic.mkquad (full 1 1 1%Q) (full 1 1 2%Q) (full 1 1 3%Q) (full 1 1 4%Q))) with
  | Ok s => (to_list (sI s), to_list (sQ s), to_list (sU s)) = ([[30%Q]], [[1%Q]], [[16%Q]])
  | _ => False
  end.
Proof. repeat split; vm_compute; congruence || reflexivity. Qed.

Example C65_binary64_case :
  let one n : arr b64 := full 1 1 (b64_ofZ n) in
  on_ok (fun a => map (map (fun v => SFcompare v (b64_ofZ 5))) (to_list a))
    (get_error_on_pB (mkstokes (one 1) (one 3) (one 4)) (mkstokes (one 1) (one 5) (one 5))) = Ok [[Some Eq]].
Proof. vm_compute. reflexivity. Qed.
