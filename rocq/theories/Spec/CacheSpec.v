(** What calls give when nothing is remembered (vocabulary for C131). *)
From Coq Require Import Reals.
From Verif Require Import Base.Base Base.Num Model.Roi Model.Nrgf Model.Cache.

(** The outcome in a fresh interpreter. *)
Definition alone (i : call) : outcome :=
  match i with
  | CallMap k => Maps (map_polar_coordinates (k_height k) (k_width k) (k_y k) (k_x k))
  | CallRoi data center rho theta fill incl => Image (roi_from_polar data center rho theta fill incl)
  | CallNrgf data y x r s tm to => Image (nrgf data y x r s tm to)
  | Change _ _ _ _ => Done
  end.
Definition changes_nothing (i : call) : Prop := match i with Change _ _ _ _ => False | _ => True end.
