(** Calls that give an image pixels of its own (vocabulary for C133). *)
From Coq Require Import Reals.
From Verif Require Import Base.Base Model.ImageObj Model.Pixels.

(** Plain copies and demodulated images: nothing new is computed for their pixels. *)
Definition same_pixels (c : op) (i : nat) : Prop :=
  match c with
  | CopyOf k _ None None | Demodulate k _ _ => k = i
  | _ => False
  end.
(** Calls whose image, when they return one, has newly computed pixels. *)
Definition new_pixels (c : op) : Prop :=
  match c with
  | SetDefault _ | DemosaicImage _ _ | MaskOcculter _ _ _ _ _ _ | Demodulate _ _ _ | CopyOf _ _ None None => False
  | _ => True
  end.
(** Neither plain copies nor demodulation. *)
Definition no_copies (a : act) : Prop :=
  match a with
  | Call _ c => forall i, ~ same_pixels c i
  | Store _ _ _ _ => True
  end.
