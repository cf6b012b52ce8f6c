(** Which pixels a result depends on (vocabulary for C119). *)
From Verif Require Import Base.Base Base.Num Model.Stokes Model.Pol.

(** Two images of the same size with the same pixels where [P] holds. *)
Definition agree {A} (P : Z -> Z -> Prop) (d d' : arr A) : Prop :=
  rows d = rows d' /\ cols d = cols d' /\
  forall j i, 0 <= j < rows d -> 0 <= i < cols d -> P j i -> cell d j i = cell d' j i.

(** The [b] x [b] superpixels that make up bin (Y, X); these and the next ones. *)
Definition bin (b Y X j i : Z) : Prop := j / (2 * b) = Y /\ i / (2 * b) = X.
Definition bins_ahead (b Y X j i : Z) : Prop := Y <= j / (2 * b) <= Y + 1 /\ X <= i / (2 * b) <= X + 1.

(** The same polarization parameters at one pixel. *)
Definition same_light {A} `{Num A} (y x : Z) (s t : stokes A) : Prop :=
  cell (sI s) y x = cell (sI t) y x /\ cell (sQ s) y x = cell (sQ t) y x /\ cell (sU s) y x = cell (sU t) y x /\
  cell (pB s) y x = cell (pB t) y x /\ cell (DoLP s) y x = cell (DoLP t) y x.
