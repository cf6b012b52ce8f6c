(** Two populations of pixels. *)
From Coq Require Import Reals.
From Verif Require Import Base.Base Base.Num Model.Cleaning Model.MedianFilter.
Local Open Scope R_scope.

Definition within_band (lo hi v : R) : Prop := lo <= v <= hi.

(** At most half of the values are below [lo], less than half are above [hi]. *)
Definition mostly (lo hi : R) (l : list R) : Prop :=
  (2 * length (filter (fun v => negb (Rleb lo v)) l) <= length l)%nat /\ (2 * length (filter (fun v => negb (Rleb v hi)) l) < length l)%nat.

Definition on (data : arr R) (y x : Z) : Prop := (0 <= y < rows data)%Z /\ (0 <= x < cols data)%Z.

(** The median filter of scipy (C152) *)
Definition scipy : filter_oracle := window_median Rleb.

(** Every value lies in the band of width [e] above [a] or in the one above [b]; both occur. *)
Definition two_populations (a b e : R) (l : list R) : Prop :=
  (forall v, In v l -> within_band a (a + e) v \/ within_band b (b + e) v) /\
  (exists v, In v l /\ within_band a (a + e) v) /\ (exists v, In v l /\ within_band b (b + e) v).

(** [t] tells the populations apart. *)
Definition separates (a b e t : R) (l : list R) : Prop :=
  forall v, In v l -> (within_band a (a + e) v -> v < t) /\ (within_band b (b + e) v -> t <= v).

(** Three strips: background of 0 and of 100, signal of 102 *)
Definition strips : arr Z := mkarr 8 40 (fun _ x => if x <? 15 then 0 else if x <? 30 then 100 else 102)%Z.
