(** The radial filter with sectors in binary64: micropolarray/processing/nrgf.py 131-174 with whole numbers for the centre,
    [rho_min] and [step] and binary64 numbers for the angles.  [arctan2] is np.arctan2; [orders] gives the orders in which
    np.mean and np.std add the pixels they are told to (Model/NrgfFloat.v), [None] for no pixels. *)
From Verif Require Import Base.Base Base.Num Model.MeanFloat Model.LinRoi Model.NrgfFloat Model.PolarFloat.

(** np.max *)
Definition greatest (l : list b64) : result b64 :=
  match l with
  | [] => Raise ValueError
  | v :: l => Ok (fold_left (fun m v => if nltb m v then v else m) l v)
  end.

Section Filter.
  Variable arctan2 : b64 -> b64 -> b64.
  Variable orders : list (Z * Z) -> option ring_plan.

  (** nrgf.py 146-152 *)
  Definition between64 (t1 t2 : b64) (cy cx y x : Z) : bool :=
    nleb t1 (phi64 arctan2 cy cx y x) && nltb (phi64 arctan2 cy cx y x) t2.
  (** The pixels where [condition] holds, in the order of memory *)
  Definition chosen (h w : Z) (condition : Z -> Z -> bool) : list (Z * Z) :=
    filter (fun p => condition (fst p) (snd p)) (list_prod (zrange h) (zrange w)).

  (** nrgf.py 138-174 *)
  Definition nrgf64 (data : arr b64) (cy cx rho_min step : Z) (mean_lo mean_hi out_lo out_hi : b64) : result (arr b64) :=
    let h := rows data in let w := cols data in
    let* top := greatest (concat (to_list (mkarr h w (distance (A := b64) cy cx)))) in
    let* rho_max := toint top in
    if step =? 0 then Raise ValueError
    else if step <? 0 then Ok (full h w n0)
    else
      for_range rho_min rho_max step (fun r newdata =>
        let ring := in_ring (A := b64) cy cx r step in
        let mean_pixels := chosen h w (fun y x => ring y x && between64 mean_lo mean_hi cy cx y x) in
        Ok (mkarr h w (fun y x =>
          if ring y x && between64 out_lo out_hi cy cx y x then ring_output data (orders mean_pixels) (cell data y x)
          else cell newdata y x)))
        (full h w n0).
End Filter.
