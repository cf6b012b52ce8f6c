(** Model of the IFOV correction and of the Chen-Wan-Liang calibration
    (micropolarray/processing/chen_wan_liang_calibration.py 260-322). *)
From Verif Require Import Base.Base Base.Num Model.Demosaic Model.Rebin.

Section Ifov.
  Context {A : Type} `{Num A}.

  (** chen_wan_liang_calibration.py 308-322 *)
  Definition ifov_jitcorrect (data : arr A) (height width : Z) : result (arr A) :=
    let* corrected_data := zeros height width in
    for_range 2 height 2 (fun super_y =>
      for_range 2 width 2 (fun super_x =>
        for_range 0 2 1 (fun i =>
          for_range 0 2 1 (fun j corrected_data =>
            let* a := get data (super_y + j - 2) (super_x + i - 2) in
            let* b := get data (super_y + j - 2) (super_x + i) in
            let* c := get data (super_y + j) (super_x + i - 2) in
            let* e := get data (super_y + j) (super_x + i) in
            set corrected_data (super_y + j) (super_x + i)
                (nquart *! (((a +! b) +! c) +! e)))))) corrected_data.

  (** One row of the 4x4 matrix product [C[:, :, y, x] @ v] (v a 4x1 column). *)
  Definition row4 (C : Z -> Z -> arr A) (y x i : Z) (v : Z -> A) : A :=
    ((cell (C i 0) y x *! v 0 +! cell (C i 1) y x *! v 1)
       +! cell (C i 2) y x *! v 2) +! cell (C i 3) y x *! v 3.

  (** chen_wan_liang_calibration.py 260-305, after the calibration files have been read:
      [C i j] is the content of C{i}{j}.fits (assigned into an array of the shape of
      [data], so of that shape) and [dij] that of d_ij.fits (same shape, else numpy's
      subtraction raises ValueError).  [reshape(4, 1)] of a superpixel enumerates it in
      row-major order and raises ValueError if it is incomplete.  [store] is what an element of
      [corrected_data = np.zeros_like(data)] keeps of a number assigned to it. *)
  Definition chen_calibration_with (store : A -> A) (C : Z -> Z -> arr A) (dij data : arr A) : result (arr A) :=
    if negb (same_shapeb data dij) then Raise ValueError else
    let height := rows data in
    let width := cols data in
    let P_minus_d := amap2 nsub data dij in
    let* corrected_data :=
      for_range 0 height 2 (fun super_y =>
        for_range 0 width 2 (fun super_x corrected_data =>
          if (height <? super_y + 2) || (width <? super_x + 2) then Raise ValueError else
          let v k := cell P_minus_d (super_y + k / 2) (super_x + k mod 2) in
          let mult k := store (row4 C super_y super_x k v) in
          Ok (mkarr (rows corrected_data) (cols corrected_data)
                (fun y x =>
                   if (super_y <=? y) && (y <? super_y + 2)
                      && (super_x <=? x) && (x <? super_x + 2)
                   then mult (2 * (y - super_y) + (x - super_x))
                   else cell corrected_data y x))))
        (full height width n0) in
    ifov_jitcorrect corrected_data height width.

  (** Floating-point data *)
  Definition chen_calibration : (Z -> Z -> arr A) -> arr A -> arr A -> result (arr A) :=
    chen_calibration_with (fun v => v).
End Ifov.
