(** calculate_demodulation_tensor with DEBUG = True (micropolarray/processing/demodulation.py
    491-492, 713-715, 856-861 and 937-977). *)
From Coq Require Import Reals.
From Verif Require Import Base.Base Model.DemodFit Model.DemodLoad.

(** What a figure shows (937-974): the superpixel named in the title, for each of its four
    pixels the points with their error bars and the parameters of the curve drawn through them.
    Matplotlib is taken to draw it; the orientations are not all equal (np.arange of 955). *)
Record figure : Type := mkfigure {
  g_y : Z; g_x : Z; g_points : four (list R); g_errors : four (list R); g_params : four param3
}.

Definition four_of {A} (f : Z -> A) : four A := mkfour (f 0) (f 1) (f 2) (f 3).

Section Debug.
  Context (S : settings).

  (** One superpixel.  The figure is drawn after the four fits and shows [superpix_params], which
      lives as long as the chunk. *)
  Definition debug_step (c : chunk) (y0 x0 : Z) (st : maps * scratch * list figure)
      : result (maps * scratch * list figure) :=
    let '(o, sc, figures) := st in
    let* (o', sc') := step S c y0 x0 (o, sc) in
    Ok (o', sc',
        if any22 (c_occ c) y0 x0 then figures
        else figures ++ [mkfigure y0 x0 (four_of (samples_at c y0 x0)) (four_of (sigma_at c y0 x0)) (s_params sc')]).

  (** 856-861 and the loop of 876-1057 *)
  Definition debug_chunk (c : chunk) : result (maps * scratch * list figure) :=
    for_range 100 150 2 (fun super_y =>
      for_range 100 150 2 (fun super_x => debug_step c super_y super_x))
      (initial_maps S (c_h c) (c_w c), initial_scratch, []).

  (** 491-715: one chunk, computed in the same process, then merged into arrays nobody reads. *)
  Definition debug_grid (whole : chunk) : result (maps * list figure) :=
    let height := c_h whole in
    let width := c_w whole in
    if negb (width mod 2 =? 0) || negb (height mod 2 =? 0) then Raise ValueError else
    let* (o, _, figures) := debug_chunk (chunk_at whole height width 0 0) in
    Ok (o, figures).
End Debug.

(** 713-752: the folder after the calibration and whether the function returns (otherwise
    SystemExit is raised). *)
Definition finish_calibration {A} (DEBUG : bool) (c : calibration A) (l : folder A) : folder A * bool :=
  if DEBUG then (l, false) else (write_all (written_files c) l, true).
