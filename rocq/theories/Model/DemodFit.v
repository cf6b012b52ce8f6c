(** Calibration: fitting every superpixel of a chunk
    (micropolarray/processing/demodulation.py 761-1068) and distributing the chunks over a
    grid of processes (417-709). *)
From Coq Require Import Reals.
From Verif Require Import Base.Base Base.Num Model.Pol.

Definition param3 : Type := R * R * R.            (* throughput, efficiency, phase *)
Definition p_t (p : param3) : R := fst (fst p).
Definition p_e (p : param3) : R := snd (fst p).
Definition p_phi (p : param3) : R := snd p.

(** Four values, one for each pixel of a superpixel (row by row). *)
Record four (A : Type) : Type := mkfour { f_0 : A; f_1 : A; f_2 : A; f_3 : A }.
Arguments mkfour {A} f_0 f_1 f_2 f_3.
Arguments f_0 {A} f.
Arguments f_1 {A} f.
Arguments f_2 {A} f.
Arguments f_3 {A} f.
Definition f4 {A} (f : four A) (k : Z) : A :=
  if k =? 0 then f_0 f else if k =? 1 then f_1 f else if k =? 2 then f_2 f else f_3 f.
Definition upd4 {A} (f : four A) (k : Z) (v : A) : four A :=
  if k =? 0 then mkfour v (f_1 f) (f_2 f) (f_3 f)
  else if k =? 1 then mkfour (f_0 f) v (f_2 f) (f_3 f)
  else if k =? 2 then mkfour (f_0 f) (f_1 f) v (f_3 f)
  else mkfour (f_0 f) (f_1 f) (f_2 f) v.
Definition map4 {A B} (g : A -> B) (f : four A) : four B :=
  mkfour (g (f_0 f)) (g (f_1 f)) (g (f_2 f)) (g (f_3 f)).
Definition all4 {A} (a : A) : four A := mkfour a a a a.

Definition mat43 : Type := four (R * R * R).       (* four rows of three *)
Definition mat34 : Type := four R * four R * four R. (* three rows of four *)
Definition mat33 : Type := Z -> Z -> R.

(** demodulation.py 952-962: the 4x3 modulation matrix *)
Definition modulation (params : four param3) : mat43 :=
  map4 (fun p => let t := p_t p in
                 let eff := p_e p in
                 let phi := p_phi p in
                 (1/2 * t, 1/2 * t * eff * cos (2 * phi), 1/2 * t * eff * sin (2 * phi)))%R params.

(** demodulation.py 784-799 *)
Definition theo_modulation (phases : four R) : mat43 :=
  map4 (fun phi => (1/2, 1/2 * cos (2 * phi), 1/2 * sin (2 * phi)))%R phases.

(** demodulation.py 996-998 *)
Definition any4 (p : R -> bool) (f : four R) : bool := p (f_0 f) || p (f_1 f) || p (f_2 f) || p (f_3 f).
Definition any34 (p : R -> bool) (m : mat34) : bool :=
  let '(r0, r1, r2) := m in any4 p r0 || any4 p r1 || any4 p r2.
Definition big_numbers (m : mat34) : bool :=
  any34 (fun v => Rltb 100 v) m || any34 (fun v => Rltb v (-100)) m.

Definition zero34 : mat34 := (all4 0, all4 0, all4 0)%R.

(** A block of shape (2, 2) assigned to [a[y0:y0+2, x0:x0+2]]: shapes must agree. *)
Definition put22 {A} (a : arr A) (y0 x0 : Z) (v : four A) : result (arr A) :=
  if (y0 + 2 <=? rows a) && (x0 + 2 <=? cols a)
  then Ok (mkarr (rows a) (cols a)
             (fun y x => if (y0 <=? y) && (y <? y0 + 2) && (x0 <=? x) && (x <? x0 + 2)
                         then f4 v (2 * (y - y0) + (x - x0)) else cell a y x))
  else Raise ValueError.

(** [np.any(a[y0:y0+2, x0:x0+2])] *)
Definition any22 (a : arr R) (y0 x0 : Z) : bool :=
  existsb (fun y => existsb (fun x => negb (Reqb (cell a y x) 0))
                      (filter (fun x => x <? cols a) [x0; x0 + 1]))
    (filter (fun y => y <? rows a) [y0; y0 + 1]).

(** The arrays returned for a chunk (or for the whole image). *)
Record maps : Type := mkmaps {
  o_m : arr mat34; o_tk : arr R; o_eff : arr R; o_phase : arr R;
  o_found : arr R; o_cov : arr mat33; o_chisq : arr R
}.

(** Loop-carried scratch arrays superpix_params, superpix_covtensor, chisq *)
Record scratch : Type := mkscratch {
  s_params : four param3; s_cov : four mat33; s_chisq : four R
}.

Definition updf {A} (f : Z -> A) (k : Z) (v : A) : Z -> A := fun i => if i =? k then v else f i.

(** What is the same for every superpixel. *)
Record settings : Type := mksettings {
  (* scipy.optimize.curve_fit(Malus, ...): abscissas, samples, initial guess, sigma, bounds.
     [None] when it raises. *)
  curve_fit : list R -> list R -> param3 -> list R -> param3 * param3 -> option (param3 * mat33);
  pinv : mat43 -> mat34;                         (* np.linalg.pinv *)
  angles_rad : list R;                           (* np.deg2rad(polarizer_orientations) *)
  phases : four R;                               (* rad_micropol_phases_previsions *)
  tk_boundary : option param3;
  eff_boundary : option param3
}.

Section Chunk.
  Variable S : settings.

  Definition default_boundary : param3 := (1/2, 1/10, 1 - 1/1000000)%R.
  Definition tk_b : param3 := match tk_boundary S with Some b => b | None => default_boundary end.
  Definition eff_b : param3 := match eff_boundary S with Some b => b | None => default_boundary end.

  (** demodulation.py 775-781 *)
  Definition dof : R :=
    (IZR (Z.of_nat (length (angles_rad S))) - 2
     - (match tk_boundary S with None => 1 | _ => 0 end)
     - (match eff_boundary S with None => 1 | _ => 0 end))%R.

  Definition theo_demodulation : mat34 := pinv S (theo_modulation (phases S)).

  (** demodulation.py 839-853 *)
  Definition prediction (k : Z) : param3 := (p_t tk_b, p_t eff_b, f4 (phases S) k).
  Definition bounds (k : Z) : param3 * param3 :=
    ((p_e tk_b, p_e eff_b, f4 (phases S) k - 15 * (PI / 180)),
     (p_phi tk_b, p_phi eff_b, f4 (phases S) k + 15 * (PI / 180)))%R.

  (** demodulation.py 920-929; a zero number of degrees of freedom gives inf/nan in numpy,
      here the total division of [R]. *)
  Definition chisquare (p : param3) (samples sigma : list R) : R :=
    (fold_right Rplus 0
       (map (fun q : R * R * R =>
               let '(x, v, s) := q in
               let res := Malus x (p_t p) (p_e p) (p_phi p) - v in
               res * res / s)
          (combine (combine (angles_rad S) samples) sigma)) / dof)%R.

  (** demodulation.py 897-935: the four fits; stops at the first dark pixel or failure.
      [cov : superpix_covtensor[:, :, k]]. *)
  Fixpoint fit_pixels (ks : list Z) (samples sigma : Z -> list R) (sc : scratch)
    : scratch * bool :=
    match ks with
    | [] => (sc, true)
    | k :: ks' =>
        if forallb (fun v => Reqb v 0) (samples k) then (sc, false)
        else
          match curve_fit S (angles_rad S) (samples k) (prediction k) (sigma k) (bounds k) with
          | None => (sc, false)
          | Some (p, cov) =>
              fit_pixels ks' samples sigma
                (mkscratch (upd4 (s_params sc) k p) (upd4 (s_cov sc) k cov)
                   (upd4 (s_chisq sc) k (chisquare p (samples k) (sigma k))))
          end
    end.

  (** Input of a chunk: one data and one error image for each orientation, occulter flags. *)
  Record chunk : Type := mkchunk {
    c_h : Z; c_w : Z;
    c_data : list (Z -> Z -> R);
    c_err : list (Z -> Z -> R);
    c_occ : arr R
  }.

  (** Samples of pixel k of the superpixel at (y0, x0); zero errors become 1e-5 (895). *)
  Definition samples_at (c : chunk) (y0 x0 k : Z) : list R :=
    map (fun d => d (y0 + k / 2) (x0 + k mod 2)) (c_data c).
  Definition sigma_at (c : chunk) (y0 x0 k : Z) : list R :=
    map (fun d => let s := d (y0 + k / 2) (x0 + k mod 2) in
                  if negb (Reqb s 0) then s else (1 / 100000)%R) (c_err c).

  (** demodulation.py 879-1057: one superpixel *)
  Definition step (c : chunk) (y0 x0 : Z) (st : maps * scratch) : result (maps * scratch) :=
    let '(o, sc) := st in
    let Y := Z.quot y0 2 in
    let X := Z.quot x0 2 in
    if negb (any22 (c_occ c) y0 x0) then
      if negb ((y0 + 2 <=? c_h c) && (x0 + 2 <=? c_w c)) then Raise ValueError (* reshape *)
      else
        let '(sc, fit_success) :=
          fit_pixels (zrange 4) (samples_at c y0 x0) (sigma_at c y0 x0) sc in
        if negb fit_success then
          let* m := set (o_m o) Y X theo_demodulation in
          Ok (mkmaps m (o_tk o) (o_eff o) (o_phase o) (o_found o) (o_cov o) (o_chisq o), sc)
        else
          let demodulation_matrix := pinv S (modulation (s_params sc)) in
          let '(demodulation_matrix, fit_success) :=
            if big_numbers demodulation_matrix then (theo_demodulation, false)
            else (demodulation_matrix, true) in
          let* m := set (o_m o) Y X demodulation_matrix in
          let* found := set (o_found o) Y X (if fit_success then 1 else 0)%R in
          let* cov := put22 (o_cov o) y0 x0 (s_cov sc) in
          let* chisq := put22 (o_chisq o) y0 x0 (s_chisq sc) in
          let* tk := put22 (o_tk o) y0 x0 (map4 p_t (s_params sc)) in
          let* eff := put22 (o_eff o) y0 x0 (map4 p_e (s_params sc)) in
          let* phase := put22 (o_phase o) y0 x0 (map4 p_phi (s_params sc)) in
          Ok (mkmaps m tk eff phase found cov chisq, sc)
    else
      let* m := set (o_m o) Y X theo_demodulation in
      let* phase := put22 (o_phase o) y0 x0 (phases S) in
      let* tk := put22 (o_tk o) y0 x0 (all4 (p_t tk_b)) in
      let* eff := put22 (o_eff o) y0 x0 (all4 (p_t eff_b)) in
      Ok (mkmaps m tk eff phase (o_found o) (o_cov o) (o_chisq o), sc).

  (** demodulation.py 812-838 *)
  Definition initial_maps (h w : Z) : maps :=
    mkmaps (full (Z.quot h 2) (Z.quot w 2) zero34)
      (full h w (p_t tk_b)) (full h w (p_t eff_b))
      (mkarr h w (fun y x => f4 (phases S) (2 * (y mod 2) + x mod 2)))
      (full (Z.quot h 2) (Z.quot w 2) 0%R)
      (full h w (fun _ _ => 0%R)) (full h w 0%R).
  Definition initial_scratch : scratch :=
    mkscratch (all4 (0, 0, 0)%R) (all4 (fun _ _ => 0%R)) (all4 0%R).

  (** demodulation.py 761-1059 with DEBUG = False *)
  Definition compute_chunk (c : chunk) : result maps :=
    let* (o, _) :=
      for_range 0 (c_h c) 2 (fun super_y =>
        for_range 0 (c_w c) 2 (fun super_x => step c super_y super_x))
        (initial_maps (c_h c) (c_w c), initial_scratch) in
    Ok o.

  (** ** The grid of processes *)

  (** [a[i*cy:(i+1)*cy, j*cx:(j+1)*cx]] *)
  Definition window {A} (f : Z -> Z -> A) (y0 x0 : Z) : Z -> Z -> A := fun y x => f (y0 + y) (x0 + x).

  (** demodulation.py 524-546 *)
  Definition chunk_at (whole : chunk) (cy cx i j : Z) : chunk :=
    mkchunk cy cx
      (map (fun d => window d (i * cy) (j * cx)) (c_data whole))
      (map (fun d => window d (i * cy) (j * cx)) (c_err whole))
      (mkarr cy cx (window (cell (c_occ whole)) (i * cy) (j * cx))).

  (** mp.Pool.starmap (609-613): the workers finish in the order [order]; results are kept by
      task number.  A task that raised makes starmap raise.  Task [i + chunks_n_y * j] is the
      chunk in row i and column j of the grid (526). *)
  Definition run_pool (task : Z -> result maps) (order : list Z) : Z -> option (result maps) :=
    fold_left (fun done n => updf done n (Some (task n))) order (fun _ => None).

  Definition collect (done : Z -> option (result maps)) (n : Z) : result maps :=
    match done n with
    | Some r => r
    | None => Raise RuntimeError
    end.

  (** Block (i, j) of a merged array (654-709) *)
  Definition paste {A} (a : arr A) (y0 x0 h w : Z) (src : arr A) : arr A :=
    mkarr (rows a) (cols a)
      (fun y x => if (y0 <=? y) && (y <? y0 + h) && (x0 <=? x) && (x <? x0 + w)
                  then cell src (y - y0) (x - x0) else cell a y x).

  (** One of the merge loops of 654-709, for the array selected by [field]. *)
  Definition merge_field {A} (done : Z -> option (result maps)) (field : maps -> arr A)
      (ny nx cy cx : Z) (a : arr A) : result (arr A) :=
    for_range 0 ny 1 (fun i =>
      for_range 0 nx 1 (fun j a =>
        let* r := collect done (i + ny * j) in
        Ok (paste a (i * cy) (j * cx) cy cx (field r)))) a.

  (** demodulation.py 496-709 for the normalised data and errors of the whole image.  np.rad2deg
      of the phases (711) is left out.  A worker's exception ends the program (sys.exit). *)
  Definition compute_grid (whole : chunk) (ny nx : Z) (order : list Z) : result maps :=
    let height := c_h whole in
    let width := c_w whole in
    if (ny =? 0) || (nx =? 0) then Raise ZeroDivisionError else
    let cy := Z.quot height ny in
    let cx := Z.quot width nx in
    if negb (cx mod 2 =? 0) || negb (cy mod 2 =? 0) then Raise ValueError else
    let done := run_pool (fun n => compute_chunk (chunk_at whole cy cx (n mod ny) (n / ny))) order in
    let hy := Z.quot cy 2 in
    let hx := Z.quot cx 2 in
    let* tk := merge_field done o_tk ny nx cy cx (full height width 0%R) in
    let* eff := merge_field done o_eff ny nx cy cx (full height width 0%R) in
    let* phase := merge_field done o_phase ny nx cy cx (full height width 0%R) in
    let* chisq := merge_field done o_chisq ny nx cy cx (full height width 0%R) in
    let* found := merge_field done o_found ny nx hy hx
                    (full (Z.quot height 2) (Z.quot width 2) 0%R) in
    let* m := merge_field done o_m ny nx hy hx
                (full (Z.quot height 2) (Z.quot width 2) zero34) in
    let* cov := merge_field done o_cov ny nx cy cx (full height width (fun _ _ => 0%R)) in
    Ok (mkmaps m tk eff phase found cov chisq).
End Chunk.
