(** Applying a demodulation tensor to an image
    (micropolarray/micropol_image.py 284-379). *)
From Coq Require Import Reals.
From Verif Require Import Base.Base Base.Num Base.Bcast Model.Demosaic Model.Stokes.

(** A [3, 4, y, x] array. *)
Record tensor (A : Type) : Type := mktensor {
  t_rows : Z; t_cols : Z; t_cell : Z -> Z -> Z -> Z -> A
}.
Arguments mktensor {A} t_rows t_cols t_cell.
Arguments t_rows {A} t.
Arguments t_cols {A} t.
Arguments t_cell {A} t i j y x.

(** [m[i, j]] *)
Definition tslice {A} (m : tensor A) (i j : Z) : arr A := mkarr (t_rows m) (t_cols m) (t_cell m i j).

(** The attributes of a Demodulator object used by [demodulate]
    (processing/demodulation.py 36-41). *)
Record demodulator (A : Type) : Type := mkdemodulator {
  mij : tensor A; fit_found_flags : option (arr A)
}.
Arguments mkdemodulator {A} mij fit_found_flags.
Arguments mij {A} d.
Arguments fit_found_flags {A} d.

Section Demodulate.
  Context {A : Type} `{Num A}.

  (** micropol_image.py 362-368: the 3x4 times 4x1 products, one for each (y, x).
      matmul broadcasts the (y, x) axes; the four products of a row are added in order. *)
  Definition demod_product (m : tensor A) (q : quad A) : result (stokes A) :=
    match bdim (t_rows m) (rows (q0 q)), bdim (t_cols m) (cols (q0 q)) with
    | Some h, Some w =>
        let term i j y x := bcell (tslice m i j) y x *! bcell (qnth q j) y x in
        let component i :=
          mkarr h w (fun y x => ((term i 0 y x +! term i 1 y x) +! term i 2 y x) +! term i 3 y x) in
        Ok (mkstokes (component 0) (component 1) (component 2))
    | _, _ => Raise ValueError
    end.

  (** [np.where(cond, a, b)] on one of the three planes *)
  Definition where2 (cond : arr bool) (a b : arr A) : result (arr A) :=
    let* ab := bmap2 (fun u v => (u, v)) a b in
    bmap2 (fun (c : bool) uv => if c then fst uv else snd uv) cond ab.

  (** micropol_image.py 374-377 *)
  Definition select_stokes (flags : option (arr A)) (S theo_S : stokes A) : result (stokes A) :=
    match flags with
    | None => Ok S
    | Some f =>
        let found := amap (fun v => neqb v n1) f in
        let* i := where2 found (sI S) (sI theo_S) in
        let* q := where2 found (sQ S) (sQ theo_S) in
        let* u := where2 found (sU S) (sU theo_S) in
        Ok (mkstokes i q u)
    end.

  (** merge_polarizations(np.repeat(a[np.newaxis], 4, axis=0)) *)
  Definition merge_same (a : arr A) : arr A := merge_polarizations (mkquad a a a a).

  (** micropol_image.py 284-379 without demosaicing.  [data] and [old] are the image's data
      and Stokes vector. *)
  Definition demod_raw (d : demodulator A) (data : arr A) (old : stokes A) : result (stokes A) :=
    let* splitted_pols := split_polarizations data in
    let* prod := demod_product (mij d) splitted_pols in
    select_stokes (fit_found_flags d) prod old.

  (** micropol_image.py 284-379 with demosaicing, after [self.demosaic()]: [pols] are the
      demosaiced images and [theo] the Stokes vector that call has just computed. *)
  Definition demod_demosaiced (d : demodulator A) (pols : quad A) (theo : stokes A)
    : result (stokes A) :=
    let m :=
      mktensor (t_rows (mij d) * 2) (t_cols (mij d) * 2)
        (fun i j => cell (merge_same (tslice (mij d) i j))) in
    match fit_found_flags d with
    | None => Raise AttributeError
    | Some f =>
        let* prod := demod_product m pols in
        select_stokes (Some (merge_same f)) prod theo
    end.

  (** ... including that call (demosaic.py 118-160, micropol_image.py 806-821). *)
  Definition demod_with_demosaic (dic : angle_dic) (d : demodulator A) (data : arr A)
    : result (stokes A) :=
    let* pols := demosaic data "adjacent" in
    let* theo := theo_stokes dic pols in
    demod_demosaiced d pols theo.
End Demodulate.
