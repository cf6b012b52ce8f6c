(** What can be seen of an image, and which calls are made (vocabulary for C55-C59, C62). *)
From Coq Require Import Reals.
From Verif Require Import Base.Base Model.Demosaic Model.Stokes Model.ImageObj Spec.MosaicSpec Spec.StokesSpec.

(** The values behind an image's attributes. *)
Record view : Type := mkview {
  v_data : arr R; v_height : Z; v_width : Z; v_header : header; v_vector : stokes R;
  v_quad : option (quad R); v_dic : angle_dic;
  v_demosaiced : bool; v_demodulated : bool; v_dark : bool; v_flat : bool
}.

Definition look (h : heap) (im : image) : option view :=
  let quad_there := match i_demos im with None => Some None | Some p => option_map Some (nth_error (quads h) p) end in
  match nth_error (arrays h) (i_data im), nth_error (headers h) (i_header im),
        nth_error (vectors h) (i_stokes im), quad_there with
  | Some d, Some hd, Some s, Some q =>
      Some (mkview d (i_height im) (i_width im) hd s q (i_dic im)
              (i_demosaiced im) (i_demodulated im) (i_dark im) (i_flat im))
  | _, _, _, _ => None
  end.
Definition view_of (h : heap) (i : nat) : option view :=
  match nth_error (images h) i with Some im => look h im | None => None end.

(** States the program can be in: any calls, also failing ones, from the start.  Arrays given by
    the caller have non-negative sides. *)
Definition arrays_exist (hist : history) : Prop :=
  Forall (fun e => match snd e with Create d _ _ _ => wf d | _ => True end) hist.
Definition reached (hist : history) (h : heap) : Prop :=
  arrays_exist hist /\ h = run_history hist empty_heap.

(** The Stokes vector of ideal micropolarizers for the image's data and angles. *)
Definition shows_its_data (v : view) : Prop :=
  mosaic (v_data v) /\
  forall a, describes (v_dic v) a ->
    let s := sample (v_data v) in
    stokes_is (v_vector v) (rows (v_data v) / 2) (cols (v_data v) / 2)
      (fun Y X => (s 0%Z Y X + s 1%Z Y X + s 2%Z Y X + s 3%Z Y X) / 2)%R
      (fun Y X => s (p0 a) Y X - s (p90 a) Y X)%R
      (fun Y X => s (p45 a) Y X - s (pm45 a) Y X)%R.

(** NAXIS1 is the width, NAXIS2 the height. *)
Definition header_fits (v : view) : Prop :=
  naxis1 (v_header v) = cols (v_data v) /\ naxis2 (v_header v) = rows (v_data v).

(** Constructions, copies, dark/flat/IFOV corrections, binning, shifts, arithmetic, cleaning. *)
Definition plain_call (c : op) : Prop :=
  match c with
  | SetDefault _ | Create _ _ _ _ | CopyOf _ _ _ _ | SubtractDark _ _ | CorrectFlat _ _ | CorrectIfov _
  | Rebin _ _ | Shift _ _ _ _ | CleanHot _ _ | WithImage _ _ _ | WithNumber _ _ _ => True
  | _ => False
  end.

(** Methods of image [i] that return a new image. *)
Definition new_from (c : op) : option nat :=
  match c with
  | CopyOf i _ _ _ | Rebin i _ | Congrid i _ _ | Rotate i _ | Shift i _ _ _ | CleanHot i _
  | WithImage _ i _ | WithNumber _ i _ | Demodulate i _ _ => Some i
  | _ => None
  end.

(** Two images of one size. *)
Definition same_size (h : heap) (i j : nat) : Prop :=
  forall v w, view_of h i = Some v -> view_of h j = Some w -> same_shape (v_data v) (v_data w).

(** Calls that do not change the size of any image's data (a hot-pixel map of the image's size). *)
Definition size_kept (h : heap) (c : op) : Prop :=
  match c with
  | Rebin _ _ | Congrid _ _ _ => False
  | CleanHot i m => same_size h i m
  | _ => True
  end.
Fixpoint sizes_kept (hist : history) (h : heap) : Prop :=
  match hist with
  | [] => True
  | (W, c) :: rest => size_kept h c /\ sizes_kept rest (fst (exec W c h))
  end.

(** The default dictionary: the last one set, PolarCam's before that. *)
Fixpoint last_default (hist : history) (d : angle_dic) : angle_dic :=
  match hist with
  | [] => d
  | (_, SetDefault d') :: rest => last_default rest d'
  | _ :: rest => last_default rest d
  end.

(** Methods of image [i] that should give an image with a new Stokes vector. *)
Definition corrects (c : op) (i : nat) : Prop :=
  match c with
  | SubtractDark k _ | CorrectFlat k _ | CorrectIfov k | Rebin k _ | Shift k _ _ _ | CleanHot k _
  | WithImage _ k _ => k = i
  | _ => False
  end.

(** The image of family [k]. *)
Definition family_image {A} (d : arr A) (k : Z) : arr A := mkarr (rows d / 2) (cols d / 2) (sample d k).

(** The same image with another Stokes vector. *)
Definition with_vector (v : view) (s : stokes R) : view :=
  mkview (v_data v) (v_height v) (v_width v) (v_header v) s (v_quad v) (v_dic v)
    (v_demosaiced v) (v_demodulated v) (v_dark v) (v_flat v).

(** Concrete histories for examples: an outside that changes nothing, calls, an image of ones. *)
Definition still : outside :=
  mkoutside (fun _ _ => 0%R) (fun _ _ _ => 0%R) (fun _ a => Ok a) (fun a _ _ => Ok a) 100%nat.
Definition after_calls (calls : list op) : history := map (fun c => (still, c)) calls.
Definition ones (r c : Z) : arr R := mkarr r c (fun _ _ => 1%R).
