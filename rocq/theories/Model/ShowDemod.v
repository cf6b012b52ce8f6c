(** What [Demodulator.show] draws and returns: micropolarray/processing/demodulation.py 195-229.  Colours, the
    colour bar's scale and the sharing of axes are left out. *)
From Coq Require Import Reals String.
From Verif Require Import Base.Base Model.Demodulate Model.DemodLoad Model.Show.

(** A figure is the list of its axes, in the order in which they were added ([fig.get_axes]); an axes object is
    known by its place in it, and carries what was drawn on it. *)
Definition figure : Type := list (option (panel string)).

(** Values of the variable [ax]: the array that [plt.subplots] returns, or a single axes object *)
Inductive ax_value : Type :=
| AxArray (rows cols : Z) (at_ : Z -> Z -> Z)
| AxSingle (n : Z).

(** [plt.subplots(3, 4)]: twelve empty axes, row by row *)
Definition subplots (r c : Z) : figure * ax_value :=
  (repeat None (Z.to_nat (r * c)), AxArray r c (fun i j => c * i + j)%Z).

(** [ax[i, j]] *)
Definition ax_item (ax : ax_value) (i j : Z) : result Z :=
  match ax with
  | AxArray r c at_ => match norm_idx r i, norm_idx c j with Some i, Some j => Ok (at_ i j) | _, _ => Raise IndexError end
  | AxSingle _ => Raise TypeError
  end.

Definition draw (fig : figure) (n : Z) (p : panel string) : figure :=
  map (fun e => if (fst e =? n)%Z then Some p else snd e) (combine (zrange (Z.of_nat (length fig))) fig).

(** 218-221: the title is rf"M$_{i}$$_{j}$" *)
Definition entry_title (i j : Z) : string := ("M$_" ++ digit_char i ++ "$$_" ++ digit_char j ++ "$")%string.
Definition entry_panel (m : tensor R) (vmin vmax : R) (i j : Z) : panel string :=
  mkpanel (tslice m i j) (Some vmin) (Some vmax) (entry_title i j).

Fixpoint draw_all (m : tensor R) (vmin vmax : R) (ax : ax_value) (ij : list (Z * Z)) (fig : figure) : result figure :=
  match ij with
  | [] => Ok fig
  | (i, j) :: ij =>
      let* n := ax_item ax i j in
      draw_all m vmin vmax ax ij (draw fig n (entry_panel m vmin vmax i j))
  end.

(** 222-223: the loop variable is [ax] again *)
Definition label_loop (fig : figure) (ax : ax_value) : ax_value :=
  fold_left (fun _ n => AxSingle n) (zrange (Z.of_nat (length fig))) ax.

(** 195-229; 226 adds the axes of the colour bar *)
Definition show_demodulator (m : tensor R) (vmin vmax : R) : result (figure * ax_value) :=
  let '(fig, ax) := subplots 3 4 in
  let* fig := draw_all m vmin vmax ax (list_prod (zrange 3) (zrange 4)) fig in
  let ax := label_loop fig ax in
  let fig := fig ++ [None] in
  Ok (fig, ax).
(** Defaults of 195 *)
Definition show_demodulator_default (m : tensor R) := show_demodulator m (-1) 1.
