(** C115: plotting a demodulation tensor. *)
From Coq Require Import Reals String.
From Verif Require Import Base.Base Model.Demodulate Model.Show Model.ShowDemod Spec.FigureSpec Proofs.ShowDemodFacts.

(** Full statement: the matrix of entry (i, j) is drawn in row i and column j with the given limits, and the array
    of the twelve axes is returned.

    The panels are right, *)
Theorem C115_panels_partial : forall m vmin vmax, exists fig ax, show_demodulator m vmin vmax = Ok (fig, ax) /\
  length fig = 13%nat /\
  forall i j, (i < 3)%nat -> (j < 4)%nat -> exists p, panel_in 4 fig i j = Some p /\
    p_image p = mkarr (t_rows m) (t_cols m) (t_cell m (Z.of_nat i) (Z.of_nat j)) /\
    p_vmin p = Some vmin /\ p_vmax p = Some vmax.
Proof. exact c115_panels. Qed.
Print Assumptions C115_panels_partial.

(** and so are their titles; *)
Theorem C115_titles : forall m vmin vmax fig ax, show_demodulator m vmin vmax = Ok (fig, ax) ->
  map (fun ij => option_map p_title (panel_in 4 fig (fst ij) (snd ij)))
    [(0, 0); (0, 1); (0, 2); (0, 3); (1, 0); (1, 1); (1, 2); (1, 3); (2, 0); (2, 1); (2, 2); (2, 3)]%nat
  = map Some ["M$_0$$_0$"; "M$_0$$_1$"; "M$_0$$_2$"; "M$_0$$_3$"; "M$_1$$_0$"; "M$_1$$_1$"; "M$_1$$_2$"; "M$_1$$_3$";
              "M$_2$$_0$"; "M$_2$$_1$"; "M$_2$$_2$"; "M$_2$$_3$"]%string.
Proof. exact c115_titles. Qed.
Print Assumptions C115_titles.

(** but only the axes of the last panel are returned, for every tensor: the name [ax] is used again for a loop. *)
Theorem C115_axes_refuted : forall m vmin vmax fig ax, show_demodulator m vmin vmax = Ok (fig, ax) ->
  ax = AxSingle 11 /\ ~ axes_array 3 4 ax.
Proof. exact c115_returned. Qed.
Print Assumptions C115_axes_refuted.

Example C115_case : exists fig ax, show_demodulator_default (mktensor 1 1 (fun i j _ _ => IZR (10 * i + j))) = Ok (fig, ax) /\
  axes_array 3 4 (snd (subplots 3 4)) /\
  match panel_in 4 fig 2 1 with Some p => cell (p_image p) 0 0 = 21%R /\ p_vmin p = Some (-1)%R | None => False end.
Proof.
  eexists _, _. split; [reflexivity|]. split.
  - eexists. split; [reflexivity|]. reflexivity.
  - split; reflexivity.
Qed.
