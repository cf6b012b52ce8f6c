From Coq Require Import Reals String.
From Verif Require Import Base.Base Model.Demodulate Model.DemodLoad Model.Show Model.ShowDemod Spec.FigureSpec.

Lemma show_demodulator_value m vmin vmax :
  show_demodulator m vmin vmax =
  Ok (map (fun ij => Some (entry_panel m vmin vmax (fst ij) (snd ij))) (list_prod (zrange 3) (zrange 4)) ++ [None], AxSingle 11).
Proof. reflexivity. Qed.

Lemma c115_panels m vmin vmax : exists fig ax, show_demodulator m vmin vmax = Ok (fig, ax) /\ length fig = 13%nat /\
  forall i j, (i < 3)%nat -> (j < 4)%nat -> exists p, panel_in 4 fig i j = Some p /\
    p_image p = mkarr (t_rows m) (t_cols m) (t_cell m (Z.of_nat i) (Z.of_nat j)) /\
    p_vmin p = Some vmin /\ p_vmax p = Some vmax.
Proof.
  eexists _, _. split; [apply show_demodulator_value|]. split; [reflexivity|]. intros i j Hi Hj.
  destruct i as [|[|[|i]]]; [..|lia]; (destruct j as [|[|[|[|j]]]]; [..|lia]);
    (eexists; split; [reflexivity|]; repeat split; reflexivity).
Qed.

Lemma c115_titles m vmin vmax fig ax : show_demodulator m vmin vmax = Ok (fig, ax) ->
  map (fun ij => option_map p_title (panel_in 4 fig (fst ij) (snd ij)))
    [(0, 0); (0, 1); (0, 2); (0, 3); (1, 0); (1, 1); (1, 2); (1, 3); (2, 0); (2, 1); (2, 2); (2, 3)]%nat
  = map Some ["M$_0$$_0$"; "M$_0$$_1$"; "M$_0$$_2$"; "M$_0$$_3$"; "M$_1$$_0$"; "M$_1$$_1$"; "M$_1$$_2$"; "M$_1$$_3$";
              "M$_2$$_0$"; "M$_2$$_1$"; "M$_2$$_2$"; "M$_2$$_3$"]%string.
Proof. rewrite show_demodulator_value. intros E. injection E as <- <-. reflexivity. Qed.

Lemma c115_returned m vmin vmax fig ax : show_demodulator m vmin vmax = Ok (fig, ax) ->
  ax = AxSingle 11 /\ ~ axes_array 3 4 ax.
Proof.
  rewrite show_demodulator_value. intros E. injection E as <- <-. split; [reflexivity|]. intros (f & E & _). discriminate.
Qed.
