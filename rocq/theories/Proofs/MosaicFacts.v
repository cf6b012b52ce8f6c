(** Demosaicing, IFOV correction and Stokes vectors against their specifications. *)
From Coq Require Import ZifyBool Reals Lra.
From Verif Require Import Base.Base Base.BaseFacts Base.Num Model.Demosaic Model.Ifov Model.Stokes
  Model.Rebin Spec.MosaicSpec Spec.SumSpec Proofs.DemosaicFacts Proofs.DemosaicLoops
  Proofs.RebinFacts Proofs.RebinAlg Proofs.SumFacts.
Ltac Zify.zify_post_hook ::= Z.div_mod_to_equations.

Lemma mosaic_wf {A} (d : arr A) : mosaic d -> wf d /\ rows d mod 2 = 0 /\ cols d mod 2 = 0.
Proof. intros (?&?&?&?). repeat split; assumption. Qed.

Section Dem.
  Context {A : Type} `{Num A}.

  Lemma demosaic_mean_spec (d : arr A) :
    mosaic d ->
    exists q, demosaic d "mean" = Ok q /\
      forall k, 0 <= k < 4 ->
        rows (qnth q k) = rows d /\ cols (qnth q k) = cols d /\
        forall y x, 0 <= y < rows d -> 0 <= x < cols d ->
          cell (qnth q k) y x = sample d k (y / 2) (x / 2) *! nquart.
  Proof.
    intros Hm. destruct (mosaic_wf d Hm) as (Hw & Er & Ec).
    destruct (demosaicmean_spec d Hw Er Ec) as (a & b & c & e & E & Hs).
    exists (mkquad a b c e). split.
    - unfold demosaic. cbn [String.eqb Ascii.eqb Bool.eqb]. rewrite E. reflexivity.
    - intros k Hk.
      assert (Hn : nth_error [a; b; c; e] (Z.to_nat k) = Some (qnth (mkquad a b c e) k)).
      { assert (k = 0 \/ k = 1 \/ k = 2 \/ k = 3) as D by lia.
        destruct D as [D | [D | [D | D]]]; subst k; reflexivity. }
      destruct (Hs k _ Hn Hk) as (R & C & Hcell). repeat split; auto.
  Qed.

  Lemma stacked_cell (d : arr A) y x :
    mosaic d -> 0 <= y < rows d + 2 -> 0 <= x < cols d + 2 -> 2 <= rows d -> 2 <= cols d ->
    cell (hstack (vstack d (last2rows d)) (last2cols (vstack d (last2rows d)))) y x =
    cell d (if y <? rows d then y else y - 2) (if x <? cols d then x else x - 2).
  Proof.
    intros (Hr & Hc & Er & Ec) Hy Hx Hr2 Hc2.
    unfold hstack, vstack, last2rows, last2cols; cbn [cell rows cols].
    destruct (y <? rows d) eqn:Ey, (x <? cols d) eqn:Ex.
    - reflexivity.
    - f_equal; lia.
    - f_equal; lia.
    - f_equal; lia.
  Qed.

  Lemma demosaic_adjacent_spec (d : arr A) :
    mosaic d ->
    exists q, demosaic d "adjacent" = Ok q /\
      forall k, 0 <= k < 4 ->
        rows (qnth q k) = rows d /\ cols (qnth q k) = cols d /\
        forall y x, 0 <= y < rows d -> 0 <= x < cols d ->
          cell (qnth q k) y x = interpolated d k y x.
  Proof.
    intros Hm. pose proof Hm as (Hr & Hc & Er & Ec).
    unfold demosaic. cbn [String.eqb Ascii.eqb Bool.eqb].
    set (st := hstack (vstack d (last2rows d)) (last2cols (vstack d (last2rows d)))).
    assert (Rst : rows st = rows d + Z.min 2 (rows d)).
    { unfold st, hstack, vstack, last2rows; cbn [rows]. lia. }
    assert (Cst : cols st = cols d + Z.min 2 (cols d)).
    { unfold st, hstack, vstack, last2cols; cbn [cols]. lia. }
    set (p := Z.max 0 (rows st - 2) / 2). set (q := Z.max 0 (cols st - 2) / 2).
    destruct (demosaicadjacent_spec st p q) as (a & b & c & e & E & Hs);
        [unfold p; lia|unfold q; lia|unfold p; lia|unfold q; lia|].
    rewrite E. cbn [bind quad_of_list]. eexists; split; [reflexivity|].
    intros k Hk. destruct (Hs k Hk) as (R & C & Hcell).
    assert (Hq : qnth (quad_map drop_last2 (mkquad a b c e)) k = drop_last2 (qnth (mkquad a b c e) k)).
    { unfold quad_map, qnth; cbn [q0 q1 q2 q3]. destruct (k =? 0), (k =? 1), (k =? 2); reflexivity. }
    rewrite Hq. unfold drop_last2; cbn [rows cols cell]. rewrite R, C.
    split; [lia|]. split; [lia|]. intros y x Hy Hx.
      rewrite Hcell by (unfold p, q; lia).
      unfold adj_val, interpolated, sample, next.
      assert (Hk2 : 0 <= k / 2 <= 1) by lia. assert (Hkm : 0 <= k mod 2 <= 1) by lia.
      set (kj := k / 2) in *. set (ki := k mod 2) in *. clearbody kj ki.
      unfold st. rewrite !stacked_cell by (try exact Hm; lia).
      set (Y := y / 2) in *. set (X := x / 2) in *.
      assert (HY : 0 <= Y /\ 2 * Y < rows d) by (unfold Y; lia).
      assert (HX : 0 <= X /\ 2 * X < cols d) by (unfold X; lia).
      assert (EY1 : (if 2 * Y + kj <? rows d then 2 * Y + kj else 2 * Y + kj - 2) = 2 * Y + kj).
      { destruct (2 * Y + kj <? rows d) eqn:?; lia. }
      assert (EX1 : (if 2 * X + ki <? cols d then 2 * X + ki else 2 * X + ki - 2) = 2 * X + ki).
      { destruct (2 * X + ki <? cols d) eqn:?; lia. }
      assert (EY2 : (if 2 * Y + kj + 2 <? rows d then 2 * Y + kj + 2 else 2 * Y + kj + 2 - 2)
                    = 2 * Z.min (Y + 1) (rows d / 2 - 1) + kj).
      { destruct (2 * Y + kj + 2 <? rows d) eqn:?; lia. }
      assert (EX2 : (if 2 * X + ki + 2 <? cols d then 2 * X + ki + 2 else 2 * X + ki + 2 - 2)
                    = 2 * Z.min (X + 1) (cols d / 2 - 1) + ki).
      { destruct (2 * X + ki + 2 <? cols d) eqn:?; lia. }
      rewrite EY1, EX1, EY2, EX2. reflexivity.
  Qed.

  Lemma demosaic_bad_option (d : arr A) o :
    o <> "mean"%string -> o <> "adjacent"%string -> o <> "spline"%string ->
    demosaic d o = Raise ValueError.
  Proof.
    intros H1 H2 H3. unfold demosaic.
    apply String.eqb_neq in H1, H2, H3. rewrite H1, H2, H3. reflexivity.
  Qed.

  (** ** IFOV correction *)

  Lemma ifov_block (data s : arr A) Y X :
    rows s = rows data -> cols s = cols data ->
    2 <= 2 * Y -> 2 * Y + 1 < rows data -> 2 <= 2 * X -> 2 * X + 1 < cols data ->
    exists s',
      for_range 0 2 1 (fun i =>
          for_range 0 2 1 (fun j corrected_data =>
            let* a := get data (2 * Y + j - 2) (2 * X + i - 2) in
            let* b := get data (2 * Y + j - 2) (2 * X + i) in
            let* c := get data (2 * Y + j) (2 * X + i - 2) in
            let* e := get data (2 * Y + j) (2 * X + i) in
            set corrected_data (2 * Y + j) (2 * X + i)
                (nquart *! (((a +! b) +! c) +! e)))) s = Ok s' /\
      blkupd s s' Y X (fun y x =>
        nquart *! (((cell data (y - 2) (x - 2) +! cell data (y - 2) x)
                      +! cell data y (x - 2)) +! cell data y x)).
  Proof.
    intros Rs Cs HY HY' HX HX'.
    rewrite for_range_2. rewrite !for_range_2.
    repeat (rewrite get_in by lia; cbn [bind]).
    rewrite set_in by lia. cbn [bind].
    repeat (rewrite set_in by (cbn [rows cols]; lia); cbn [bind rows cols cell]).
    rewrite for_range_2. repeat (rewrite get_in by lia; cbn [bind]).
    repeat (rewrite set_in by (cbn [rows cols]; lia); cbn [bind rows cols cell]).
    eexists; split; [reflexivity|]. split; [reflexivity|]. split; [reflexivity|].
    intros y x. cbn [cell]. unfold upd.
    destruct ((y / 2 =? Y) && (x / 2 =? X)) eqn:Eb.
    - assert (Dy : y = 2 * Y + 0 \/ y = 2 * Y + 1) by lia.
      assert (Dx : x = 2 * X + 0 \/ x = 2 * X + 1) by lia. clear Eb.
      destruct Dy as [-> | ->], Dx as [-> | ->];
        repeat match goal with
            |- context [(?a =? ?b) && (?c =? ?e)] =>
              first [ replace ((a =? b) && (c =? e)) with true by lia
                    | replace ((a =? b) && (c =? e)) with false by lia ]
          end; reflexivity.
    - repeat match goal with
            |- context [(?a =? ?b) && (?c =? ?e)] =>
              replace ((a =? b) && (c =? e)) with false by lia
          end; reflexivity.
  Qed.

  (** Loops starting at 2 instead of 0: re-index by one superpixel. *)
  Lemma for_range_shift2 {S} hi (body : Z -> S -> result S) s :
    for_range 2 hi 2 body s = for_range 0 (hi - 2) 2 (fun y => body (y + 2)) s.
  Proof.
    unfold for_range. replace (range_len 2 hi 2) with (range_len 0 (hi - 2) 2)
      by (unfold range_len; f_equal; f_equal; lia).
    set (n := Z.to_nat _). clearbody n.
    change 2 with (0 + 2) at 1. generalize 0 as i.
    revert s; induction n as [|n IH]; intros s i; cbn [iter_range]; [reflexivity|].
    destruct (body (i + 2) s); cbn [bind]; auto.
  Qed.

  Lemma ifov_spec (data : arr A) :
    mosaic data ->
    exists r, ifov_jitcorrect data (rows data) (cols data) = Ok r /\
      rows r = rows data /\ cols r = cols data /\
      forall y x, 0 <= y < rows data -> 0 <= x < cols data ->
        cell r y x =
          if (y <? 2) || (x <? 2) then n0
          else nquart *! (((cell data (y - 2) (x - 2) +! cell data (y - 2) x)
                             +! cell data y (x - 2)) +! cell data y x).
  Proof.
    intros (Hr & Hc & Er & Ec). unfold ifov_jitcorrect. rewrite zeros_ok by lia. cbn [bind].
    set (V := fun y x : Z => nquart *! (((cell data (y - 2) (x - 2) +! cell data (y - 2) x)
                             +! cell data y (x - 2)) +! cell data y x)).
    rewrite for_range_shift2.
    destruct (Z.eq_dec (rows data) 0) as [Zr|Nr].
    { rewrite for_range_empty by lia. eexists; split; [reflexivity|].
      cbn [full rows cols]. repeat split; intros; lia. }
    set (p := rows data / 2 - 1). assert (Hp : rows data - 2 = 2 * p) by (unfold p; lia).
    rewrite Hp.
    destruct (for_range_inv (fun k b => rows b = rows data /\ cols b = cols data /\
       forall y x, cell b y x =
        if (2 <=? y) && (y <? 2 * k + 2) && (2 <=? x) && (x <? cols data) then V y x else n0)
       0 (2 * p) 2
       (fun y => for_range 2 (cols data) 2 (fun super_x =>
          for_range 0 2 1 (fun i =>
            for_range 0 2 1 (fun j corrected_data =>
            let* a := get data (y + 2 + j - 2) (super_x + i - 2) in
            let* b := get data (y + 2 + j - 2) (super_x + i) in
            let* c := get data (y + 2 + j) (super_x + i - 2) in
            let* e := get data (y + 2 + j) (super_x + i) in
            set corrected_data (y + 2 + j) (super_x + i)
                (nquart *! (((a +! b) +! c) +! e))))))
       (full (rows data) (cols data) n0)) as (b & E & R & C & Hcell).
    - lia.
    - cbn [full rows cols cell]. repeat split; try reflexivity. intros y x.
      replace ((2 <=? y) && (y <? 2 * 0 + 2) && (2 <=? x) && (x <? cols data)) with false by lia.
      reflexivity.
    - intros k s Hk Hlt (R & C & Hcell). rewrite for_range_shift2.
      destruct (Z.eq_dec (cols data) 0) as [Zc|Nc].
      { rewrite for_range_empty by lia. exists s; split; [reflexivity|].
        split; [exact R|]. split; [exact C|]. intros y x. rewrite Hcell.
        replace ((2 <=? y) && (y <? 2 * k + 2) && (2 <=? x) && (x <? cols data)) with false by lia.
        replace ((2 <=? y) && (y <? 2 * (k + 1) + 2) && (2 <=? x) && (x <? cols data))
          with false by lia. reflexivity. }
      set (q := cols data / 2 - 1). assert (Hq : cols data - 2 = 2 * q) by (unfold q; lia).
      rewrite Hq.
      destruct (for_range_inv (fun l b => rows b = rows data /\ cols b = cols data /\
         forall y x, cell b y x =
          if (y / 2 =? k + 1) && (2 <=? x) && (x <? 2 * l + 2) then V y x else cell s y x)
         0 (2 * q) 2
         (fun x => for_range 0 2 1 (fun i =>
            for_range 0 2 1 (fun j corrected_data =>
            let* a := get data (0 + k * 2 + 2 + j - 2) (x + 2 + i - 2) in
            let* b := get data (0 + k * 2 + 2 + j - 2) (x + 2 + i) in
            let* c := get data (0 + k * 2 + 2 + j) (x + 2 + i - 2) in
            let* e := get data (0 + k * 2 + 2 + j) (x + 2 + i) in
            set corrected_data (0 + k * 2 + 2 + j) (x + 2 + i)
                (nquart *! (((a +! b) +! c) +! e))))) s) as (b & Eb & Rb & Cb & Hb).
      + lia.
      + repeat split; try assumption. intros y x.
        replace ((y / 2 =? k + 1) && (2 <=? x) && (x <? 2 * 0 + 2)) with false by lia. reflexivity.
      + intros l s1 Hl Hlt1 (R1 & C1 & Hcell1).
        destruct (ifov_block data s1 (k + 1) (l + 1)) as (s2 & E2 & R2 & C2 & Hcell2); try lia.
        exists s2. split.
        { replace (2 * (k + 1)) with (0 + k * 2 + 2) in E2 by lia.
          replace (2 * (l + 1)) with (0 + l * 2 + 2) in E2 by lia. exact E2. }
        split; [lia|]. split; [lia|]. intros y x. rewrite Hcell2, Hcell1.
        destruct (y / 2 =? k + 1); cbn [andb]; [|reflexivity].
        destruct (x / 2 =? l + 1) eqn:E1, ((2 <=? x) && (x <? 2 * l + 2)) eqn:E3,
          ((2 <=? x) && (x <? 2 * (l + 1) + 2)) eqn:E4; try reflexivity; lia.
      + exists b; split; [exact Eb|]. split; [exact Rb|]. split; [exact Cb|].
        intros y x. rewrite Hb, Hcell.
        assert (El : range_len 0 (2 * q) 2 = q) by (unfold range_len; unfold q; lia).
        rewrite El.
        destruct ((y / 2 =? k + 1) && (2 <=? x) && (x <? 2 * q + 2)) eqn:E1,
          ((2 <=? y) && (y <? 2 * k + 2) && (2 <=? x) && (x <? cols data)) eqn:E2,
          ((2 <=? y) && (y <? 2 * (k + 1) + 2) && (2 <=? x) && (x <? cols data)) eqn:E3;
          try reflexivity; lia.
    - exists b; split; [exact E|]. split; [exact R|]. split; [exact C|].
      intros y x Hy Hx. rewrite Hcell.
      assert (El : range_len 0 (2 * p) 2 = p) by (unfold range_len; unfold p; lia).
      rewrite El.
      destruct ((2 <=? y) && (y <? 2 * p + 2) && (2 <=? x) && (x <? cols data)) eqn:E1,
        ((y <? 2) || (x <? 2)) eqn:E2; try reflexivity; lia.
  Qed.
End Dem.
