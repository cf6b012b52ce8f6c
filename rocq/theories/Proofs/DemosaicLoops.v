(** The demosaicing loops compute the pointwise formulas. *)
From Coq Require Import ZifyBool.
From Verif Require Import Base.Base Base.BaseFacts Base.Num Model.Demosaic Proofs.DemosaicFacts.
Ltac Zify.zify_post_hook ::= Z.div_mod_to_equations.

Lemma for_range_2 {S} (body : Z -> S -> result S) s :
  for_range 0 2 1 body s = (let* s := body 0 s in let* s := body 1 s in Ok s).
Proof. reflexivity. Qed.

Section Blocks.
  Context {A : Type}.

  (** [s'] is [s] with superpixel (Y, X) replaced by [V]. *)
  Definition blkupd (s s' : arr A) (Y X : Z) (V : Z -> Z -> A) : Prop :=
    rows s' = rows s /\ cols s' = cols s /\
    forall y x, cell s' y x = if (y / 2 =? Y) && (x / 2 =? X) then V y x else cell s y x.

  Lemma for_blk_row (a : arr A) Y hx q V (body : Z -> arr A -> result (arr A)) :
    range_len 0 hx 2 = q ->
    (forall X s, 0 <= X < q -> rows s = rows a -> cols s = cols a ->
       exists s', body (2 * X) s = Ok s' /\ blkupd s s' Y X V) ->
    exists b, for_range 0 hx 2 body a = Ok b /\ rows b = rows a /\ cols b = cols a /\
      forall y x, cell b y x =
        if (y / 2 =? Y) && (0 <=? x) && (x <? 2 * q) then V y x else cell a y x.
  Proof.
    intros Hq Hbody.
    destruct (for_range_inv (fun k b => rows b = rows a /\ cols b = cols a /\
       forall y x, cell b y x =
        if (y / 2 =? Y) && (0 <=? x) && (x <? 2 * k) then V y x else cell a y x)
       0 hx 2 body a) as (b & E & R & C & Hcell).
    - lia.
    - repeat split; try reflexivity. intros y x.
      replace ((y / 2 =? Y) && (0 <=? x) && (x <? 2 * 0)) with false by lia. reflexivity.
    - intros k s Hk Hlt (R & C & Hcell).
      assert (Hkq : k < q) by (rewrite <- Hq; apply range_len_complete; lia).
      destruct (Hbody k s ltac:(lia) R C) as (s' & E & R' & C' & Hcell').
      exists s'; split; [replace (0 + k * 2) with (2 * k) by lia; exact E|].
      split; [lia|]. split; [lia|]. intros y x. rewrite Hcell', Hcell.
      destruct (y / 2 =? Y); cbn [andb]; [|reflexivity].
      destruct (x / 2 =? k) eqn:E1, ((0 <=? x) && (x <? 2 * k)) eqn:E2,
        ((0 <=? x) && (x <? 2 * (k + 1))) eqn:E3; try reflexivity; lia.
    - exists b. split; [exact E|]. split; [exact R|]. split; [exact C|].
      rewrite Hq in Hcell. exact Hcell.
  Qed.

  Lemma for_blk_rect (a : arr A) hy hx p q V (body : Z -> Z -> arr A -> result (arr A)) :
    range_len 0 hy 2 = p -> range_len 0 hx 2 = q ->
    (forall Y X s, 0 <= Y < p -> 0 <= X < q -> rows s = rows a -> cols s = cols a ->
       exists s', body (2 * Y) (2 * X) s = Ok s' /\ blkupd s s' Y X V) ->
    exists b, for_range 0 hy 2 (fun y => for_range 0 hx 2 (body y)) a = Ok b /\
      rows b = rows a /\ cols b = cols a /\
      forall y x, cell b y x =
        if (0 <=? y) && (y <? 2 * p) && (0 <=? x) && (x <? 2 * q) then V y x else cell a y x.
  Proof.
    intros Hp Hq Hbody.
    destruct (for_range_inv (fun k b => rows b = rows a /\ cols b = cols a /\
       forall y x, cell b y x =
        if (0 <=? y) && (y <? 2 * k) && (0 <=? x) && (x <? 2 * q) then V y x else cell a y x)
       0 hy 2 (fun y => for_range 0 hx 2 (body y)) a) as (b & E & R & C & Hcell).
    - lia.
    - repeat split; try reflexivity. intros y x.
      replace ((0 <=? y) && (y <? 2 * 0) && (0 <=? x) && (x <? 2 * q)) with false by lia.
      reflexivity.
    - intros k s Hk Hlt (R & C & Hcell).
      assert (Hkp : k < p) by (rewrite <- Hp; apply range_len_complete; lia).
      destruct (for_blk_row s k hx q V (body (2 * k)) Hq) as (s' & E & R' & C' & Hcell').
      { intros X s1 HX R1 C1. apply Hbody; lia. }
      exists s'; split; [replace (0 + k * 2) with (2 * k) by lia; exact E|].
      split; [lia|]. split; [lia|]. intros y x. rewrite Hcell', Hcell.
      rewrite <- !andb_assoc. destruct ((0 <=? x) && (x <? 2 * q)); rewrite ?andb_true_r, ?andb_false_r;
        [|reflexivity].
      destruct (y / 2 =? k) eqn:E1, ((0 <=? y) && (y <? 2 * k)) eqn:E2,
        ((0 <=? y) && (y <? 2 * (k + 1))) eqn:E3; try reflexivity; lia.
    - exists b. split; [exact E|]. split; [exact R|]. split; [exact C|].
      rewrite Hp in Hcell. exact Hcell.
  Qed.
End Blocks.

Section Demosaic.
  Context {A : Type} `{Num A}.

  (** Value of mean demosaicing for family (j, i) at pixel (y, x). *)
  Definition mean_val (d : arr A) (j i y x : Z) : A :=
    cell d (2 * (y / 2) + j) (2 * (x / 2) + i) *! nquart.

  Lemma mean_family (d temp : arr A) p q j i :
    0 <= p -> 0 <= q -> rows d = 2 * p -> cols d = 2 * q -> 0 <= j < 2 -> 0 <= i < 2 ->
    rows temp = rows d -> cols temp = cols d ->
    exists t,
      for_range 0 (rows d) 2 (fun y_super temp =>
        for_range 0 (cols d) 2 (fun x_super temp =>
          let* v := get d (y_super + j) (x_super + i) in
          Ok (set_block temp y_super (y_super + 2) x_super (x_super + 2) (v *! nquart)))
          temp) temp = Ok t /\
      rows t = rows d /\ cols t = cols d /\
      forall y x, 0 <= y < rows d -> 0 <= x < cols d -> cell t y x = mean_val d j i y x.
  Proof.
    intros Hp Hq Hr Hc Hj Hi Rt Ct.
    destruct (for_blk_rect temp (rows d) (cols d) p q (mean_val d j i)
      (fun y_super x_super temp =>
          let* v := get d (y_super + j) (x_super + i) in
          Ok (set_block temp y_super (y_super + 2) x_super (x_super + 2) (v *! nquart)))) as (t & E & R & C & Hcell).
    - unfold range_len; lia.
    - unfold range_len; lia.
    - intros Y X s HY HX Rs Cs. rewrite get_in by lia. cbn [bind].
      eexists; split; [reflexivity|]. split; [reflexivity|]. split; [reflexivity|].
      intros y x. cbn [set_block cell].
      replace ((2 * Y <=? y) && (y <? 2 * Y + 2) && (2 * X <=? x) && (x <? 2 * X + 2))
        with ((y / 2 =? Y) && (x / 2 =? X)) by lia.
      destruct ((y / 2 =? Y) && (x / 2 =? X)) eqn:Eb; [|reflexivity].
      unfold mean_val. replace (y / 2) with Y by lia. replace (x / 2) with X by lia. reflexivity.
    - exists t. split; [exact E|]. split; [lia|]. split; [lia|].
      intros y x Hy Hx. rewrite Hcell.
      replace ((0 <=? y) && (y <? 2 * p) && (0 <=? x) && (x <? 2 * q)) with true by lia.
      reflexivity.
  Qed.

  Lemma demosaicmean_spec (d : arr A) :
    wf d -> rows d mod 2 = 0 -> cols d mod 2 = 0 ->
    exists a b c e, demosaicmean d = Ok [a; b; c; e] /\
      forall k t, nth_error [a; b; c; e] (Z.to_nat k) = Some t -> 0 <= k < 4 ->
        rows t = rows d /\ cols t = cols d /\
        forall y x, 0 <= y < rows d -> 0 <= x < cols d ->
          cell t y x = mean_val d (k / 2) (k mod 2) y x.
  Proof.
    intros [Hr Hc] Er Ec.
    set (p := rows d / 2). set (q := cols d / 2).
    assert (Hp : rows d = 2 * p) by (unfold p; lia).
    assert (Hq : cols d = 2 * q) by (unfold q; lia).
    destruct (mean_family d d p q 0 0) as (a & Ea & Ra & Ca & Ha); try lia.
    destruct (mean_family d a p q 0 1) as (b & Eb & Rb & Cb & Hb); try lia.
    destruct (mean_family d b p q 1 0) as (c & Ec' & Rc & Cc & Hc'); try lia.
    destruct (mean_family d c p q 1 1) as (e & Ee & Re & Ce & He); try lia.
    exists a, b, c, e. split.
    - unfold demosaicmean. rewrite for_range_2. rewrite !for_range_2.
      rewrite Ea. cbn [bind]. rewrite Eb. cbn [bind].
      rewrite for_range_2. rewrite Ec'. cbn [bind]. rewrite Ee. cbn [bind].
      reflexivity.
    - intros k t Hn Hk.
      assert (k = 0 \/ k = 1 \/ k = 2 \/ k = 3) as D by lia.
      destruct D as [D | [D | [D | D]]]; subst k; cbn in Hn; injection Hn as <-; auto.
  Qed.

  (** Value of adjacent demosaicing for family (j, i) at pixel (y, x). *)
  Definition adj_val (d : arr A) (j i y x : Z) : A :=
    let Y := 2 * (y / 2) + j in
    let X := 2 * (x / 2) + i in
    if y mod 2 =? 0 then
      if x mod 2 =? 0 then cell d Y X
      else nhalf *! (cell d Y X +! cell d Y (X + 2))
    else
      if x mod 2 =? 0 then nhalf *! (cell d Y X +! cell d (Y + 2) X)
      else (((cell d Y X +! cell d (Y + 2) X) +! cell d Y (X + 2)) +! cell d (Y + 2) (X + 2))
             *! nquart.

  Lemma adj_family (d temp : arr A) p q j i :
    0 <= p -> 0 <= q -> Z.max 0 (rows d - 2) = 2 * p -> Z.max 0 (cols d - 2) = 2 * q -> 0 <= j < 2 -> 0 <= i < 2 ->
    rows temp = rows d -> cols temp = cols d ->
    exists t,
      for_range 0 (rows d - 2) 2 (fun y temp =>
        for_range 0 (cols d - 2) 2 (fun x temp =>
          let* a := get d (y + j) (x + i) in
          let* temp := set temp y x a in
          let* a := get d (y + j) (x + i) in
          let* b := get d (y + j + 2) (x + i) in
          let* temp := set temp (y + 1) x (nhalf *! (a +! b)) in
          let* a := get d (y + j) (x + i) in
          let* b := get d (y + j) (x + i + 2) in
          let* temp := set temp y (x + 1) (nhalf *! (a +! b)) in
          let* a := get d (y + j) (x + i) in
          let* b := get d (y + j + 2) (x + i) in
          let* c := get d (y + j) (x + i + 2) in
          let* e := get d (y + j + 2) (x + i + 2) in
          set temp (y + 1) (x + 1) ((((a +! b) +! c) +! e) *! nquart))
          temp) temp = Ok t /\
      rows t = rows d /\ cols t = cols d /\
      forall y x, 0 <= y < 2 * p -> 0 <= x < 2 * q -> cell t y x = adj_val d j i y x.
  Proof.
    intros Hp Hq Hr Hc Hj Hi Rt Ct.
    destruct (for_blk_rect temp (rows d - 2) (cols d - 2) p q (adj_val d j i)
      (fun y x temp =>
          let* a := get d (y + j) (x + i) in
          let* temp := set temp y x a in
          let* a := get d (y + j) (x + i) in
          let* b := get d (y + j + 2) (x + i) in
          let* temp := set temp (y + 1) x (nhalf *! (a +! b)) in
          let* a := get d (y + j) (x + i) in
          let* b := get d (y + j) (x + i + 2) in
          let* temp := set temp y (x + 1) (nhalf *! (a +! b)) in
          let* a := get d (y + j) (x + i) in
          let* b := get d (y + j + 2) (x + i) in
          let* c := get d (y + j) (x + i + 2) in
          let* e := get d (y + j + 2) (x + i + 2) in
          set temp (y + 1) (x + 1) ((((a +! b) +! c) +! e) *! nquart))) as (t & E & R & C & Hcell).
    - unfold range_len; lia.
    - unfold range_len; lia.
    - intros Y X s HY HX Rs Cs.
      repeat (rewrite get_in by lia; cbn [bind]).
      repeat (rewrite set_in by (cbn [rows cols]; lia); cbn [bind rows cols cell];
              repeat (rewrite get_in by lia; cbn [bind])).
      eexists; split; [reflexivity|]. split; [reflexivity|]. split; [reflexivity|].
      intros y x. cbn [cell]. unfold upd, adj_val.
      destruct ((y / 2 =? Y) && (x / 2 =? X)) eqn:Eb.
      + assert (EY : y / 2 = Y) by lia. assert (EX : x / 2 = X) by lia.
        rewrite EY, EX.
        assert (Dy : y = 2 * Y /\ y mod 2 = 0 \/ y = 2 * Y + 1 /\ y mod 2 = 1) by lia.
        assert (Dx : x = 2 * X /\ x mod 2 = 0 \/ x = 2 * X + 1 /\ x mod 2 = 1) by lia.
        clear EY EX Eb.
        destruct Dy as [[-> ->] | [-> ->]], Dx as [[-> ->] | [-> ->]]; cbn [Z.eqb];
          repeat match goal with
            |- context [(?a =? ?b) && (?c =? ?e)] =>
              first [ replace ((a =? b) && (c =? e)) with true by lia
                    | replace ((a =? b) && (c =? e)) with false by lia ]
          end; reflexivity.
      + repeat match goal with
            |- context [(?a =? ?b) && (?c =? ?e)] =>
              replace ((a =? b) && (c =? e)) with false by lia
          end; reflexivity.
    - exists t. split; [exact E|]. split; [lia|]. split; [lia|].
      intros y x Hy Hx. rewrite Hcell.
      replace ((0 <=? y) && (y <? 2 * p) && (0 <=? x) && (x <? 2 * q)) with true by lia.
      reflexivity.
  Qed.

  Lemma demosaicadjacent_spec (d : arr A) p q :
    0 <= p -> 0 <= q -> Z.max 0 (rows d - 2) = 2 * p -> Z.max 0 (cols d - 2) = 2 * q ->
    exists a b c e, demosaicadjacent d = Ok [a; b; c; e] /\
      forall k, 0 <= k < 4 -> let t := qnth (mkquad a b c e) k in
        rows t = rows d /\ cols t = cols d /\
        forall y x, 0 <= y < 2 * p -> 0 <= x < 2 * q ->
          cell t y x = adj_val d (k / 2) (k mod 2) y x.
  Proof.
    intros Hp Hq Hr Hc.
    destruct (adj_family d d p q 0 0) as (a & Ea & Ra & Ca & Ha); try lia.
    destruct (adj_family d a p q 0 1) as (b & Eb & Rb & Cb & Hb); try lia.
    destruct (adj_family d b p q 1 0) as (c & Ec' & Rc & Cc & Hc'); try lia.
    destruct (adj_family d c p q 1 1) as (e & Ee & Re & Ce & He); try lia.
    exists a, b, c, e. split.
    - unfold demosaicadjacent. rewrite for_range_2. rewrite !for_range_2.
      rewrite Ea. cbn [bind]. rewrite Eb. cbn [bind].
      rewrite for_range_2. rewrite Ec'. cbn [bind]. rewrite Ee. cbn [bind].
      reflexivity.
    - intros k Hk.
      assert (k = 0 \/ k = 1 \/ k = 2 \/ k = 3) as D by lia.
      destruct D as [D | [D | [D | D]]]; subst k; cbn [qnth q0 q1 q2 q3 Z.eqb Pos.eqb]; auto.
  Qed.
End Demosaic.
