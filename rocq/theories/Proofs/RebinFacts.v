From Coq Require Import ZifyBool.
From Verif Require Import Base.Base Base.BaseFacts Base.Num Model.Rebin Spec.SumSpec.
Ltac Zify.zify_post_hook ::= Z.div_mod_to_equations.

(** ** Trimming *)

Lemma trim1_ok step m : 0 < step -> 0 < m -> m mod step = 0 ->
  forall (k : nat) fuel n, 0 <= n -> n mod step = 0 -> (n mod m) / step = Z.of_nat k ->
    (k <= fuel)%nat -> trim1 fuel n step m = Ok (m * (n / m)).
Proof.
  intros Hs Hm Hdiv. unfold trim1. replace (m =? 0) with false by lia.
  assert (Em : m = step * (m / step)) by (apply Z.div_exact in Hdiv; lia).
  set (q := m / step) in *. clearbody q.
  assert (Hq : 0 < q) by nia.
  induction k as [|k IH]; intros fuel n Hn Hmod Hk Hf.
  - assert (E : n mod m = 0).
    { pose proof (Z.mod_pos_bound n m Hm).
      assert ((n mod m) mod step = 0).
      { rewrite Em. rewrite Z.rem_mul_r by lia.
        rewrite Z.mul_comm, Z_mod_plus_full, Zmod_mod. exact Hmod. }
      rewrite (Z.div_mod (n mod m) step) by lia. rewrite Hk, H0. lia. }
    assert (En : m * (n / m) = n) by (rewrite (Z.div_mod n m) at 2 by lia; lia).
    destruct fuel; cbn [while_loop]; rewrite E, En; reflexivity.
  - destruct fuel as [|fuel]; [lia|]. cbn [while_loop].
    pose proof (Z.mod_pos_bound n m Hm) as Hb.
    assert (Hge : step <= n mod m).
    { assert (step * ((n mod m) / step) <= n mod m) by (apply Z.mul_div_le; lia). nia. }
    replace (negb (n mod m =? 0)) with true by lia.
    assert (Hdm : n = m * (n / m) + n mod m) by (apply Z.div_mod; lia).
    assert (Hquo : (n - step) / m = n / m).
    { symmetry. apply (Z.div_unique _ _ _ (n mod m - step)); lia. }
    assert (Hrem : (n - step) mod m = n mod m - step).
    { symmetry. apply (Z.mod_unique _ _ (n / m)); lia. }
    rewrite <- Hquo.
    apply IH; try lia.
    + assert (0 <= n / m) by (apply Z.div_pos; lia). nia.
    + rewrite Zminus_mod, Hmod, Z_mod_same_full. reflexivity.
    + rewrite Hrem. replace (n mod m - step) with (n mod m + (-1) * step) by lia.
      rewrite Z_div_plus_full by lia. lia.
Qed.

(** Enough fuel for any image of side [n]. *)
Definition trim_fuel (n : Z) : nat := Z.to_nat n.

Lemma trim1_fuel step m n fuel : 0 < step -> 0 < m -> m mod step = 0 ->
  0 <= n -> n mod step = 0 -> (Z.to_nat n <= fuel)%nat ->
  trim1 fuel n step m = Ok (m * (n / m)).
Proof.
  intros Hs Hm Hdiv Hn Hmod Hf.
  pose proof (Z.mod_pos_bound n m Hm) as Hb.
  assert (0 <= n mod m / step) by (apply Z.div_pos; lia).
  assert (n mod m / step <= n mod m).
  { apply Z.div_le_upper_bound; [lia|]. nia. }
  assert (n mod m <= n) by (apply Z.mod_le; lia).
  apply (trim1_ok step m Hs Hm Hdiv (Z.to_nat (n mod m / step))); lia.
Qed.

Lemma trim1_odd_diverges n b fuel :
  1 <= b -> n mod 2 = 1 -> trim1 fuel n 2 (2 * b) = NoFuel.
Proof.
  intros Hb Hn. unfold trim1. replace (2 * b =? 0) with false by lia.
  apply (while_diverges (fun n => n mod 2 = 1)); [exact Hn|].
  intros s Hs. split.
  - assert (s mod (2 * b) <> 0); [|lia]. intros E.
    apply Z.mod_divide in E; [|lia]. destruct E as [c E]. subst s.
    replace (c * (2 * b)) with (0 + (c * b) * 2) in Hs by lia.
    rewrite Z_mod_plus_full in Hs. discriminate.
  - lia.
Qed.

Lemma trim2_ok fuel h w b :
  1 <= b -> 0 <= h -> 0 <= w -> h mod 2 = 0 -> w mod 2 = 0 ->
  (Z.to_nat (Z.max h w) <= fuel)%nat ->
  trim_to_match_2xbinning fuel h w b = Ok (2 * b * (h / (2 * b)), 2 * b * (w / (2 * b))).
Proof.
  intros Hb Hh Hw Eh Ew Hf. unfold trim_to_match_2xbinning.
  assert (Hm : (2 * b) mod 2 = 0) by lia.
  rewrite (trim1_fuel 2 (2 * b) w) by lia. cbn [bind].
  rewrite (trim1_fuel 2 (2 * b) h) by lia. reflexivity.
Qed.

Lemma trim_std_ok fuel h w b :
  1 <= b -> 0 <= h -> 0 <= w -> (Z.to_nat (Z.max h w) <= fuel)%nat ->
  trim_to_match_binning fuel h w b = Ok (b * (h / b), b * (w / b)).
Proof.
  intros Hb Hh Hw Hf. unfold trim_to_match_binning.
  rewrite (trim1_fuel 1 b w) by (try rewrite Z.mod_1_r; lia). cbn [bind].
  rewrite (trim1_fuel 1 b h) by (try rewrite Z.mod_1_r; lia). reflexivity.
Qed.

Lemma trim2_odd fuel h w b :
  1 <= b -> 0 <= h -> 0 <= w -> (h mod 2 = 1 \/ w mod 2 = 1) ->
  (Z.to_nat (Z.max h w) <= fuel)%nat ->
  trim_to_match_2xbinning fuel h w b = NoFuel.
Proof.
  intros Hb Hh Hw Hodd Hf. unfold trim_to_match_2xbinning.
  destruct (Z.eq_dec (w mod 2) 1) as [Ew|Ew].
  - rewrite trim1_odd_diverges by assumption. reflexivity.
  - rewrite (trim1_fuel 2 (2 * b) w) by lia. cbn [bind].
    rewrite trim1_odd_diverges by lia. reflexivity.
Qed.

(** Even with little fuel an odd side never yields a result. *)
Lemma trim2_odd_any fuel h w b :
  1 <= b -> (h mod 2 = 1 \/ w mod 2 = 1) ->
  trim_to_match_2xbinning fuel h w b = NoFuel.
Proof.
  intros Hb Hodd. unfold trim_to_match_2xbinning.
  destruct (Z.eq_dec (w mod 2) 1) as [Ew|Ew].
  - rewrite trim1_odd_diverges by assumption. reflexivity.
  - assert (Hw : trim1 fuel w 2 (2 * b) = NoFuel \/ exists z, trim1 fuel w 2 (2 * b) = Ok z).
    { unfold trim1. replace (2 * b =? 0) with false by lia. clear.
      revert w; induction fuel as [|f IH]; intros w; cbn [while_loop];
        destruct (negb (w mod (2 * b) =? 0)); eauto. }
    destruct Hw as [-> | [z ->]]; cbn [bind]; [reflexivity|].
    rewrite trim1_odd_diverges by lia. reflexivity.
Qed.

Lemma quot_mul_l a b : 1 <= b -> Z.quot (b * a) b = a.
Proof. intros Hb. rewrite Z.mul_comm. apply Z.quot_mul. lia. Qed.

(** ** The accumulation loops *)

Section Sums.
  Context {A : Type} `{Num A}.

  Lemma add_at_accs (s data : arr A) Y X i j :
    0 <= Y < rows s -> 0 <= X < cols s -> 0 <= i < rows data -> 0 <= j < cols data ->
    exists s', add_at s Y X data i j = Ok s' /\ accs nadd s s' Y X [cell data i j].
  Proof.
    intros HY HX Hi Hj. unfold add_at. rewrite !get_in by assumption. cbn [bind].
    destruct (set_upd1 s Y X (cell s Y X +! cell data i j) HY HX) as (s' & E & Hu).
    exists s'; split; [exact E|exact Hu].
  Qed.

  Lemma range_len_2b p b : 0 <= b -> range_len p (p + 2 * b) 2 = b.
  Proof. intros Hb. unfold range_len. lia. Qed.

  Lemma map_list_prod_row {B} (f : Z * Z -> B) (y : Z) (l : list Z) :
    map f (map (fun x => (y, x)) l) = map (fun x => f (y, x)) l.
  Proof. rewrite map_map. reflexivity. Qed.

  Lemma map_list_prod {B} (f : Z * Z -> B) (l m : list Z) :
    map f (list_prod l m) = flat_map (fun y => map (fun x => f (y, x)) m) l.
  Proof.
    induction l as [|y l IH]; cbn [list_prod flat_map]; [reflexivity|].
    rewrite map_app, map_list_prod_row, IH. reflexivity.
  Qed.

  Lemma flat_map_single {B} (f : Z -> B) l : flat_map (fun x => [f x]) l = map f l.
  Proof. induction l; cbn [flat_map map app]; congruence. Qed.

  Lemma fold_block_row (s data : arr A) Y X b lo i0 j0 :
    1 <= b -> 0 <= Y < rows s -> 0 <= X < cols s ->
    0 <= i0 < rows data -> 0 <= j0 + lo -> j0 + lo + 2 * (b - 1) < cols data ->
    exists s', for_range lo (lo + 2 * b) 2
                 (fun xs s => add_at s Y X data i0 (j0 + xs)) s = Ok s' /\
      accs nadd s s' Y X (map (fun k => cell data i0 (j0 + lo + 2 * k)) (zrange b)).
  Proof.
    intros Hb HY HX Hi Hj0 Hj.
    destruct (for_accs nadd lo (lo + 2 * b) 2 (fun xs s => add_at s Y X data i0 (j0 + xs))
                (fun k => [cell data i0 (j0 + lo + 2 * k)]) s Y X) as (s' & E & Ha).
    - lia.
    - intros k s1 Hk Hlt Hr Hc.
      destruct (add_at_accs s1 data Y X i0 (j0 + (lo + k * 2))) as (s2 & E2 & H2); try lia.
      exists s2; split; [exact E2|].
      replace (j0 + lo + 2 * k) with (j0 + (lo + k * 2)) by lia. exact H2.
    - exists s'; split; [exact E|]. rewrite range_len_2b in Ha by lia.
      rewrite flat_map_single in Ha. exact Ha.
  Qed.

  Lemma fold_block (s data : arr A) Y X b :
    1 <= b -> 0 <= Y < rows s -> 0 <= X < cols s ->
    (Y / 2 + 1) * (2 * b) <= rows data -> (X / 2 + 1) * (2 * b) <= cols data ->
    exists s',
      for_range (Y mod 2) (Y mod 2 + 2 * b) 2 (fun ys =>
        for_range (X mod 2) (X mod 2 + 2 * b) 2 (fun xs s =>
          add_at s Y X data ((Y - Y mod 2) * b + ys) ((X - X mod 2) * b + xs))) s = Ok s' /\
      accs nadd s s' Y X (family_block data b Y X).
  Proof.
    intros Hb HY HX Hr Hc.
    assert (EY : (Y - Y mod 2) * b = 2 * b * (Y / 2)) by (rewrite (Z.div_mod Y 2) at 1 by lia; ring).
    assert (EX : (X - X mod 2) * b = 2 * b * (X / 2)) by (rewrite (Z.div_mod X 2) at 1 by lia; ring).
    assert (HmY : 0 <= Y mod 2 <= 1) by lia. assert (HmX : 0 <= X mod 2 <= 1) by lia.
    assert (HdY : 0 <= Y / 2) by lia. assert (HdX : 0 <= X / 2) by lia.
    rewrite EY, EX.
    set (yb := 2 * b * (Y / 2)) in *. set (xb := 2 * b * (X / 2)) in *.
    assert (0 <= yb) by (unfold yb; nia). assert (0 <= xb) by (unfold xb; nia).
    assert (yb + 2 * b <= rows data) by (unfold yb; lia).
    assert (xb + 2 * b <= cols data) by (unfold xb; lia).
    destruct (for_accs nadd (Y mod 2) (Y mod 2 + 2 * b) 2
                (fun ys => for_range (X mod 2) (X mod 2 + 2 * b) 2 (fun xs s =>
                   add_at s Y X data (yb + ys) (xb + xs)))
                (fun k => map (fun l => cell data (yb + Y mod 2 + 2 * k) (xb + X mod 2 + 2 * l))
                              (zrange b)) s Y X) as (s' & E & Ha).
    - lia.
    - intros k s1 Hk Hlt Hr1 Hc1.
      destruct (fold_block_row s1 data Y X b (X mod 2) (yb + (Y mod 2 + k * 2)) xb)
        as (s2 & E2 & Ha2); try lia.
      exists s2; split; [exact E2|].
      replace (yb + Y mod 2 + 2 * k) with (yb + (Y mod 2 + k * 2)) by lia. exact Ha2.
    - exists s'; split; [exact E|]. rewrite range_len_2b in Ha by lia.
      unfold family_block. rewrite map_list_prod. cbn [fst snd]. exact Ha.
  Qed.

  Lemma zeros_ok h w : 0 <= h -> 0 <= w -> zeros h w = Ok (full h w (n0 (A := A))).
  Proof. intros. unfold zeros. replace ((h <? 0) || (w <? 0)) with false by lia. reflexivity. Qed.

  Lemma jitrebin_spec (data : arr A) p q b :
    1 <= b -> 0 <= p -> 0 <= q -> 2 * b * p <= rows data -> 2 * b * q <= cols data ->
    exists r, micropolarray_jitrebin data (2 * p) (2 * q) b = Ok r /\
      rows r = 2 * p /\ cols r = 2 * q /\
      forall Y X, 0 <= Y < 2 * p -> 0 <= X < 2 * q -> cell r Y X = lsum (family_block data b Y X).
  Proof.
    intros Hb Hp Hq Hr Hc. unfold micropolarray_jitrebin.
    rewrite zeros_ok by lia. cbn [bind].
    destruct (for_upd_rect (full (2 * p) (2 * q) (n0 (A:=A))) 0 (2 * p) 0 (2 * q)
      (fun Y X old => fold_left nadd (family_block data b Y X) old)
      (fun new_y new_x =>
        for_range (new_y mod 2) (new_y mod 2 + 2 * b) 2 (fun y_scaler =>
          for_range (new_x mod 2) (new_x mod 2 + 2 * b) 2 (fun x_scaler new_data =>
            let i := (new_y - new_y mod 2) * b + y_scaler in
            let j := (new_x - new_x mod 2) * b + x_scaler in
            add_at new_data new_y new_x data i j)))) as (r & E & R & C & Hcell).
    - cbn [full rows cols]. intros y x s Hy Hx Hrs Hcs.
      apply fold_block; try lia.
      + assert (y / 2 + 1 <= p) by lia. nia.
      + assert (x / 2 + 1 <= q) by lia. nia.
    - exists r; split; [exact E|]. cbn [full rows cols] in R, C. split; [lia|]. split; [lia|].
      intros Y X HY HX. rewrite Hcell.
      replace ((0 <=? Y) && (Y <? 2 * p) && (0 <=? X) && (X <? 2 * q)) with true by lia.
      reflexivity.
  Qed.

  Lemma rebin_spec (data : arr A) b fuel :
    wf data -> 1 <= b -> rows data mod 2 = 0 -> cols data mod 2 = 0 ->
    (Z.to_nat (Z.max (rows data) (cols data)) <= fuel)%nat ->
    exists r, micropolarray_rebin fuel data b = Ok r /\
      rows r = 2 * (rows data / (2 * b)) /\ cols r = 2 * (cols data / (2 * b)) /\
      forall Y X, 0 <= Y < rows r -> 0 <= X < cols r -> cell r Y X = lsum (family_block data b Y X).
  Proof.
    intros [Hr Hc] Hb Er Ec Hf. unfold micropolarray_rebin.
    rewrite trim2_ok by lia. cbn [bind].
    set (p := rows data / (2 * b)). set (q := cols data / (2 * b)).
    replace (2 * b * p) with (b * (2 * p)) by ring.
    replace (2 * b * q) with (b * (2 * q)) by ring.
    rewrite !quot_mul_l by lia.
    assert (Hp : 0 <= p) by (apply Z.div_pos; lia).
    assert (Hq : 0 <= q) by (apply Z.div_pos; lia).
    assert (2 * b * p <= rows data) by (apply Z.mul_div_le; lia).
    assert (2 * b * q <= cols data) by (apply Z.mul_div_le; lia).
    destruct (jitrebin_spec data p q b) as (r & E & R & C & Hcell); try assumption.
    exists r. rewrite R, C. repeat split; auto.
  Qed.

  Lemma std_block (s data : arr A) Y X b :
    1 <= b -> 0 <= Y < rows s -> 0 <= X < cols s ->
    (Y + 1) * b <= rows data -> (X + 1) * b <= cols data ->
    exists s',
      for_range 0 b 1 (fun ys => for_range 0 b 1 (fun xs s =>
          add_at s Y X data (b * Y + ys) (b * X + xs))) s = Ok s' /\
      accs nadd s s' Y X (plain_block data b Y X).
  Proof.
    intros Hb HY HX Hr Hc.
    assert (Hl : range_len 0 b 1 = b) by (rewrite range_len_1; lia).
    destruct (for_accs nadd 0 b 1
                (fun ys => for_range 0 b 1 (fun xs s => add_at s Y X data (b * Y + ys) (b * X + xs)))
                (fun k => map (fun l => cell data (b * Y + k) (b * X + l)) (zrange b)) s Y X)
      as (s' & E & Ha).
    - lia.
    - intros k s1 Hk Hlt Hr1 Hc1.
      destruct (for_accs nadd 0 b 1 (fun xs s => add_at s Y X data (b * Y + (0 + k * 1)) (b * X + xs))
                  (fun l => [cell data (b * Y + k) (b * X + l)]) s1 Y X) as (s2 & E2 & H2).
      + lia.
      + intros l s2 Hk2 Hlt2 Hr2 Hc2.
        destruct (add_at_accs s2 data Y X (b * Y + (0 + k * 1)) (b * X + (0 + l * 1)))
          as (s3 & E3 & H3); try lia; try nia.
        exists s3; split; [exact E3|].
        replace (b * Y + k) with (b * Y + (0 + k * 1)) by lia.
        replace (b * X + l) with (b * X + (0 + l * 1)) by lia. exact H3.
      + exists s2; split; [exact E2|]. rewrite Hl, flat_map_single in H2. exact H2.
    - exists s'; split; [exact E|]. rewrite Hl in Ha.
      unfold plain_block. rewrite map_list_prod. cbn [fst snd]. exact Ha.
  Qed.

  Lemma std_rebin_spec (data : arr A) b fuel :
    wf data -> 1 <= b ->
    (Z.to_nat (Z.max (rows data) (cols data)) <= fuel)%nat ->
    exists r, standard_rebin fuel data b = Ok r /\
      rows r = rows data / b /\ cols r = cols data / b /\
      forall Y X, 0 <= Y < rows r -> 0 <= X < cols r -> cell r Y X = lsum (plain_block data b Y X).
  Proof.
    intros [Hr Hc] Hb Hf. unfold standard_rebin.
    rewrite trim_std_ok by lia. cbn [bind].
    rewrite !quot_mul_l by lia.
    set (p := rows data / b). set (q := cols data / b).
    assert (Hp : 0 <= p) by (apply Z.div_pos; lia).
    assert (Hq : 0 <= q) by (apply Z.div_pos; lia).
    assert (b * p <= rows data) by (apply Z.mul_div_le; lia).
    assert (b * q <= cols data) by (apply Z.mul_div_le; lia).
    unfold standard_jitrebin. rewrite zeros_ok by lia. cbn [bind].
    destruct (for_upd_rect (full p q (n0 (A:=A))) 0 p 0 q
      (fun Y X old => fold_left nadd (plain_block data b Y X) old)
      (fun new_y new_x =>
        for_range 0 b 1 (fun y_scaler => for_range 0 b 1 (fun x_scaler new_data =>
            add_at new_data new_y new_x data (b * new_y + y_scaler) (b * new_x + x_scaler)))))
      as (r & E & R & C & Hcell).
    - cbn [full rows cols]. intros y x s Hy Hx Hrs Hcs.
      apply std_block; try lia; nia.
    - exists r; split; [exact E|]. cbn [full rows cols] in R, C. split; [lia|]. split; [lia|].
      intros Y X HY HX. rewrite Hcell.
      replace ((0 <=? Y) && (Y <? p) && (0 <=? X) && (X <? q)) with true by lia.
      reflexivity.
  Qed.
End Sums.
