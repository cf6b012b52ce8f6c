(** Aligning data and keywords. *)
From Coq Require Import Reals Lra String.
From Verif Require Import Base.Base Base.BaseFacts Base.Num Model.Demosaic Model.Codec Model.LinRoi Model.Keywords
  Spec.MosaicSpec Spec.KeywordSpec Proofs.DemosaicFacts Proofs.MosaicFacts Proofs.LineFacts.

(** ** Headers *)

Lemma hset_same {A} (h : header A) k v : keyword (hset h k v) k v.
Proof.
  induction h as [|[k' v'] h IH]; cbn [hset]; [constructor|].
  destruct (String.eqb_spec k' k) as [->|Hne]; [constructor|constructor; assumption].
Qed.
Lemma hset_other {A} (h : header A) k v k1 v1 : k1 <> k -> keyword h k1 v1 -> keyword (hset h k v) k1 v1.
Proof.
  intros Hne. induction h as [|[k' v'] h IH]; cbn [hset]; intros Hk; inversion Hk; subst.
  - destruct (String.eqb_spec k1 k) as [->|]; [congruence|constructor].
  - destruct (String.eqb_spec k' k) as [->|]; constructor; auto.
Qed.
Lemma hget_keyword {A} (h : header A) k v : keyword h k v -> hget h k = Ok v.
Proof.
  induction 1 as [k v h|k v k' v' h Hne Hk IH]; cbn [hget]; [rewrite String.eqb_refl; reflexivity|].
  destruct (String.eqb_spec k' k); [contradiction|exact IH].
Qed.
Lemma keyword_unique {A} (h : header A) k v v' : keyword h k v -> keyword h k v' -> v = v'.
Proof. intros H1 H2. apply hget_keyword in H1, H2. congruence. Qed.

(** ** Data *)

Lemma turn_plane_ok {D} (a : arr D) : rows a = cols a ->
  exists b, turn_plane a = Ok b /\ rows b = rows a /\ cols b = cols a /\
    forall i j, cell b i j = cell a (rows a - 1 - j) (rows a - 1 - i).
Proof.
  intros E. exists (flip0 (rot90_cw a)). split; [|cbn [flip0 rot90_cw rows cols cell]; split; [lia|]; split; [lia|]].
  - unfold turn_plane, assign_plane. cbn [flip0 rot90_cw rows cols]. rewrite E, !Z.eqb_refl. cbn [andb bind].
    unfold assign_plane. cbn [flip0 rot90_cw rows cols]. rewrite !Z.eqb_refl. reflexivity.
  - intros i j. f_equal; lia.
Qed.
Lemma turn_plane_bad {D} (a : arr D) : rows a <> cols a -> turn_plane a = Raise ValueError.
Proof.
  intros E. unfold turn_plane, assign_plane. cbn [rot90_cw rows cols].
  replace (rows a =? cols a) with false by (symmetry; apply Z.eqb_neq; exact E). reflexivity.
Qed.

Section Align.
  Context {A : Type} `{Num A} `{ToInt A} {D : Type} `{Num D}.

  Definition turned (n : Z) (data d : arr D) : Prop :=
    rows d = 2 * n /\ cols d = 2 * n /\
    forall k Y X, 0 <= k < 4 -> 0 <= Y < n -> 0 <= X < n -> sample d k (n - 1 - X) (n - 1 - Y) = sample data k Y X.

  Lemma turned_all n (data : arr D) : square n data ->
    exists s s0 s1 s2 s3, split_polarizations data = Ok s /\
      turn_plane (q0 s) = Ok s0 /\ turn_plane (q1 s) = Ok s1 /\ turn_plane (q2 s) = Ok s2 /\ turn_plane (q3 s) = Ok s3 /\
      turned n data (merge_polarizations (mkquad s0 s1 s2 s3)).
  Proof.
    intros (Hn & Er & Ec). destruct (split_spec data) as (s & Es & Hs).
    { split; lia. } { rewrite Er, Z.mul_comm. apply Z.mod_mul. lia. } { rewrite Ec, Z.mul_comm. apply Z.mod_mul. lia. }
    assert (Hd : 2 * n / 2 = n) by (rewrite Z.mul_comm; apply Z.div_mul; lia).
    rewrite Er, Ec, Hd in Hs.
    assert (G : forall k, 0 <= k < 4 -> exists b, turn_plane (qnth s k) = Ok b /\ rows b = n /\ cols b = n /\
       forall i j, cell b i j = sample data k (n - 1 - j) (n - 1 - i)).
    { intros k Hk. destruct (Hs k Hk) as (R & C & Hc). destruct (turn_plane_ok (qnth s k)) as (b & Eb & Rb & Cb & Hb); [lia|].
      exists b. split; [exact Eb|]. split; [lia|]. split; [lia|]. intros i j. rewrite Hb, R. unfold sample. apply Hc. }
    destruct (G 0) as (s0 & E0 & R0 & C0 & W0); [lia|]. destruct (G 1) as (s1 & E1 & _ & _ & W1); [lia|].
    destruct (G 2) as (s2 & E2 & _ & _ & W2); [lia|]. destruct (G 3) as (s3 & E3 & _ & _ & W3); [lia|].
    exists s, s0, s1, s2, s3. split; [exact Es|]. repeat (split; [assumption|]).
    unfold turned. rewrite merge_rows, merge_cols. cbn [q0]. split; [lia|]. split; [lia|].
    intros k Y X Hk HY HX. unfold sample at 1. rewrite merge_cell.
    assert (K : k = 0 \/ k = 1 \/ k = 2 \/ k = 3) by lia.
    replace (2 * ((2 * (n - 1 - X) + k / 2) mod 2) + (2 * (n - 1 - Y) + k mod 2) mod 2) with k
      by (destruct K as [-> | [-> | [-> | ->]]]; lia).
    replace ((2 * (n - 1 - X) + k / 2) / 2) with (n - 1 - X) by (destruct K as [-> | [-> | [-> | ->]]]; lia).
    replace ((2 * (n - 1 - Y) + k mod 2) / 2) with (n - 1 - Y) by (destruct K as [-> | [-> | [-> | ->]]]; lia).
    destruct K as [-> | [-> | [-> | ->]]]; unfold qnth; cbn [Z.eqb Pos.eqb q0 q1 q2 q3];
      rewrite ?W0, ?W1, ?W2, ?W3; f_equal; lia.
  Qed.

  Lemma align_ok n (h : header A) (data : arr D) (sun : A * A) ps binning date time sx sy :
    square n data -> keyword h "DATE-OBS" (HStr date) -> keyword h "TIME-OBS" (HStr time) ->
    toint (nofZ (2 * n) *! (snd sun /! nofZ 1952)) = Ok sx ->
    toint (nofZ (2 * n) *! (fst sun /! nofZ 1952)) = Ok sy ->
    exists h' d, align_keywords_and_data h data sun ps binning = Ok (h', d) /\
      turned n data d /\
      keyword h' "NAXIS1" (HInt (2 * n)) /\ keyword h' "NAXIS2" (HInt (2 * n)) /\
      keyword h' "CRPIX1" (HInt (2 * n - sy)) /\ keyword h' "CRPIX2" (HInt (2 * n - sx)) /\
      keyword h' "DATE-OBS" (HStr (date ++ "T" ++ time)) /\
      (let p := if 1 <? binning then ps *! nofZ binning else ps in
       keyword h' "CDELT1" (HNum p) /\ keyword h' "CDELT2" (HNum p)) /\
      (forall k v, ~ In k written -> keyword h k v -> keyword h' k v).
  Proof.
    intros Hsq Hdate Htime Ex Ey. destruct (turned_all n data Hsq) as (s & s0 & s1 & s2 & s3 & Es & E0 & E1 & E2 & E3 & T).
    unfold align_keywords_and_data. rewrite Es; cbn [bind]. rewrite E0; cbn [bind]. rewrite E1; cbn [bind].
    rewrite E2; cbn [bind]. rewrite E3; cbn [bind]. set (d := merge_polarizations _) in *.
    destruct T as (Rd & Cd & T). rewrite Rd, Cd. cbv zeta.
    rewrite (hget_keyword _ "DATE-OBS" (HStr date))
      by (apply hset_other; [discriminate|]; apply hset_other; [discriminate|]; exact Hdate).
    cbn [bind hstr].
    rewrite (hget_keyword _ "TIME-OBS" (HStr time))
      by (apply hset_other; [discriminate|]; apply hset_other; [discriminate|]; exact Htime).
    cbn [bind hstr]. destruct sun as [y x]. cbn [fst snd] in *. rewrite Ex; cbn [bind]. rewrite Ey; cbn [bind].
    do 2 eexists. split; [reflexivity|]. split; [split; [exact Rd|split; [exact Cd|exact T]]|].
    repeat match goal with
      | |- keyword (hset _ ?k ?v) ?k ?v => apply hset_same
      | |- keyword (hset _ _ _) _ _ => apply hset_other; [discriminate|]
      | |- (let _ := _ in _) => intro
      | |- _ /\ _ => split
      end.
    intros k v Hk Hkv. unfold written in Hk.
    assert (N : forall w, In w written -> k <> w) by (intros w Hw ->; exact (Hk Hw)).
    repeat (apply hset_other; [apply N; cbn; tauto|]). exact Hkv.
  Qed.

  Lemma align_not_square (h : header A) (data : arr D) sun ps binning :
    mosaic data -> rows data <> cols data ->
    align_keywords_and_data h data sun ps binning = Raise ValueError.
  Proof.
    intros (M1 & M2 & M3 & M4) Hne. destruct (split_spec data) as (s & Es & Hs); [split; assumption|assumption|assumption|].
    unfold align_keywords_and_data. rewrite Es; cbn [bind]. destruct (Hs 0) as (R & C & _); [lia|]. rewrite qnth_0 in R, C.
    rewrite turn_plane_bad; [reflexivity|]. rewrite R, C. lia.
  Qed.

  (** Twice. *)
  Lemma turned_twice n (data d e : arr D) : square n data -> turned n data d -> turned n d e -> e =a= data.
  Proof.
    intros (Hn & Er & Ec) (Rd & Cd & Hd) (Re & Ce & He). split; [lia|]. split; [lia|].
    intros y x Hy Hx. rewrite Re in Hy. rewrite Ce in Hx.
    set (k := 2 * (y mod 2) + x mod 2).
    assert (S : forall a : arr D, cell a y x = sample a k (y / 2) (x / 2)).
    { intros a. unfold sample, k. f_equal; lia. }
    rewrite !S. pose proof (Hd k (y / 2) (x / 2)) as A1. pose proof (He k (n - 1 - x / 2) (n - 1 - y / 2)) as A2.
    replace (n - 1 - (n - 1 - y / 2)) with (y / 2) in A2 by lia.
    replace (n - 1 - (n - 1 - x / 2)) with (x / 2) in A2 by lia.
    rewrite A2 by (unfold k; lia). apply A1; unfold k; lia.
  Qed.
End Align.

(** ** The sun centre, in exact arithmetic *)

Lemma exact_scale (y : Z) : @toint R ToInt_R (nofZ (2 * 976) *! (IZR y /! nofZ 1952)) = Ok y.
Proof.
  unfold toint, ToInt_R. cbn [nofZ nmul ndiv Num_R]. f_equal.
  replace (IZR (2 * 976) * (IZR y / IZR 1952))%R with (IZR y / IZR 1)%R by (change (2 * 976) with 1952; field).
  rewrite rtrunc_quot by lia. apply Z.quot_1_r.
Qed.

Lemma moved_close y x : 0 <= y -> 0 <= x ->
  Z.abs ((2 * 976 - y) - 1 - moved_col 976 y x) <= 1 /\ Z.abs ((2 * 976 - x) - 1 - moved_row 976 y x) <= 1.
Proof. intros Hy Hx. unfold moved_col, moved_row. lia. Qed.

Lemma moved_sample {D} n (data d : arr D) y x : 0 <= y < 2 * n -> 0 <= x < 2 * n ->
  turned n data d -> cell d (moved_row n y x) (moved_col n y x) = cell data y x.
Proof.
  intros Hy Hx (_ & _ & T). specialize (T (2 * (y mod 2) + x mod 2) (y / 2) (x / 2)).
  unfold sample in T. unfold moved_row, moved_col.
  replace ((2 * (y mod 2) + x mod 2) / 2) with (y mod 2) in T by lia.
  replace ((2 * (y mod 2) + x mod 2) mod 2) with (x mod 2) in T by lia.
  rewrite T by lia. f_equal; lia.
Qed.

Lemma turned_moved {D} n (data d : arr D) : turned n data d -> all_moved n data d.
Proof.
  intros T. pose proof T as (Rd & Cd & _). split; [exact Rd|]. split; [exact Cd|].
  intros y x Hy Hx. apply moved_sample; assumption.
Qed.

Section Real.
  Context {D : Type} `{Num D}.
  Local Open Scope string_scope.

  Lemma c67_align n (h : header R) (data : arr D) (sy sx : R) ps binning date time :
    square n data -> keyword h "DATE-OBS" (HStr date) -> keyword h "TIME-OBS" (HStr time) ->
    exists h' d, align_keywords_and_data h data (sy, sx) ps binning = Ok (h', d) /\
      all_moved n data d /\
      keyword h' "NAXIS1" (HInt (2 * n)) /\ keyword h' "NAXIS2" (HInt (2 * n)) /\
      keyword h' "DATE-OBS" (HStr (date ++ "T" ++ time)) /\
      (let p := if (1 <? binning)%Z then (ps * IZR binning)%R else ps in
       keyword h' "CDELT1" (HNum p) /\ keyword h' "CDELT2" (HNum p)) /\
      (forall k v, ~ In k written -> keyword h k v -> keyword h' k v).
  Proof.
    intros Hsq Hd Ht.
    destruct (align_ok n h data (sy, sx) ps binning date time _ _ Hsq Hd Ht eq_refl eq_refl)
      as (h' & d & E & T & K1 & K2 & _ & _ & K3 & K4 & K5).
    exists h', d. split; [exact E|]. split; [apply turned_moved; exact T|]. repeat (split; [assumption|]). assumption.
  Qed.

  Lemma c67_twice n (h : header R) (data : arr D) s1 s2 p1 p2 b1 b2 date time :
    square n data -> keyword h "DATE-OBS" (HStr date) -> keyword h "TIME-OBS" (HStr time) ->
    exists h' d h'' e, align_keywords_and_data h data s1 p1 b1 = Ok (h', d) /\
      align_keywords_and_data h' d s2 p2 b2 = Ok (h'', e) /\ e =a= data /\
      keyword h'' "DATE-OBS" (HStr ((date ++ "T" ++ time) ++ "T" ++ time)).
  Proof.
    intros Hsq Hd Ht.
    destruct (align_ok n h data s1 p1 b1 date time _ _ Hsq Hd Ht eq_refl eq_refl)
      as (h' & d & E & T & _ & _ & _ & _ & K3 & _ & K5).
    assert (Hsq' : square n d) by (destruct Hsq as (Hn & _), T as (Rd & Cd & _); split; [exact Hn|split; assumption]).
    assert (Ht' : keyword h' "TIME-OBS" (HStr time)).
    { apply K5; [|exact Ht]. unfold written. cbn. intros C. repeat (destruct C as [C|C]; [discriminate C|]). exact C. }
    destruct (align_ok n h' d s2 p2 b2 (date ++ "T" ++ time) time _ _ Hsq' K3 Ht' eq_refl eq_refl)
      as (h'' & e & E' & T' & _ & _ & _ & _ & K3' & _ & _).
    exists h', d, h'', e. split; [exact E|]. split; [exact E'|]. split; [exact (turned_twice n data d e Hsq T T')|exact K3'].
  Qed.

  Lemma c67_sun (h : header R) (data : arr D) y x ps binning date time :
    square 976 data -> keyword h "DATE-OBS" (HStr date) -> keyword h "TIME-OBS" (HStr time) ->
    (0 <= y < 1952)%Z -> (0 <= x < 1952)%Z ->
    exists h' d c1 c2, align_keywords_and_data h data (IZR y, IZR x) ps binning = Ok (h', d) /\
      keyword h' "CRPIX1" (HInt c1) /\ keyword h' "CRPIX2" (HInt c2) /\
      (Z.abs (c1 - 1 - moved_col 976 y x) <= 1)%Z /\ (Z.abs (c2 - 1 - moved_row 976 y x) <= 1)%Z.
  Proof.
    intros Hsq Hd Ht Hy Hx.
    destruct (align_ok 976 h data (IZR y, IZR x) ps binning date time x y Hsq Hd Ht (exact_scale x) (exact_scale y))
      as (h' & d & E & _ & _ & _ & K1 & K2 & _).
    exists h', d. do 2 eexists. split; [exact E|]. split; [exact K1|]. split; [exact K2|].
    apply moved_close; lia.
  Qed.

  Lemma c67_float (h : header b64) (data : arr D) ps binning date time :
    square 976 data -> keyword h "DATE-OBS" (HStr date) -> keyword h "TIME-OBS" (HStr time) ->
    exists h' d, align_keywords_and_data h data (b64_ofZ 246, b64_ofZ 0) ps binning = Ok (h', d) /\
      keyword h' "CRPIX1" (HInt 1707) /\ (1707 - 1 - moved_col 976 246 0 = 2)%Z.
  Proof.
    intros Hsq Hd Ht.
    destruct (align_ok 976 h data (b64_ofZ 246, b64_ofZ 0) ps binning date time 0 245 Hsq Hd Ht)
      as (h' & d & E & _ & _ & _ & K1 & _).
    - vm_compute. reflexivity.
    - vm_compute. reflexivity.
    - exists h', d. split; [exact E|]. split; [exact K1|reflexivity].
  Qed.
End Real.
