(** Saving an image and loading it again. *)
From Coq Require Import String Ascii Reals Lia Lra.
From Verif Require Import Base.Base Base.BaseFacts Base.Num Model.Paths Model.Codec Model.Fs Model.Save Model.Keywords Model.FileInit
  Model.Demosaic Model.Stokes Model.ImageObj Model.Reload
  Spec.MosaicSpec Spec.StokesSpec Spec.ImageSpec Spec.FsSpec Spec.DirSpec Spec.PixelSpec Spec.FilesSpec Spec.ReloadSpec
  Proofs.StokesFacts Proofs.FilesFacts Proofs.SaveFacts Proofs.ObjFacts Proofs.ObjInv Proofs.ObjExec Proofs.ObjViews Proofs.ObjMore.
Local Open Scope string_scope.
Local Open Scope Z_scope.

Lemma name_ok (d stem : string) : let name := d ++ stem ++ ".fits" in ends_in_slash name = false /\ name <> ".raw" /\ name <> "".
Proof.
  cbv zeta. assert (E : d ++ stem ++ ".fits" = (d ++ stem) ++ ".fits") by (apply PathFacts.sapp_assoc). rewrite E.
  split; [apply PathFacts.ends_in_slash_app; [intros C; cbn in C; intuition discriminate|discriminate]|].
  assert (L : String.length ((d ++ stem) ++ ".fits") = (String.length (d ++ stem) + 5)%nat).
  { clear E. induction (d ++ stem) as [|c r IH]; [reflexivity|]. cbn. f_equal. exact IH. }
  split; intros F; rewrite F in L; cbn in L; lia.
Qed.

Lemma load_saved cwd parse iso ant show fits head t s name (avg : bool) (a : arr R) :
  reads_back fits parse head -> dated (disk_reader cwd parse iso ant show s) head t -> 0 < rows a -> 0 < cols a -> storable a ->
  ends_in_slash name = false -> name <> ".raw" -> name <> "" -> s (key cwd name) = Some (File (fits (to_list a))) ->
  exists l, image_from_name (disk_reader cwd parse iso ant show s) name avg = Ok l /\ l_data l =a= a.
Proof.
  intros Hb Ht Hr Hc Hst N1 N2 N3 Es. destruct (Hb a Hr Hc Hst) as (b & Eb & Hab).
  assert (S : series (disk_reader cwd parse iso ant show s) [name] (rows b) (cols b) (fun _ => b) (fun _ => head) (fun _ => t)).
  { split; [intros [E|[]]; congruence|]. intros n [<-|[]]. split; [|auto].
    unfold disk_reader, fits_open, read_file. rewrite Es, N1. cbn [snd bind]. exact Eb. }
  destruct (combine_ok _ _ _ _ _ _ _ S name [] avg eq_refl) as (c & E & R1 & C1 & V). cbn [fold_left length] in V.
  destruct name as [|x name]; [congruence|].
  eexists. split; [unfold image_from_name; rewrite E; reflexivity|]. cbn [l_data].
  destruct Hab as (H1 & H2 & H3). split; [congruence|]. split; [congruence|]. intros y z Hy Hz.
  rewrite R1 in Hy. rewrite C1 in Hz. rewrite V by assumption. rewrite <- H3 by assumption.
  replace (if avg then Z.of_nat 1 else 1) with 1 by (destruct avg; reflexivity).
  cbn. lra.
Qed.

(** A new image without corrections. *)
Lemma create_fresh W d dic a h : heap_ok h -> describes dic a -> mosaic d ->
  exists h' s, create W d (Some dic) None None h = (h', Ok (Some (length (images h)))) /\ data_stokes dic d = Ok s /\
    view_of h' (length (images h)) = Some (mkview d (rows d) (cols d) (mkheader (cols d) (rows d)) s None dic false false false false) /\
    (forall j w, view_of h j = Some w -> view_of h' j = Some w).
Proof.
  intros Hok Hd Hm. destruct (data_stokes_spec dic a d Hd Hm) as (s & Es & _).
  set (im1 := with_stokes (length (vectors h)) (blank h d dic)). set (h1 := add_vector s (room h d)).
  assert (E : create W d (Some dic) None None h = (handed (Ok tt) im1 h1, Ok (Some (length (images h))))).
  { unfold create, choose_dic, returning. cbv beta iota zeta.
    unfold new_array, new_header. unfold mbind at 1. cbv beta iota. unfold mbind at 1. cbv beta iota.
    unfold mbind at 1. cbn [arrays headers vectors quads images default_angles].
    destruct (update_blank (blank h d dic) (room h d) d) as [(r & E & Hr)|(_ & _ & s' & Es' & E)].
    - cbn. rewrite nth_error_app2, Nat.sub_diag by lia. reflexivity.
    - destruct Hm as (? & ? & _). split; assumption.
    - reflexivity.
    - exfalso. destruct (update_stokes_is (blank h d dic) (room h d)) as (q & s' & _ & _ & E').
      + exists d. split; [cbn; rewrite nth_error_app2, Nat.sub_diag by lia; reflexivity|exact Hm].
      + discriminate.
      + cbn. unfold data_stokes in Es. destruct (split_polarizations d) as [q|e|] eqn:Eq; [|discriminate..]. exact (theo_complete _ _ _ Es).
      + rewrite E in E'. injection E' as _ _ Er. exact (Hr _ Er).
    - change (data_stokes dic d = Ok s') in Es'. rewrite Es in Es'. injection Es' as <-. unfold blank, room in E. rewrite E. reflexivity. }
  exists (handed (Ok tt) im1 h1), s. split; [exact E|]. split; [exact Es|]. split.
  - unfold view_of. cbn [handed put_images images h1 add_vector room]. rewrite nth_error_app2, Nat.sub_diag by lia. cbn [nth_error].
    unfold look. cbn. rewrite !nth_error_app2, !Nat.sub_diag by lia. reflexivity.
  - intros j w Ew. apply (view_handed h h1); [|reflexivity|exact Ew].
    repeat split; cbn; auto using keeps_app, keeps_refl.
Qed.

Lemma sample_aeq {A} (a b : arr A) k Y X : a =a= b -> mosaic b -> 0 <= k < 4 -> 0 <= Y < rows b / 2 -> 0 <= X < cols b / 2 ->
  sample a k Y X = sample b k Y X.
Proof.
  intros (E1 & E2 & E3) (_ & _ & M1 & M2) Hk HY HX. unfold sample. apply E3; rewrite ?E1, ?E2.
  - clear - HY Hk M1. Z.to_euclidean_division_equations. lia.
  - clear - HX Hk M2. Z.to_euclidean_division_equations. lia.
Qed.

Lemma vector_of_data dic a (d : arr R) s : describes dic a -> mosaic d -> data_stokes dic d = Ok s ->
  forall hd, shows_its_data (mkview d (rows d) (cols d) hd s None dic false false false false).
Proof.
  intros Ha Hm Es hd. split; [exact Hm|]. cbn [v_dic v_data v_vector]. intros a' Ha'. cbv zeta.
  destruct (data_stokes_spec dic a' d Ha' Hm) as (s' & Es' & S1 & S2 & S3 & S4). rewrite Es in Es'. injection Es' as <-.
  split; [exact S1|]. split; [exact S2|]. split; [exact S3|]. intros y x Hy Hx.
  destruct (S4 y x Hy Hx) as (T1 & T2 & T3). rewrite T1, T2, T3. cbn. repeat split; lra.
Qed.

(** Two images that show equal data through one arrangement have the same Stokes vector. *)
Lemma equal_data_vectors u v a : shows_its_data u -> shows_its_data v -> v_data u =a= v_data v -> describes (v_dic u) a -> describes (v_dic v) a ->
  same_stokes (v_vector u) (v_vector v).
Proof.
  intros (Mu & Su) (Mv & Sv) Hd Du Dv. specialize (Su a Du). specialize (Sv a Dv). cbv zeta in Su, Sv.
  destruct Hd as (E1 & E2 & E3). rewrite E1, E2 in Su.
  destruct Su as ((A1 & A2) & (A3 & A4) & (A5 & A6) & A). destruct Sv as ((B1 & B2) & (B3 & B4) & (B5 & B6) & B).
  assert (Hk : 0 <= p0 a < 4 /\ 0 <= p45 a < 4 /\ 0 <= pm45 a < 4 /\ 0 <= p90 a < 4) by (destruct Du as ((? & ? & ? & ? & _) & _); lia).
  assert (S : forall k Y X, 0 <= k < 4 -> 0 <= Y < rows (v_data v) / 2 -> 0 <= X < cols (v_data v) / 2 -> sample (v_data u) k Y X = sample (v_data v) k Y X).
  { intros. apply sample_aeq; try assumption. split; [exact E1|]. split; assumption. }
  assert (P : forall Y X, 0 <= Y < rows (v_data v) / 2 -> 0 <= X < cols (v_data v) / 2 ->
    cell (sI (v_vector u)) Y X = cell (sI (v_vector v)) Y X /\ cell (sQ (v_vector u)) Y X = cell (sQ (v_vector v)) Y X /\
    cell (sU (v_vector u)) Y X = cell (sU (v_vector v)) Y X).
  { intros Y X HY HX. destruct (A Y X HY HX) as (-> & -> & ->). destruct (B Y X HY HX) as (-> & -> & ->).
    rewrite !S by (assumption || lia). auto. }
  split; [|split]; (split; [congruence|split; [congruence|]]); intros Y X HY HX; apply P; congruence || lia.
Qed.

Section Reload.
  Context (cwd : string) (Hcwd : is_abs cwd = true) (fits : list (list R) -> bytes)
    (parse : bytes -> result (arr R * Keywords.header R)) (head : Keywords.header R) (Hback : reads_back fits parse head)
    (iso ant : string -> option Z) (show : Z -> string) (time : option Z)
    (Htime : forall s, dated (disk_reader cwd parse iso ant show s) head time).

  Lemma reload hist h i v d stem s W (avg : bool) dic a :
    reached hist h -> view_of h i = Some v -> 0 < rows (v_data v) -> 0 < cols (v_data v) -> storable (v_data v) ->
    dir_part d -> no_char "/" stem -> stem <> "" -> writable cwd (d ++ stem ++ ".fits") s ->
    let chosen := match dic with Some x => x | None => last_default hist polarcam_angles end in
    describes chosen a ->
    let name := d ++ stem ++ ".fits" in
    let m := save_as_fits cwd fits name None (v_data v) in
    outcome m s = Ok tt /\
    exists h' k u, micropol_from_name W (disk_reader cwd parse iso ant show (after m s)) name avg dic None None h = (h', Ok (Some k)) /\
      view_of h k = None /\ view_of h' k = Some u /\ v_data u =a= v_data v /\ v_dic u = chosen /\ header_fits u /\ shows_its_data u /\
      v_height u = rows (v_data v) /\ v_width u = cols (v_data v) /\ v_quad u = None /\
      v_demosaiced u = false /\ v_demodulated u = false /\ v_dark u = false /\ v_flat u = false /\
      forall j w, view_of h j = Some w -> view_of h' j = Some w.
  Proof.
    intros Hr Ev Hrows Hcols Hst Hd Hs Hne (W1 & W2 & W3 & W4) chosen Ha name m.
    destruct (c99_saved_range cwd Hcwd fits d stem None (v_data v) s Hd Hs Hne W1 W2 W3 W4) as (Ok1 & (img & Himg & Eimg) & _ & _).
    { intros lo hi E. discriminate E. }
    split; [exact Ok1|]. fold name m in Eimg.
    destruct Himg as (I1 & I2 & I3).
    assert (Hsi : storable img) by (intros y x Hy Hx; rewrite I3 by congruence; apply Hst; congruence).
    destruct (name_ok d stem) as (N1 & N2 & N3).
    destruct (load_saved cwd parse iso ant show fits head time (after m s) name avg img Hback (Htime _) ltac:(congruence) ltac:(congruence) Hsi N1 N2 N3 Eimg) as (l & El & Hl).
    assert (Hlv : l_data l =a= v_data v).
    { destruct Hl as (L1 & L2 & L3). split; [congruence|]. split; [congruence|]. intros y x Hy Hx. rewrite L3 by assumption.
      apply I3; congruence || lia. }
    pose proof (reached_ok _ _ Hr) as Hok.
    assert (Hi : (i < length (images h))%nat).
    { apply view_inv in Ev. destruct Ev as (im & Ei & _). exact (lt_nth_error _ _ _ Ei). }
    destruct (c55_views hist h i Hr Hi) as (v' & Ev' & Hm & _). rewrite Ev in Ev'. injection Ev' as <-.
    assert (Hml : mosaic (l_data l)).
    { apply (mosaic_shape _ (v_data v)); [|exact Hm]. destruct Hlv as (L1 & L2 & _). split; assumption. }
    unfold micropol_from_name. destruct (choose_dic dic h) as [d1 h1] eqn:Ec. rewrite El.
    assert (Ed : d1 = chosen).
    { unfold chosen. rewrite <- (reached_default _ _ Hr). unfold choose_dic in Ec. unfold current. destruct dic; [congruence|].
      destruct (default_angles h); congruence. }
    destruct (choose_grows dic h) as (G & Gi). rewrite Ec in G, Gi. cbn [snd] in G, Gi.
    destruct (create_fresh W (l_data l) d1 a h1 (heap_ok_grows _ _ G Gi Hok)) as (h' & st & E & Es & Eu & Ej); [rewrite Ed; exact Ha|exact Hml|].
    exists h', (length (images h1)). eexists. split; [exact E|]. split.
    { unfold view_of. rewrite Gi. destruct (nth_error (images h) (length (images h))) eqn:En; [|reflexivity]. apply lt_nth_error in En. lia. }
    split; [exact Eu|]. cbn [v_data v_dic v_height v_width v_quad v_demosaiced v_demodulated v_dark v_flat].
    split; [exact Hlv|]. split; [exact Ed|]. split; [split; reflexivity|]. split.
    { rewrite Ed in *. exact (vector_of_data _ a _ _ Ha Hml Es _). }
    destruct Hlv as (L1 & L2 & _). split; [exact L1|]. split; [exact L2|]. do 5 (split; [reflexivity|]).
    intros j w Ew. apply Ej. pose proof Ew as Ew'. apply view_inv in Ew'. destruct Ew' as (x & Ex & Ex'). unfold view_of. rewrite Gi, Ex.
    exact (look_keeps _ _ _ _ G Ex').
  Qed.
End Reload.

Section Claims.
  Context (cwd : string) (Hcwd : is_abs cwd = true) (fits : list (list R) -> bytes)
    (parse : bytes -> result (arr R * Keywords.header R)) (head : Keywords.header R) (Hback : reads_back fits parse head)
    (iso ant : string -> option Z) (show : Z -> string) (time : option Z)
    (Htime : forall s, dated (disk_reader cwd parse iso ant show s) head time).

  Lemma c139_corrected hist h i v d stem s W (avg : bool) dic :
    reached hist h -> view_of h i = Some v -> 0 < rows (v_data v) -> 0 < cols (v_data v) -> storable (v_data v) ->
    dir_part d -> no_char "/" stem -> stem <> "" -> writable cwd (d ++ stem ++ ".fits") s ->
    let name := d ++ stem ++ ".fits" in
    let m := save_as_fits cwd fits name None (v_data v) in
    exists data, data =a= v_data v /\
      forall dark flat, micropol_from_name W (disk_reader cwd parse iso ant show (after m s)) name avg dic dark flat h = create W data dic dark flat h.
  Proof.
    intros Hr Ev Hrows Hcols Hst Hd Hs Hne (W1 & W2 & W3 & W4) name m.
    destruct (c99_saved_range cwd Hcwd fits d stem None (v_data v) s Hd Hs Hne W1 W2 W3 W4) as (Ok1 & (img & Himg & Eimg) & _ & _).
    { intros lo hi E. discriminate E. }
    fold name m in Eimg. destruct Himg as (I1 & I2 & I3).
    assert (Hsi : storable img) by (intros y x Hy Hx; rewrite I3 by congruence; apply Hst; congruence).
    destruct (name_ok d stem) as (N1 & N2 & N3).
    destruct (load_saved cwd parse iso ant show fits head time (after m s) name avg img Hback (Htime _) ltac:(congruence) ltac:(congruence) Hsi N1 N2 N3 Eimg) as (l & El & Hl).
    exists (l_data l). split.
    { destruct Hl as (L1 & L2 & L3). split; [congruence|]. split; [congruence|]. intros y x Hy Hx. rewrite L3 by assumption.
      apply I3; congruence || lia. }
    intros dark flat. unfold micropol_from_name. destruct (choose_dic dic h) as [d1 h1] eqn:Ec. rewrite El.
    unfold create at 2. rewrite Ec. reflexivity.
  Qed.

  Lemma c139_again hist h i v d stem s W (avg : bool) dic a :
    reached hist h -> view_of h i = Some v -> 0 < rows (v_data v) -> 0 < cols (v_data v) -> storable (v_data v) ->
    dir_part d -> no_char "/" stem -> stem <> "" -> writable cwd (d ++ stem ++ ".fits") s ->
    dic = Some (v_dic v) \/ dic = None /\ v_dic v = last_default hist polarcam_angles ->
    describes (v_dic v) a -> shows_its_data v ->
    let name := d ++ stem ++ ".fits" in
    let m := save_as_fits cwd fits name None (v_data v) in
    outcome m s = Ok tt /\
    exists h' k u, micropol_from_name W (disk_reader cwd parse iso ant show (after m s)) name avg dic None None h = (h', Ok (Some k)) /\
      view_of h k = None /\ view_of h' k = Some u /\ v_data u =a= v_data v /\ same_stokes (v_vector u) (v_vector v) /\ v_dic u = v_dic v /\
      v_height u = v_height v /\ v_width u = v_width v /\ header_fits u /\
      forall j w, view_of h j = Some w -> view_of h' j = Some w.
  Proof.
    intros Hr Ev Hrows Hcols Hst Hd Hs Hne Hw Hdic Ha Hv name m.
    assert (Ech : match dic with Some x => x | None => last_default hist polarcam_angles end = v_dic v).
    { destruct Hdic as [-> | (-> & E)]; [reflexivity|symmetry; exact E]. }
    destruct (reload cwd Hcwd fits parse head Hback iso ant show time Htime hist h i v d stem s W avg dic a Hr Ev Hrows Hcols Hst Hd Hs Hne Hw)
      as (Ho & h' & k & u & E & K0 & K & Hdat & Hdc & Hfit & Hsh & Hh & Hwd & _ & _ & _ & _ & _ & Hoth); [rewrite Ech; exact Ha|].
    split; [exact Ho|]. exists h', k, u. rewrite Ech in Hdc.
    assert (Hi : (i < length (images h))%nat).
    { apply view_inv in Ev. destruct Ev as (im & Ei & _). exact (lt_nth_error _ _ _ Ei). }
    destruct (c55_views hist h i Hr Hi) as (v' & Ev' & _ & S1 & S2). rewrite Ev in Ev'. injection Ev' as <-.
    split; [exact E|]. split; [exact K0|]. split; [exact K|]. split; [exact Hdat|]. split.
    { apply (equal_data_vectors u v a); try assumption. rewrite Hdc. exact Ha. }
    split; [exact Hdc|]. split; [congruence|]. split; [congruence|]. split; [exact Hfit|exact Hoth].
  Qed.

  Lemma shows_by_copy u v : shows_its_data u -> v_data u =a= v_data v -> v_dic u = v_dic v -> same_stokes (v_vector u) (v_vector v) ->
    mosaic (v_data v) -> shows_its_data v.
  Proof.
    intros (Mu & Su) Hd Hdic (SI & SQ & SU) Mv. split; [exact Mv|]. intros a Ha. cbv zeta. rewrite <- Hdic in Ha. specialize (Su a Ha). cbv zeta in Su.
    destruct SI as (I1 & I2 & I3). destruct SQ as (Q1 & Q2 & Q3). destruct SU as (U1 & U2 & U3).
    destruct Su as ((A1 & A2) & (A3 & A4) & (A5 & A6) & A). pose proof Hd as (E1 & E2 & E3). rewrite E1 in A1, A3, A5. rewrite E2 in A2, A4, A6. rewrite E1, E2 in A.
    assert (Hk : 0 <= p0 a < 4 /\ 0 <= p45 a < 4 /\ 0 <= pm45 a < 4 /\ 0 <= p90 a < 4) by (destruct Ha as ((? & ? & ? & ? & _) & _); lia).
    split; [split; congruence|]. split; [split; congruence|]. split; [split; congruence|]. intros Y X HY HX.
    rewrite <- I3, <- Q3, <- U3 by congruence. destruct (A Y X HY HX) as (-> & -> & ->).
    rewrite !(sample_aeq (v_data u) (v_data v)) by (assumption || lia). auto.
  Qed.

  Lemma c139_lost hist h i v d stem s W (avg : bool) a :
    reached hist h -> view_of h i = Some v -> 0 < rows (v_data v) -> 0 < cols (v_data v) -> storable (v_data v) ->
    dir_part d -> no_char "/" stem -> stem <> "" -> writable cwd (d ++ stem ++ ".fits") s ->
    describes (v_dic v) a -> ~ shows_its_data v ->
    let name := d ++ stem ++ ".fits" in
    let m := save_as_fits cwd fits name None (v_data v) in
    outcome m s = Ok tt /\
    exists h' k u, micropol_from_name W (disk_reader cwd parse iso ant show (after m s)) name avg (Some (v_dic v)) None None h = (h', Ok (Some k)) /\
      view_of h' k = Some u /\ v_data u =a= v_data v /\ ~ same_stokes (v_vector u) (v_vector v).
  Proof.
    intros Hr Ev Hrows Hcols Hst Hd Hs Hne Hw Ha Hv name m.
    destruct (reload cwd Hcwd fits parse head Hback iso ant show time Htime hist h i v d stem s W avg (Some (v_dic v)) a Hr Ev Hrows Hcols Hst Hd Hs Hne Hw Ha)
      as (Ho & h' & k & u & E & _ & K & Hdat & Hdc & _ & Hsh & _).
    split; [exact Ho|]. exists h', k, u. split; [exact E|]. split; [exact K|]. split; [exact Hdat|]. intros C. apply Hv.
    assert (Hi : (i < length (images h))%nat).
    { apply view_inv in Ev. destruct Ev as (im & Ei & _). exact (lt_nth_error _ _ _ Ei). }
    destruct (c55_views hist h i Hr Hi) as (v' & Ev' & Mv & _). rewrite Ev in Ev'. injection Ev' as <-.
    exact (shows_by_copy u v Hsh Hdat Hdc C Mv).
  Qed.

  Lemma c139_forgotten hist h i v d stem s W (avg : bool) dic a :
    reached hist h -> view_of h i = Some v -> 0 < rows (v_data v) -> 0 < cols (v_data v) -> storable (v_data v) ->
    dir_part d -> no_char "/" stem -> stem <> "" -> writable cwd (d ++ stem ++ ".fits") s ->
    describes (match dic with Some x => x | None => last_default hist polarcam_angles end) a ->
    let name := d ++ stem ++ ".fits" in
    let m := save_as_fits cwd fits name None (v_data v) in
    exists h' k u, micropol_from_name W (disk_reader cwd parse iso ant show (after m s)) name avg dic None None h = (h', Ok (Some k)) /\
      view_of h' k = Some u /\ v_quad u = None /\
      v_demosaiced u = false /\ v_demodulated u = false /\ v_dark u = false /\ v_flat u = false.
  Proof.
    intros Hr Ev Hrows Hcols Hst Hd Hs Hne Hw Ha name m.
    destruct (reload cwd Hcwd fits parse head Hback iso ant show time Htime hist h i v d stem s W avg dic a Hr Ev Hrows Hcols Hst Hd Hs Hne Hw Ha)
      as (_ & h' & k & u & E & _ & K & _ & _ & _ & _ & _ & _ & F0 & F1 & F2 & F3 & F4 & _).
    exists h', k, u. auto 10.
  Qed.

  (** The default dictionary has 0 and 90 degrees the other way round. *)
  Lemma c139_angles hist h i v d stem s W (avg : bool) a :
    reached hist h -> view_of h i = Some v -> 0 < rows (v_data v) -> 0 < cols (v_data v) -> storable (v_data v) ->
    dir_part d -> no_char "/" stem -> stem <> "" -> writable cwd (d ++ stem ++ ".fits") s ->
    describes (v_dic v) a -> shows_its_data v ->
    describes (last_default hist polarcam_angles) (mkarrangement (p90 a) (p45 a) (pm45 a) (p0 a)) ->
    let name := d ++ stem ++ ".fits" in
    let m := save_as_fits cwd fits name None (v_data v) in
    exists h' k u, micropol_from_name W (disk_reader cwd parse iso ant show (after m s)) name avg None None None h = (h', Ok (Some k)) /\
      view_of h' k = Some u /\ v_data u =a= v_data v /\
      forall Y X, 0 <= Y < rows (v_data v) / 2 -> 0 <= X < cols (v_data v) / 2 ->
        cell (sQ (v_vector u)) Y X = (- cell (sQ (v_vector v)) Y X)%R.
  Proof.
    intros Hr Ev Hrows Hcols Hst Hd Hs Hne Hw Ha (Mv & Sv) Hl name m.
    destruct (reload cwd Hcwd fits parse head Hback iso ant show time Htime hist h i v d stem s W avg None _ Hr Ev Hrows Hcols Hst Hd Hs Hne Hw Hl)
      as (Ho & h' & k & u & E & _ & K & Hdat & Hdc & _ & (Mu & Su) & _).
    exists h', k, u. split; [exact E|]. split; [exact K|]. split; [exact Hdat|]. intros Y X HY HX.
    rewrite <- Hdc in Hl. specialize (Su _ Hl). specialize (Sv a Ha). cbv zeta in Su, Sv. cbn [p0 p45 pm45 p90] in Su.
    destruct Su as (_ & _ & _ & A). destruct Sv as (_ & _ & _ & B). pose proof Hdat as (E1 & E2 & _). rewrite E1, E2 in A.
    destruct (A Y X HY HX) as (_ & -> & _). destruct (B Y X HY HX) as (_ & -> & _).
    assert (Hk : 0 <= p0 a < 4 /\ 0 <= p90 a < 4) by (destruct Ha as ((? & ? & ? & ? & _) & _); lia).
    rewrite !(sample_aeq (v_data u) (v_data v)) by (assumption || lia). lra.
  Qed.

  (** Nothing is there. *)
  Lemma c139_absent s name W (avg : bool) dic dark flat h : name <> ".raw" -> s (key cwd name) = None ->
    exists h', micropol_from_name W (disk_reader cwd parse iso ant show s) name avg dic dark flat h = (h', Raise FileNotFoundError) /\
      images h' = images h /\ forall j, view_of h' j = view_of h j.
  Proof using cwd parse iso ant show.
    intros N Es. unfold micropol_from_name. destruct (choose_dic dic h) as [d1 h1] eqn:Ec.
    assert (E : image_from_name (disk_reader cwd parse iso ant show s) name avg = Raise FileNotFoundError).
    { unfold image_from_name, combine_files. rewrite raw_no by (intros [X|[]]; congruence).
      unfold disk_reader at 1. unfold fits_open, read_file. rewrite Es. reflexivity. }
    rewrite E. exists h1. split; [reflexivity|]. unfold choose_dic in Ec. destruct dic; [injection Ec as _ <-; auto|].
    destruct (default_angles h); injection Ec as _ <-; auto.
  Qed.
End Claims.

(** A format that keeps binary64 numbers: sizes, then the pixels in units of 2^-1074. *)
Definition grid_write (l : list (list R)) : bytes :=
  Z.of_nat (length l) :: Z.of_nat (length (hd [] l)) :: map (fun v => Int_part (v * 2 ^ 1074)) (concat l).
Definition grid_read (b : bytes) : result (arr R * Keywords.header R) :=
  match b with
  | r :: c :: l => Ok (of_list 0%R r c (map (fun z => IZR z / 2 ^ 1074)%R l), [])
  | _ => Raise OSError
  end.

Lemma grid_exact m e : -1074 <= e -> (IZR (Int_part (IZR m * powerRZ 2 e * 2 ^ 1074)) / 2 ^ 1074 = IZR m * powerRZ 2 e)%R.
Proof.
  intros He. assert (P : (2 ^ 1074 <> 0)%R) by (apply pow_nonzero; lra).
  assert (E : (IZR m * powerRZ 2 e * 2 ^ 1074)%R = IZR (m * 2 ^ (e + 1074))).
  { rewrite mult_IZR, Rmult_assoc. f_equal. rewrite pow_powerRZ, <- powerRZ_add by lra.
    replace (e + Z.of_nat 1074) with (Z.of_nat (Z.to_nat (e + 1074))) by lia.
    rewrite <- pow_powerRZ. rewrite <- (Z2Nat.id (e + 1074)) at 2 by lia. rewrite <- pow_IZR. reflexivity. }
  rewrite E. assert (F : Int_part (IZR (m * 2 ^ (e + 1074))) = m * 2 ^ (e + 1074)).
  { unfold Int_part. rewrite <- (tech_up (IZR (m * 2 ^ (e + 1074))) (m * 2 ^ (e + 1074) + 1)) by (rewrite plus_IZR; lra). lia. }
  rewrite F, <- E. field.
Qed.

Lemma grid_back : reads_back grid_write grid_read [].
Proof.
  intros a Hr Hc Hs. unfold grid_write, grid_read. eexists. split; [reflexivity|].
  assert (L1 : Z.of_nat (length (to_list a)) = rows a) by (unfold to_list; rewrite map_length, length_zrange; lia).
  assert (L2 : Z.of_nat (length (hd [] (to_list a))) = cols a).
  { unfold to_list. replace (rows a) with (Z.of_nat (Z.to_nat (rows a - 1)) + 1) by lia.
    assert (E : exists l, zrange (Z.of_nat (Z.to_nat (rows a - 1)) + 1) = 0 :: l).
    { generalize (Z.to_nat (rows a - 1)). induction n as [|n (l & IH)]; [exists []; reflexivity|].
      rewrite Nat2Z.inj_succ. rewrite zrange_succ by lia. replace (Z.succ (Z.of_nat n)) with (Z.of_nat n + 1) by lia. rewrite IH. eexists. reflexivity. }
    destruct E as (l & ->). cbn [map hd]. rewrite map_length, length_zrange. lia. }
  rewrite L1, L2. split; [reflexivity|]. split; [reflexivity|]. cbn [rows cols of_list cell]. intros y x Hy Hx.
  rewrite <- (Z2Nat.id y) at 1 by lia. rewrite <- (Z2Nat.id x) at 1 by lia. rewrite <- (Z2Nat.id (cols a)) at 1 by lia.
  rewrite <- Nat2Z.inj_mul, <- Nat2Z.inj_add, Nat2Z.id.
  rewrite map_map. apply nth_error_nth. rewrite nth_error_map.
  assert (N : nth_error (concat (to_list a)) (Z.to_nat y * Z.to_nat (cols a) + Z.to_nat x) = Some (cell a y x)).
  { assert (Fl : Forall (fun l => length l = Z.to_nat (cols a)) (to_list a)).
    { unfold to_list. apply Forall_map, Forall_forall. intros z _. rewrite map_length, length_zrange. reflexivity. }
    assert (Ll : length (to_list a) = Z.to_nat (rows a)) by lia.
    rewrite (nth_error_nth' _ 0%R).
    2:{ rewrite (BinaryFacts.length_concat_const _ _ Fl), Ll.
        apply Nat.lt_le_trans with ((Z.to_nat y + 1) * Z.to_nat (cols a))%nat; [lia|]. apply Nat.mul_le_mono_r. lia. }
    f_equal. rewrite (RawFacts.nth_concat_const 0%R _ _ _ _ Fl) by lia.
    unfold to_list. rewrite (nth_indep _ [] (map (fun x => cell a 0 x) (zrange (cols a)))) by (rewrite map_length, length_zrange; lia).
    rewrite (map_nth (fun y => map (fun x => cell a y x) (zrange (cols a)))).
    rewrite (nth_indep _ 0%R (cell a (nth (Z.to_nat y) (zrange (rows a)) 0) 0)) by (rewrite map_length, length_zrange; lia).
    rewrite (map_nth (fun x => cell a _ x)), !RawFacts.zrange_nth by lia. rewrite !Z2Nat.id by lia. reflexivity. }
  rewrite N. cbn [option_map]. f_equal. destruct (Hs y x Hy Hx) as (m & e & _ & He & ->). apply grid_exact. lia.
Qed.
