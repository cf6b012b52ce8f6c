(** Two steps as one (for C136). *)
From Coq Require Import Reals Lra Lia Floats.SpecFloat.
From Verif Require Import Base.Base Base.BaseFacts Base.Num Base.Bcast Model.Demosaic Model.Shift Model.Utils Model.Roi
  Spec.MosaicSpec Spec.SumSpec Proofs.MosaicProps Proofs.StokesProps Proofs.UtilFacts Proofs.RoiFacts.

(** ** Shifts *)
Lemma c136_shift {A} (d : arr A) y x y' x' m : 0 <= y * y' -> 0 <= x * x' ->
  exists r r' s, shift d y x m = Ok r /\ shift r y' x' m = Ok r' /\ shift d (y + y') (x + x') m = Ok s /\ r' =a= s.
Proof.
  intros Hy Hx. destruct (c11_shift d y x m) as (r & E & R1 & C1 & V).
  destruct (c11_shift r y' x' m) as (r' & E' & R2 & C2 & V'). destruct (c11_shift d (y + y') (x + x') m) as (s & Es & R3 & C3 & W).
  exists r, r', s. split; [exact E|]. split; [exact E'|]. split; [exact Es|]. split; [congruence|]. split; [congruence|].
  intros j i Hj Hi. rewrite R2, R1 in Hj. rewrite C2, C1 in Hi. rewrite R1, C1 in V'.
  destruct (V' j i Hj Hi) as [A1 A2]. destruct (W j i Hj Hi) as [B1 B2].
  assert (Y : 0 <= y /\ 0 <= y' \/ y <= 0 /\ y' <= 0) by nia. assert (X : 0 <= x /\ 0 <= x' \/ x <= 0 /\ x' <= 0) by nia.
  assert (D : (0 <= j - (y + y') < rows d /\ 0 <= i - (x + x') < cols d) \/ ~ (0 <= j - (y + y') < rows d /\ 0 <= i - (x + x') < cols d)) by lia.
  destruct D as [D|D].
  - rewrite B1, A1 by (lia || exact D). destruct (V (j - y') (i - x') ltac:(lia) ltac:(lia)) as [V1 _]. rewrite V1 by lia. f_equal; lia.
  - rewrite (B2 D). assert (D' : (0 <= j - y' < rows d /\ 0 <= i - x' < cols d) \/ ~ (0 <= j - y' < rows d /\ 0 <= i - x' < cols d)) by lia.
    destruct D' as [D'|D']; [|exact (A2 D')]. rewrite (A1 D'). destruct (V (j - y') (i - x') ltac:(lia) ltac:(lia)) as [_ V2]. apply V2. lia.
Qed.

Lemma c136_shift_back {A} (d : arr A) y m i : 0 < y <= rows d -> 0 <= i < cols d ->
  exists r r', shift d y 0 m = Ok r /\ shift r (- y) 0 m = Ok r' /\ cell r' (rows d - 1) i = m.
Proof.
  intros Hy Hi. destruct (c11_shift d y 0 m) as (r & E & R1 & C1 & V).
  destruct (c11_shift r (- y) 0 m) as (r' & E' & R2 & C2 & V'). exists r, r'. split; [exact E|]. split; [exact E'|].
  rewrite R1, C1 in V'. destruct (V' (rows d - 1) i ltac:(lia) ltac:(lia)) as [_ A2]. apply A2. lia.
Qed.

Lemma shift_aeq {A} (d d' : arr A) y x m r : d =a= d' -> shift d y x m = Ok r -> exists r', shift d' y x m = Ok r' /\ r =a= r'.
Proof.
  intros (Er & Ec & V) E. destruct (c11_shift d y x m) as (s & Es & R1 & C1 & W). rewrite E in Es. injection Es as <-.
  destruct (c11_shift d' y x m) as (s' & Es' & R2 & C2 & W'). exists s'. split; [exact Es'|].
  split; [congruence|]. split; [congruence|]. intros j i Hj Hi. rewrite R1 in Hj. rewrite C1 in Hi.
  destruct (W j i Hj Hi) as [A1 A2]. rewrite <- Er, <- Ec in W'. destruct (W' j i Hj Hi) as [B1 B2].
  assert (D : (0 <= j - y < rows d /\ 0 <= i - x < cols d) \/ ~ (0 <= j - y < rows d /\ 0 <= i - x < cols d)) by lia.
  destruct D as [D|D]; [rewrite (A1 D), (B1 D); apply V; lia|rewrite (A2 D), (B2 D); reflexivity].
Qed.

Lemma c136_shift_micropol {A} `{Num A} (d : arr A) y x y' x' m : mosaic d -> 0 <= y * y' -> 0 <= x * x' ->
  exists r r' s, shift_micropol d y x m = Ok r /\ shift_micropol r y' x' m = Ok r' /\ shift_micropol d (y + y') (x + x') m = Ok s /\ r' =a= s.
Proof.
  intros Hm Hy Hx. destruct (c12_shift_micropol d y x m Hm) as (r & E & r0 & E0 & A0).
  assert (Hr : mosaic r).
  { destruct A0 as (Er & Ec & _). destruct (c11_shift d (2 * y) (2 * x) m) as (t & Et & Rt & Ct & _). rewrite E0 in Et. injection Et as <-.
    destruct Hm as (M1 & M2 & M3 & M4). unfold mosaic. rewrite Er, Ec, Rt, Ct. auto. }
  destruct (c12_shift_micropol r y' x' m Hr) as (r' & E' & r1 & E1 & A1).
  destruct (c12_shift_micropol d (y + y') (x + x') m Hm) as (s & Es & s0 & Es0 & As).
  exists r, r', s. split; [exact E|]. split; [exact E'|]. split; [exact Es|].
  destruct (c136_shift d (2 * y) (2 * x) (2 * y') (2 * x') m ltac:(nia) ltac:(nia)) as (t & t' & u & T1 & T2 & T3 & T4).
  rewrite E0 in T1. injection T1 as <-.
  replace (2 * y + 2 * y') with (2 * (y + y')) in T3 by ring. replace (2 * x + 2 * x') with (2 * (x + x')) in T3 by ring.
  rewrite Es0 in T3. injection T3 as <-.
  destruct (shift_aeq r r0 _ _ _ _ A0 E1) as (t'' & T5 & A5). rewrite T2 in T5. injection T5 as <-.
  apply (aeq_trans _ _ _ A1). apply (aeq_trans _ _ _ A5). apply (aeq_trans _ _ _ T4). apply aeq_sym, As.
Qed.

(** ** Dark images *)
Lemma dark_R (d a : arr R) : same_shape d a ->
  exists r, dark_data d a = Ok r /\ rows r = rows d /\ cols r = cols d /\
    forall y x, 0 <= y < rows d -> 0 <= x < cols d -> cell r y x = Rmax (cell d y x - cell a y x) 0.
Proof.
  intros Hs. unfold dark_data, dark_data_with. destruct (UtilFacts.bmap2_same (@nsub R _) d a Hs) as (c & E & R1 & C1 & V).
  rewrite E. cbn [bind]. eexists. split; [reflexivity|]. cbn [amap rows cols cell]. split; [exact R1|]. split; [exact C1|].
  intros y x Hy Hx. rewrite V by assumption. cbn [nsub nleb n0 nofZ Num_R].
  destruct (nleb n0 (cell d y x - cell a y x)%R) eqn:L; cbn [nleb n0 nofZ Num_R] in L |- *; unfold Rleb in L |- *;
  destruct (Rle_dec _ _) as [Q|Q]; try discriminate L; [rewrite Rmax_left; [reflexivity|lra]|rewrite Rmax_right; [reflexivity|lra]].
Qed.

Lemma c136_dark (d a b : arr R) : same_shape d a -> same_shape d b ->
  (forall y x, 0 <= y < rows d -> 0 <= x < cols d -> (0 <= cell b y x)%R) ->
  exists r r' s, dark_data d a = Ok r /\ dark_data r b = Ok r' /\ dark_data d (amap2 Rplus a b) = Ok s /\ r' =a= s.
Proof.
  intros [Sr Sc] [Tr Tc] Hb. destruct (dark_R d a ltac:(split; assumption)) as (r & E & R1 & C1 & V).
  destruct (dark_R r b ltac:(split; congruence)) as (r' & E' & R2 & C2 & V').
  destruct (dark_R d (amap2 Rplus a b)) as (s & Es & R3 & C3 & W). { split; cbn [amap2 rows cols]; assumption. }
  exists r, r', s. split; [exact E|]. split; [exact E'|]. split; [exact Es|]. split; [congruence|]. split; [congruence|].
  intros y x Hy Hx. rewrite R2, R1 in Hy. rewrite C2, C1 in Hx. rewrite V' by (rewrite ?R1, ?C1; assumption).
  rewrite V, W by assumption. cbn [amap2 cell]. specialize (Hb y x Hy Hx).
  unfold Rmax. repeat destruct (Rle_dec _ _); lra.
Qed.

(** ** Flat fields *)
Lemma flat_R junk (d f : arr R) : same_shape d f -> (0 < amean f)%R ->
  (forall y x, 0 <= y < rows d -> 0 <= x < cols d -> (0 < cell f y x)%R) ->
  exists r, flat_data junk d f = Ok r /\ rows r = rows d /\ cols r = cols d /\
    forall y x, 0 <= y < rows d -> 0 <= x < cols d -> cell r y x = (cell d y x * amean f / cell f y x)%R.
Proof.
  intros [Sr Sc] Hm Hf. unfold flat_data, divide_where. cbv zeta.
  destruct (UtilFacts.bmap2_same (fun u v : R => (u, v)) d (amap (fun v => (v / amean f)%R) f)) as (c & E & R1 & C1 & V).
  { split; assumption. }
  rewrite E. cbn [bind]. eexists. split; [reflexivity|]. cbn [rows cols cell]. split; [exact R1|]. split; [exact C1|].
  intros y x Hy Hx. rewrite V by assumption. cbn [amap cell]. specialize (Hf y x Hy Hx).
  assert (N : (cell f y x / amean f <> 0)%R).
  { pose proof (Rdiv_lt_0_compat _ _ Hf Hm). lra. }
  cbn [neqb ndiv n0 nofZ Num_R]. unfold Reqb. destruct (Req_EM_T _ _) as [Q|Q]; [exfalso; apply N; exact Q|]. cbn [negb].
  field. split; lra.
Qed.

Lemma c136_flat junk junk' junk'' (d f g : arr R) : same_shape d f -> same_shape d g ->
  (0 < amean f)%R -> (0 < amean g)%R -> (0 < amean (amap2 Rmult f g))%R ->
  (forall y x, 0 <= y < rows d -> 0 <= x < cols d -> (0 < cell f y x /\ 0 < cell g y x)%R) ->
  exists r r' s, flat_data junk d f = Ok r /\ flat_data junk' r g = Ok r' /\ flat_data junk'' d (amap2 Rmult f g) = Ok s /\
    same_shape r' s /\
    forall y x, 0 <= y < rows d -> 0 <= x < cols d ->
      cell r' y x = (amean f * amean g / amean (amap2 Rmult f g) * cell s y x)%R.
Proof.
  intros [Sr Sc] [Tr Tc] M1 M2 M3 Hp.
  destruct (flat_R junk d f ltac:(split; assumption) M1) as (r & E & R1 & C1 & V). { intros y x Hy Hx. apply Hp; assumption. }
  destruct (flat_R junk' r g ltac:(split; congruence) M2) as (r' & E' & R2 & C2 & V').
  { intros y x Hy Hx. rewrite R1 in Hy. rewrite C1 in Hx. apply Hp; assumption. }
  destruct (flat_R junk'' d (amap2 Rmult f g)) as (s & Es & R3 & C3 & W); [split; assumption|exact M3| |].
  { intros y x Hy Hx. cbn [amap2 cell]. destruct (Hp y x Hy Hx). apply Rmult_lt_0_compat; assumption. }
  exists r, r', s. split; [exact E|]. split; [exact E'|]. split; [exact Es|]. split; [split; congruence|].
  intros y x Hy Hx. rewrite V' by (rewrite ?R1, ?C1; assumption). rewrite V, W by assumption. cbn [amap2 cell].
  destruct (Hp y x Hy Hx). set (k := amean (amap2 Rmult f g)) in *. field. lra.
Qed.

(** ** Clamps *)
Lemma ltb64_irrefl (v : b64) : nltb v v = false.
Proof.
  destruct v as [s|s| |s m e]; try (destruct s; reflexivity); [reflexivity|]. cbn [nltb Num_b64]. unfold SFltb, SFcompare.
  rewrite Z.compare_refl, Pos.compare_cont_refl. destruct s; reflexivity.
Qed.

Lemma fix_twice {A} `{Num A} (d : arr A) lo hi : nltb lo hi = true -> nltb lo lo = false -> nltb hi hi = false ->
  fix_data (fix_data d (Some lo) (Some hi)) (Some lo) (Some hi) =a= fix_data d (Some lo) (Some hi).
Proof.
  intros L I1 I2. unfold fix_data. destruct (truthy (Some lo) && truthy (Some hi)); cbn [negb]; [|apply aeq_refl].
  split; [reflexivity|]. split; [reflexivity|]. intros y x _ _. cbn [amap cell].
  destruct (nltb lo (cell d y x)) eqn:E1.
  - destruct (nltb (cell d y x) hi) eqn:E2; [rewrite E1, E2; reflexivity|rewrite L, I2; reflexivity].
  - rewrite L. rewrite I1, L. reflexivity.
Qed.

Lemma c136_clamp :
  (forall (d : arr R) lo hi, (lo < hi)%R -> fix_data (fix_data d (Some lo) (Some hi)) (Some lo) (Some hi) =a= fix_data d (Some lo) (Some hi)) /\
  (forall (d : arr b64) lo hi, nltb lo hi = true -> fix_data (fix_data d (Some lo) (Some hi)) (Some lo) (Some hi) =a= fix_data d (Some lo) (Some hi)).
Proof.
  split; intros d lo hi L; apply fix_twice; try apply ltb64_irrefl; try exact L;
    cbn [nltb Num_R]; unfold Rltb; destruct (Rlt_dec _ _); try reflexivity; exfalso; lra.
Qed.

(** ** Regions *)
Lemma roi_cells {A} (d : arr A) center rho theta fill incl b : wf d -> (incl = true -> mosaic d) ->
  roi_boolean d center rho theta incl = Ok b ->
  exists r, roi_from_polar d center rho theta fill incl = Ok r /\ rows r = rows d /\ cols r = cols d /\
    forall y x, 0 <= y < rows d -> 0 <= x < cols d -> cell r y x = if cell b y x then cell d y x else fill.
Proof.
  intros Hw Hm E. unfold roi_boolean in E. unfold roi_from_polar. rewrite E. cbn [bind].
  assert (S : same_shape b d).
  { unfold roi_condition, roi_condition_from in E. destruct theta as [t1 t2]. destruct rho as [[r1 r2]|]; [|discriminate E].
    destruct (match center with None => _ | Some c => c end) as [yc xc].
    destruct incl.
    - destruct (Hm eq_refl) as (M1 & M2 & M3 & M4). cbv zeta beta iota in E. unfold map_polar_coordinates in E. injection E as <-.
      split; cbn [repeat2 amap2 amap rows cols]; rewrite Z.quot_div_nonneg by lia; Z.to_euclidean_division_equations; lia.
    - cbv zeta beta iota in E. unfold map_polar_coordinates in E. injection E as <-. split; reflexivity. }
  destruct (where_fill_same b d fill S) as (out & Eo & Ro & Co & Vo). exists out. auto.
Qed.

Lemma roi_shape {A} (d d' : arr A) center rho theta incl : rows d = rows d' -> cols d = cols d' ->
  roi_boolean d center rho theta incl = roi_boolean d' center rho theta incl.
Proof. intros Hr Hc. unfold roi_boolean, roi_condition, roi_condition_from. rewrite Hr, Hc. reflexivity. Qed.

Lemma c136_regions {A} (d : arr A) center rho theta incl b center' rho' theta' incl' b' fill :
  wf d -> (incl = true \/ incl' = true -> mosaic d) ->
  roi_boolean d center rho theta incl = Ok b -> roi_boolean d center' rho' theta' incl' = Ok b' ->
  exists r r' s s', roi_from_polar d center rho theta fill incl = Ok r /\ roi_from_polar r center' rho' theta' fill incl' = Ok r' /\
    roi_from_polar d center' rho' theta' fill incl' = Ok s /\ roi_from_polar s center rho theta fill incl = Ok s' /\ r' =a= s' /\
    forall y x, 0 <= y < rows d -> 0 <= x < cols d -> cell r' y x = if cell b y x && cell b' y x then cell d y x else fill.
Proof.
  intros Hw Hm E E'.
  destruct (roi_cells d center rho theta fill incl b Hw ltac:(auto) E) as (r & Er & R1 & C1 & V1).
  destruct (roi_cells d center' rho' theta' fill incl' b' Hw ltac:(auto) E') as (s & Es & R2 & C2 & V2).
  assert (M : forall t : arr A, rows t = rows d -> cols t = cols d -> mosaic d -> mosaic t).
  { intros t Rt Ct. unfold mosaic. rewrite Rt, Ct. auto. }
  assert (Wf : forall t : arr A, rows t = rows d -> cols t = cols d -> wf t). { intros t Rt Ct. unfold wf. rewrite Rt, Ct. exact Hw. }
  destruct (roi_cells r center' rho' theta' fill incl' b' (Wf r R1 C1) ltac:(auto)) as (r' & Er' & R3 & C3 & V3).
  { rewrite <- E'. apply roi_shape; assumption. }
  destruct (roi_cells s center rho theta fill incl b (Wf s R2 C2) ltac:(auto)) as (s' & Es' & R4 & C4 & V4).
  { rewrite <- E. apply roi_shape; assumption. }
  exists r, r', s, s'. split; [exact Er|]. split; [exact Er'|]. split; [exact Es|]. split; [exact Es'|].
  assert (K : forall y x, 0 <= y < rows d -> 0 <= x < cols d -> cell r' y x = if cell b y x && cell b' y x then cell d y x else fill).
  { intros y x Hy Hx. rewrite V3, V1 by (rewrite ?R1, ?C1; assumption). destruct (cell b' y x), (cell b y x); reflexivity. }
  split; [|exact K]. split; [congruence|]. split; [congruence|]. intros y x Hy Hx. rewrite R3, R1 in Hy. rewrite C3, C1 in Hx.
  rewrite (K y x Hy Hx), V4, V2 by (rewrite ?R2, ?C2; assumption). destruct (cell b' y x), (cell b y x); reflexivity.
Qed.

Lemma c136_mask_twice {A} (d : arr A) center rho theta incl fill r : wf d -> (incl = true -> mosaic d) ->
  roi_from_polar d center rho theta fill incl = Ok r ->
  exists r', roi_from_polar r center rho theta fill incl = Ok r' /\ r' =a= r.
Proof.
  intros Hw Hm E.
  assert (B : exists b, roi_boolean d center rho theta incl = Ok b).
  { unfold roi_from_polar in E. unfold roi_boolean. destruct (roi_condition d center rho theta incl) as [b|e|]; [exists b; reflexivity|discriminate E|discriminate E]. }
  destruct B as [b Eb].
  destruct (c136_regions d center rho theta incl b center rho theta incl b fill Hw ltac:(tauto) Eb Eb) as (r1 & r2 & _ & _ & E1 & E2 & _ & _ & _ & V).
  rewrite E in E1. injection E1 as <-. exists r2. split; [exact E2|].
  destruct (roi_cells d center rho theta fill incl b Hw Hm Eb) as (t & Et & R1 & C1 & V1). rewrite E in Et. injection Et as <-.
  destruct (roi_cells r center rho theta fill incl b) as (t' & Et' & R2 & C2 & _).
  { unfold wf. rewrite R1, C1. exact Hw. } { intros Hi. unfold mosaic. rewrite R1, C1. exact (Hm Hi). } { rewrite <- Eb. apply roi_shape; assumption. }
  rewrite E2 in Et'. injection Et' as <-. split; [exact R2|]. split; [exact C2|]. intros y x Hy Hx. rewrite R2, R1 in Hy. rewrite C2, C1 in Hx.
  rewrite V, V1 by assumption. destruct (cell b y x); reflexivity.
Qed.
