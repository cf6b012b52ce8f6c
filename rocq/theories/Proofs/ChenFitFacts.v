(** Proofs for C84 and C85. *)
From Coq Require Import Reals Lra Lia.
From Verif Require Import Base.Base Base.BaseFacts Base.Num Base.Bcast Model.Pol Model.Codec Model.Roi Model.ChenFit
  Spec.SumSpec Spec.ChenFitSpec Proofs.SumFacts Proofs.NrgfFacts.
Local Open Scope R_scope.

(** ** Pseudo-inverses of matrices of rank one *)
Lemma rsum_scal_r n c f : rsum n (fun i => f i * c) = rsum n f * c.
Proof. rewrite Rmult_comm, <- rsum_scal. apply rsum_ext. intros; ring. Qed.

Lemma squares_zero n f : rsum n (fun i => f i * f i) = 0 -> forall i, (0 <= i < n)%Z -> f i = 0.
Proof.
  intros Hs i Hi. destruct (Req_dec (f i) 0) as [E|E]; [exact E|exfalso].
  assert (0 < rsum n (fun i => f i * f i)); [|lra].
  apply (rsum_pos n _ i); [intros; nra|exact Hi|].
  destruct (Rtotal_order (f i) 0) as [L|[L|L]]; [nra|contradiction|nra].
Qed.

Section RankOne.
  Variables (m n : Z) (a x : Z -> Z -> R) (u v : Z -> R).
  Hypothesis Ha : same m n a (fun i j => u i * v j).
  Hypothesis Hx : pseudo_inverse m n a x.

  Let uu := rsum m (fun i => u i * u i).
  Let vv := rsum n (fun j => v j * v j).
  Let w i := rsum m (fun k => x i k * u k).
  Let z j := rsum n (fun k => v k * x k j).

  Lemma xa i j : (0 <= i < n)%Z -> (0 <= j < n)%Z -> product m x a i j = w i * v j.
  Proof.
    intros Hi Hj. unfold product, w. rewrite <- rsum_scal_r. apply rsum_ext. intros k Hk.
    rewrite (Ha k j) by assumption. ring.
  Qed.
  Lemma ax i j : (0 <= i < m)%Z -> (0 <= j < m)%Z -> product n a x i j = u i * z j.
  Proof.
    intros Hi Hj. unfold product, z. rewrite <- rsum_scal. apply rsum_ext. intros k Hk.
    rewrite (Ha i k) by assumption. ring.
  Qed.
  Lemma axa i j : (0 <= i < m)%Z -> (0 <= j < n)%Z -> u i * rsum m (fun k => z k * u k) * v j = u i * v j.
  Proof.
    intros Hi Hj. destruct Hx as [HH _]. specialize (HH i j Hi Hj). rewrite (Ha i j) in HH by assumption.
    rewrite <- HH. unfold product at 1. rewrite <- rsum_scal, <- rsum_scal_r. apply rsum_ext. intros k Hk.
    rewrite ax by assumption. rewrite (Ha k j) by assumption. ring.
  Qed.
  Lemma xax i j : (0 <= i < n)%Z -> (0 <= j < m)%Z -> x i j = w i * z j.
  Proof.
    intros Hi Hj. destruct Hx as [_ [HH _]]. rewrite <- (HH i j Hi Hj). unfold product at 1. unfold z.
    rewrite <- rsum_scal. apply rsum_ext. intros k Hk. rewrite xa by assumption. ring.
  Qed.
  Lemma wz : rsum m (fun k => z k * u k) = rsum n (fun k => v k * w k).
  Proof.
    unfold w, z. transitivity (rsum m (fun k => rsum n (fun l => v l * x l k * u k))).
    - apply rsum_ext. intros k _. now rewrite rsum_scal_r.
    - rewrite rsum_swap. apply rsum_ext. intros l _. rewrite <- rsum_scal. apply rsum_ext. intros; ring.
  Qed.
  Lemma w_dir i : (0 <= i < n)%Z -> w i * vv = v i * rsum n (fun k => v k * w k).
  Proof.
    intros Hi. unfold vv. rewrite <- !rsum_scal. apply rsum_ext. intros k Hk.
    destruct Hx as [_ [_ [_ HH]]]. specialize (HH i k Hi Hk). unfold transposed in HH. rewrite !xa in HH by assumption.
    transitivity (w i * v k * v k); [ring|rewrite HH; ring].
  Qed.
  Lemma z_dir j : (0 <= j < m)%Z -> z j * uu = u j * rsum m (fun k => z k * u k).
  Proof.
    intros Hj. unfold uu. rewrite <- !rsum_scal. apply rsum_ext. intros k Hk.
    destruct Hx as [_ [_ [HH _]]]. specialize (HH j k Hj Hk). unfold transposed in HH. rewrite !ax in HH by assumption.
    transitivity (u k * (u k * z j)); [ring|rewrite <- HH; ring].
  Qed.

  Lemma rank_one_inverse : uu <> 0 -> vv <> 0 ->
    forall i j, (0 <= i < n)%Z -> (0 <= j < m)%Z -> x i j = v i * u j / (uu * vv).
  Proof.
    intros Hu Hv i j Hi Hj.
    assert (E1 : rsum m (fun k => z k * u k) = 1).
    { assert (exists i0, (0 <= i0 < m)%Z /\ u i0 <> 0) as (i0 & Hi0 & Hu0).
      { clear -Hu. unfold uu in Hu. destruct (Z_le_gt_dec m 0) as [L|G]; [rewrite rsum_neg in Hu by assumption; lra|].
        revert Hu. pattern m. apply natlike_ind; [rewrite rsum_0; lra| |lia].
        intros k Hk IH Hs. change (Z.succ k) with (k + 1)%Z in Hs. rewrite rsum_succ in Hs by assumption.
        destruct (Req_dec (u k) 0) as [E|E]; [|exists k; split; [lia|exact E]].
        destruct IH as (i0 & Hi0 & E0); [intro; apply Hs; rewrite E; lra|]. exists i0. split; [lia|exact E0]. }
      assert (exists j0, (0 <= j0 < n)%Z /\ v j0 <> 0) as (j0 & Hj0 & Hv0).
      { clear -Hv. unfold vv in Hv. destruct (Z_le_gt_dec n 0) as [L|G]; [rewrite rsum_neg in Hv by assumption; lra|].
        revert Hv. pattern n. apply natlike_ind; [rewrite rsum_0; lra| |lia].
        intros k Hk IH Hs. change (Z.succ k) with (k + 1)%Z in Hs. rewrite rsum_succ in Hs by assumption.
        destruct (Req_dec (v k) 0) as [E|E]; [|exists k; split; [lia|exact E]].
        destruct IH as (i0 & Hi0 & E0); [intro; apply Hs; rewrite E; lra|]. exists i0. split; [lia|exact E0]. }
      pose proof (axa i0 j0 Hi0 Hj0) as E.
      apply (Rmult_eq_reg_l (u i0 * v j0)); [|apply Rmult_integral_contrapositive; tauto].
      lra. }
    rewrite (xax i j Hi Hj). pose proof (w_dir i Hi) as Ew. pose proof (z_dir j Hj) as Ez.
    rewrite <- wz in Ew. rewrite E1 in Ew, Ez.
    replace (w i) with (v i / vv) by (rewrite <- (Rmult_1_r (v i)), <- Ew; field; assumption).
    replace (z j) with (u j / uu) by (rewrite <- (Rmult_1_r (u j)), <- Ez; field; assumption).
    field. split; assumption.
  Qed.

  Lemma rank_zero_inverse : uu = 0 \/ vv = 0 ->
    forall i j, (0 <= i < n)%Z -> (0 <= j < m)%Z -> x i j = 0.
  Proof.
    intros [Hu|Hv] i j Hi Hj; rewrite (xax i j Hi Hj).
    - replace (w i) with 0; [ring|]. unfold w. symmetry. rewrite <- (rsum_zero m). apply rsum_ext.
      intros k Hk. rewrite (squares_zero m u Hu k Hk). ring.
    - replace (z j) with 0; [ring|]. unfold z. symmetry. rewrite <- (rsum_zero n). apply rsum_ext.
      intros k Hk. rewrite (squares_zero n v Hv k Hk). ring.
  Qed.
End RankOne.

(** A function that inverts matrices of rank one *)
Definition by_transposing (m n : Z) (a : Z -> Z -> R) : option (Z -> Z -> R) :=
  Some (fun i j => a j i / rsum2 m n (fun i j => a i j * a i j)).

Lemma by_transposing_inverts : inverts by_transposing.
Proof.
  intros m n a Hm Hn (u & v & Ha). exists (fun i j => a j i / rsum2 m n (fun i j => a i j * a i j)).
  split; [reflexivity|].
  set (uu := rsum m (fun i => u i * u i)). set (vv := rsum n (fun j => v j * v j)).
  assert (EF : rsum2 m n (fun i j => a i j * a i j) = uu * vv).
  { unfold rsum2, uu. rewrite <- rsum_scal_r. apply rsum_ext. intros i Hi. unfold vv. rewrite <- rsum_scal.
    apply rsum_ext. intros j Hj. rewrite (Ha i j) by assumption. ring. }
  rewrite EF. set (F := uu * vv).
  assert (HX : forall i j, (0 <= i < n)%Z -> (0 <= j < m)%Z -> a j i / F = v i * u j / F)
    by (intros i j Hi Hj; rewrite (Ha j i) by assumption; f_equal; ring).
  assert (P1 : forall i j, (0 <= i < m)%Z -> (0 <= j < m)%Z ->
            product n a (fun i j => a j i / F) i j = u i * u j * (vv / F)).
  { intros i j Hi Hj. unfold product, vv. unfold Rdiv at 2. rewrite <- rsum_scal_r, <- rsum_scal. apply rsum_ext.
    intros k Hk. rewrite (HX k j) by assumption. rewrite (Ha i k) by assumption. unfold Rdiv. ring. }
  assert (P2 : forall i j, (0 <= i < n)%Z -> (0 <= j < n)%Z ->
            product m (fun i j => a j i / F) a i j = v i * v j * (uu / F)).
  { intros i j Hi Hj. unfold product, uu. unfold Rdiv at 2. rewrite <- rsum_scal_r, <- rsum_scal. apply rsum_ext.
    intros k Hk. rewrite (HX i k) by assumption. rewrite (Ha k j) by assumption. unfold Rdiv. ring. }
  assert (HF : F = 0 -> (forall i, (0 <= i < m)%Z -> u i = 0) \/ (forall j, (0 <= j < n)%Z -> v j = 0)).
  { intro E. apply Rmult_integral in E. destruct E as [E|E]; [left|right]; intros i Hi; exact (squares_zero _ _ E i Hi). }
  repeat split.
  - intros i j Hi Hj. unfold product at 1.
    transitivity (rsum m (fun k => u i * v j * (vv / F) * (u k * u k))).
    { apply rsum_ext. intros k Hk. rewrite P1 by assumption. rewrite (Ha k j) by assumption. ring. }
    rewrite rsum_scal. fold uu. rewrite (Ha i j) by assumption.
    destruct (Req_dec F 0) as [E|E]; [destruct (HF E) as [Z|Z]; [rewrite (Z i Hi)|rewrite (Z j Hj)]; ring|].
    unfold F in *. field. split; intro Q; apply E; rewrite Q; ring.
  - intros i j Hi Hj. unfold product at 1.
    transitivity (rsum n (fun k => v i * u j * (uu / F) / F * (v k * v k))).
    { apply rsum_ext. intros k Hk. rewrite P2 by assumption. rewrite (HX k j) by assumption. unfold Rdiv. ring. }
    rewrite rsum_scal. fold vv. rewrite (HX i j) by assumption.
    destruct (Req_dec F 0) as [E|E].
    { destruct (HF E) as [Z|Z]; [rewrite (Z j Hj)|rewrite (Z i Hi)]; unfold Rdiv; ring. }
    unfold F in *. field. split; intro Q; apply E; rewrite Q; ring.
  - intros i j Hi Hj. unfold transposed. rewrite !P1 by assumption. ring.
  - intros i j Hi Hj. unfold transposed. rewrite !P2 by assumption. ring.
Qed.

(** ** One superpixel *)
Lemma mat_sum_rsum n f : mat_sum n f = rsum n f. Proof. reflexivity. Qed.
Lemma rsum1 f : rsum 1 f = f 0%Z. Proof. unfold rsum. change (zrange 1) with [0]%Z. cbn [map fold_right]. ring. Qed.
Lemma rsum3 f : rsum 3 f = f 0%Z + f 1%Z + f 2%Z. Proof. unfold rsum. change (zrange 3) with [0; 1; 2]%Z. cbn [map fold_right]. ring. Qed.
Lemma rsum4 f : rsum 4 f = f 0%Z + f 1%Z + f 2%Z + f 3%Z. Proof. unfold rsum. change (zrange 4) with [0; 1; 2; 3]%Z. cbn [map fold_right]. ring. Qed.

Section One.
  Variable pinv : pinv_fun.
  Hypothesis Hpinv : inverts pinv.
  Variables (ideal : mat) (s : mat) (p : Z -> R).
  Hypothesis Hs3 : s 3%Z 0%Z = 1.

  Let ss := s 0%Z 0%Z * s 0%Z 0%Z + s 1%Z 0%Z * s 1%Z 0%Z + s 2%Z 0%Z * s 2%Z 0%Z.
  Let pp := rsum 4 (fun i => p i * p i).

  (** The matrix is the ideal response to s times the projection on p. *)
  Lemma fit_one_explicit :
    exists c, fit_superpixel pinv ideal s p = Ok c /\
      (forall j, (0 <= j < 4)%Z -> snd c j = p j / (ss + 1)) /\
      (forall k j, (0 <= k < 4)%Z -> (0 <= j < 4)%Z ->
         (ss <> 0 -> pp <> 0 -> fst c k j = rsum 3 (fun l => ideal k l * s l 0%Z) * p j * (ss + 1) / (pp * ss)) /\
         (ss = 0 \/ pp = 0 -> fst c k j = 0)).
  Proof.
    assert (Hss : 0 <= ss) by (unfold ss; nra).
    destruct (Hpinv 4%Z 1%Z s ltac:(lia) ltac:(lia)) as (si & Esi & Psi).
    { exists (fun i => s i 0%Z), (fun _ => 1). intros i j Hi Hj. replace j with 0%Z by lia. ring. }
    assert (Nsi : rsum 4 (fun i => s i 0%Z * s i 0%Z) = ss + 1) by (rewrite rsum4, Hs3; unfold ss; ring).
    assert (Vsi : forall j, (0 <= j < 4)%Z -> si 0%Z j = s j 0%Z / (ss + 1)).
    { intros j Hj.
      rewrite (rank_one_inverse 4%Z 1%Z s si (fun i => s i 0%Z) (fun _ => 1)) with (i := 0%Z) (j := j).
      - rewrite Nsi, rsum1. field. lra.
      - intros i l Hi Hl. replace l with 0%Z by lia. ring.
      - exact Psi.
      - rewrite Nsi. lra.
      - rewrite rsum1. lra.
      - lia.
      - exact Hj. }
    unfold fit_superpixel. rewrite Esi. set (wd := mat_mul 1 (fun i _ => p i) si).
    assert (Vwd : forall i j, (0 <= j < 4)%Z -> wd i j = p i * (s j 0%Z / (ss + 1))).
    { intros i j Hj. unfold wd, mat_mul. rewrite mat_sum_rsum, rsum1, Vsi by assumption. reflexivity. }
    assert (R1 : same 4 3 wd (fun i j => p i * (s j 0%Z / (ss + 1)))) by (intros i j Hi Hj; apply Vwd; lia).
    destruct (Hpinv 4%Z 3%Z wd ltac:(lia) ltac:(lia)) as (wi & Ewi & Pwi); [eexists _, _; exact R1|].
    assert (Nt : rsum 3 (fun j => s j 0%Z / (ss + 1) * (s j 0%Z / (ss + 1))) = ss / ((ss + 1) * (ss + 1)))
      by (rewrite rsum3; unfold ss; field; fold ss; lra).
    cbv zeta. rewrite Ewi. eexists. split; [reflexivity|]. cbn [fst snd]. split; [|intros k j Hk Hj; split].
    - intros j Hj. rewrite Vwd by lia. rewrite Hs3. field. lra.
    - intros Hs Hp. unfold mat_mul. rewrite mat_sum_rsum.
      transitivity (rsum 3 (fun l => ideal k l * s l 0%Z * (p j * (ss + 1) / (pp * ss)))).
      + apply rsum_ext. intros l Hl.
        rewrite (rank_one_inverse 4%Z 3%Z wd wi p (fun j => s j 0%Z / (ss + 1)) R1 Pwi) with (i := l) (j := j);
          try lia; rewrite ?Nt; fold pp.
        * field. repeat split; (assumption || lra).
        * exact Hp.
        * intro Q. apply Hs. apply (Rmult_eq_compat_r ((ss + 1) * (ss + 1))) in Q. rewrite Rmult_0_l in Q. rewrite <- Q. field. lra.
      + rewrite rsum_scal_r. unfold Rdiv. ring.
    - intros Hz. unfold mat_mul. rewrite mat_sum_rsum. rewrite <- (rsum_zero 3). apply rsum_ext. intros l Hl.
      rewrite (rank_zero_inverse 4%Z 3%Z wd wi p (fun j => s j 0%Z / (ss + 1)) R1 Pwi) with (i := l) (j := j); try lia; [ring|].
      rewrite Nt. destruct Hz as [Hz|Hz]; [right; rewrite Hz; field|left; exact Hz].
  Qed.

  Lemma fit_one :
    (pp = 0 -> ss = 0) ->
    exists c, fit_superpixel pinv ideal s p = Ok c /\
      forall k, (0 <= k < 4)%Z -> apply_fit c p k = rsum 3 (fun l => ideal k l * s l 0%Z).
  Proof.
    intro Hz. destruct fit_one_explicit as (c & E & D & M). exists c. split; [exact E|]. intros k Hk.
    assert (Hss : 0 <= ss) by (unfold ss; nra).
    unfold apply_fit. unfold mat in D, M.
    destruct (Req_dec ss 0) as [Z0|Z0].
    - transitivity 0.
      + rewrite <- (rsum_zero 4). apply rsum_ext. intros j Hj. rewrite (proj2 (M k j Hk Hj)) by (left; exact Z0). ring.
      + symmetry. rewrite rsum3. unfold ss in Z0.
        assert (s 0%Z 0%Z = 0 /\ s 1%Z 0%Z = 0 /\ s 2%Z 0%Z = 0) as (-> & -> & ->); [repeat split; nra|ring].
    - assert (Pz : pp <> 0) by tauto.
      transitivity (rsum 4 (fun j => rsum 3 (fun l => ideal k l * s l 0%Z) / pp * (p j * p j))).
      + apply rsum_ext. intros j Hj. rewrite (proj1 (M k j Hk Hj)) by assumption. rewrite D by assumption.
        field. repeat split; (assumption || lra).
      + rewrite rsum_scal. fold pp. field. exact Pz.
  Qed.
End One.

(** ** All images *)
Lemma s_input_last a b c d : s_input a b c d 3%Z 0%Z = 1. Proof. reflexivity. Qed.

Definition vector_of (p : Z -> R) (i0 i45 im45 i90 : Z) : mat := s_input (p i0) (p i45) (p im45) (p i90).

Lemma fit_all_spec pinv ideal i0 i45 im45 i90 ps :
  inverts pinv ->
  exists cs, fit_all pinv ideal i0 i45 im45 i90 ps = Ok cs /\
    Forall2 (fun p c => fit_superpixel pinv ideal (vector_of p i0 i45 im45 i90) p = Ok c) ps cs.
Proof.
  intro Hp. induction ps as [|p ps (cs & E & F)]; [exists []; split; [reflexivity|constructor]|].
  cbn [fit_all]. destruct (fit_one_explicit pinv Hp ideal _ p (s_input_last (p i0) (p i45) (p im45) (p i90))) as (c & Ec & _).
  rewrite Ec. cbn [bind]. rewrite E. cbn [bind]. exists (c :: cs). split; [reflexivity|]. constructor; assumption.
Qed.

Lemma rmean_const l c : l <> [] -> Forall (fun v => v = c) l -> rmean l = c.
Proof.
  intros Hn Hl. unfold rmean.
  assert (E : fold_right Rplus 0 l = IZR (Z.of_nat (length l)) * c).
  { clear Hn. induction Hl as [|v l -> Hl IH]; [cbn; ring|]. cbn [fold_right length]. rewrite IH, Nat2Z.inj_succ.
    unfold Z.succ. rewrite plus_IZR. ring. }
  rewrite E. assert (IZR (Z.of_nat (length l)) <> 0).
  { apply not_0_IZR. destruct l; [contradiction|]. cbn [length]. lia. }
  field. assumption.
Qed.

Definition agree (p q : Z -> R) : Prop := forall k, (0 <= k < 4)%Z -> p k = q k.

Lemma same_fit pinv ideal p q i0 i45 im45 i90 c c' :
  inverts pinv -> agree p q ->
  (0 <= i0 < 4)%Z -> (0 <= i45 < 4)%Z -> (0 <= im45 < 4)%Z -> (0 <= i90 < 4)%Z ->
  fit_superpixel pinv ideal (vector_of p i0 i45 im45 i90) p = Ok c ->
  fit_superpixel pinv ideal (vector_of q i0 i45 im45 i90) q = Ok c' ->
  (forall j, (0 <= j < 4)%Z -> snd c j = snd c' j) /\
  (forall k j, (0 <= k < 4)%Z -> (0 <= j < 4)%Z -> fst c k j = fst c' k j).
Proof.
  intros Hp Ha H0 H1 H2 H3 E E'.
  destruct (fit_one_explicit pinv Hp ideal (vector_of p i0 i45 im45 i90) p eq_refl) as (e & Ee & D & M).
  rewrite E in Ee. injection Ee as <-.
  destruct (fit_one_explicit pinv Hp ideal (vector_of q i0 i45 im45 i90) q eq_refl) as (e & Ee & D' & M').
  rewrite E' in Ee. injection Ee as <-.
  assert (Ev : vector_of p i0 i45 im45 i90 = vector_of q i0 i45 im45 i90)
    by (unfold vector_of; rewrite (Ha i0), (Ha i45), (Ha im45), (Ha i90) by assumption; reflexivity).
  rewrite Ev in *.
  assert (Ep : rsum 4 (fun i => p i * p i) = rsum 4 (fun i => q i * q i))
    by (apply rsum_ext; intros k Hk; rewrite (Ha k Hk); reflexivity).
  rewrite Ep in *.
  split; [intros j Hj; rewrite D, D', (Ha j Hj) by assumption; reflexivity|].
  intros k j Hk Hj. destruct (M k j Hk Hj) as [A B], (M' k j Hk Hj) as [A' B'].
  set (ss := vector_of q i0 i45 im45 i90 0%Z 0%Z * vector_of q i0 i45 im45 i90 0%Z 0%Z + _ + _) in *.
  set (pp := rsum 4 _) in *.
  destruct (Req_dec ss 0) as [Z0|Z0]; [rewrite B, B' by (left; assumption); reflexivity|].
  destruct (Req_dec pp 0) as [Z1|Z1]; [rewrite B, B' by (right; assumption); reflexivity|].
  rewrite A, A' by assumption. rewrite (Ha j Hj). reflexivity.
Qed.

Lemma phase_dic_get phases dic a i :
  phase_dic phases = Ok dic -> rdic_get dic a = Ok i -> placed phases a i.
Proof.
  unfold phase_dic. intros E G.
  destruct phases as [|a0 [|a1 [|a2 [|a3 l]]]]; try discriminate. injection E as <-.
  cbn [rdic_get] in G. unfold Reqb in G.
  repeat match type of G with (if (if ?b then _ else _) then _ else _) = _ => destruct b as [->|] end;
    try discriminate; injection G as <-; (split; [lia|reflexivity]).
Qed.

Lemma ideal_row phase k a b c d :
  rsum 3 (fun l => w_ideal phase k l * s_input a b c d l 0%Z) = ideal_pixel (phase k) (a + d) (a - d) (b - c).
Proof. rewrite rsum3. unfold w_ideal, s_input, ideal_pixel, deg2rad. cbn. ring. Qed.

Lemma corrects_equal pinv images phases dic h w f y x p :
  inverts pinv -> phase_dic phases = Ok dic -> chen_fit pinv images phases dic = Ok (h, w, f) ->
  Forall (fun im => agree (quadruple im y x) p) images ->
  exists c, f y x = Ok c /\
    forall k a i0 i45 im45 i90, placed phases a k ->
      placed phases 0 i0 -> placed phases 45 i45 -> placed phases (-45) im45 -> placed phases 90 i90 ->
      apply_fit c p k = ideal_pixel a (p i0 + p i90) (p i0 - p i90) (p i45 - p im45).
Proof.
  intros Hp Ed. unfold chen_fit. destruct images as [|im rest]; [discriminate|].
  destruct (forallb (same_shapeb im) rest); [cbn [negb]|discriminate].
  destruct (Z.odd (rows im) || Z.odd (cols im)); [discriminate|].
  destruct (rdic_get dic 0) as [i0|e|] eqn:E0; try discriminate. cbn [bind].
  destruct (rdic_get dic 45) as [i45|e|] eqn:E45; try discriminate. cbn [bind].
  destruct (rdic_get dic (-45)) as [im45|e|] eqn:Em45; try discriminate. cbn [bind].
  destruct (rdic_get dic 90) as [i90|e|] eqn:E90; try discriminate. cbn [bind].
  intros Eq Hall. injection Eq as <- <- <-.
  pose proof (phase_dic_get _ _ _ _ Ed E0) as P0. pose proof (phase_dic_get _ _ _ _ Ed E45) as P45.
  pose proof (phase_dic_get _ _ _ _ Ed Em45) as Pm45. pose proof (phase_dic_get _ _ _ _ Ed E90) as P90.
  cbv beta zeta. set (ideal := w_ideal _).
  destruct (fit_all_spec pinv ideal i0 i45 im45 i90 (map (fun im => superpixel im y x) (im :: rest)) Hp) as (cs & Ecs & F).
  cbn [map fit_all] in Ecs. rewrite Ecs. cbn [bind]. eexists. split; [reflexivity|].
  destruct (fit_one pinv Hp ideal (vector_of p i0 i45 im45 i90) p eq_refl) as (c0 & Ec0 & A0).
  { intros Hz. pose proof (squares_zero 4 p Hz) as Z.
    unfold vector_of, s_input. cbn. rewrite (Z i0), (Z i45), (Z im45), (Z i90) by (apply P0 || apply P45 || apply Pm45 || apply P90). ring. }
  assert (G : Forall (fun c : mat * (Z -> R) => (forall j, (0 <= j < 4)%Z -> snd c j = snd c0 j) /\
              (forall k j, (0 <= k < 4)%Z -> (0 <= j < 4)%Z -> fst c k j = fst c0 k j)) cs).
  { assert (Hall' : Forall (fun q => agree q p) (map (fun im => superpixel im y x) (im :: rest)))
      by (apply Forall_map; exact Hall).
    clear -F Hall' Ec0 Hp P0 P45 Pm45 P90. induction F as [|q c qs cs Ec F IH]; [constructor|].
    inversion Hall' as [|q' qs' Hq Hqs]; subst. constructor; [|exact (IH Hqs)].
    exact (same_fit pinv ideal q p i0 i45 im45 i90 c c0 Hp Hq (proj1 P0) (proj1 P45) (proj1 Pm45) (proj1 P90) Ec Ec0). }
  assert (Hcs : cs <> []) by (intros ->; inversion F).
  assert (Mc : forall k j, (0 <= k < 4)%Z -> (0 <= j < 4)%Z -> fst (mean_fit cs) k j = fst c0 k j).
  { intros k j Hk Hj. cbn [mean_fit fst]. apply rmean_const.
    - intro Q. apply map_eq_nil in Q. contradiction.
    - apply Forall_map. eapply Forall_impl; [|exact G]. intros c [_ Q]. exact (Q k j Hk Hj). }
  assert (Md : forall j, (0 <= j < 4)%Z -> snd (mean_fit cs) j = snd c0 j).
  { intros j Hj. cbn [mean_fit snd]. apply rmean_const.
    - intro Q. apply map_eq_nil in Q. contradiction.
    - apply Forall_map. eapply Forall_impl; [|exact G]. intros c [Q _]. exact (Q j Hj). }
  assert (Hlen : forall a k, placed phases a k -> (fun i => nth (Z.to_nat i) phases 0) k = a).
  { intros a k [_ Q]. cbn beta. apply nth_error_nth. exact Q. }
  assert (Uniq : forall a k k', placed phases a k -> In a [0; 45; -45; 90] -> rdic_get dic a = Ok k' -> p k = p k').
  { intros a k k' Pk Ha G'.
    assert (k = k'); [|subst; reflexivity].
    destruct phases as [|a0 [|a1 [|a2 [|a3 l]]]]; try discriminate. injection Ed as <-.
    pose proof P0 as [R0 N0]. pose proof P45 as [R1 N1]. pose proof Pm45 as [R2 N2]. pose proof P90 as [R3 N3].
    destruct Pk as [Rk Nk]. pose proof (phase_dic_get (a0 :: a1 :: a2 :: a3 :: l) _ a k' eq_refl G') as [Rk' Nk'].
    clear - R0 N0 R1 N1 R2 N2 R3 N3 Rk Nk Rk' Nk'.
    destruct (Z.eq_dec k k') as [e|Hne]; [exact e|exfalso].
    assert (Hx : forall i v, (0 <= i < 4)%Z -> nth_error (a0 :: a1 :: a2 :: a3 :: l) (Z.to_nat i) = Some v ->
      (i = 0 /\ v = a0 \/ i = 1 /\ v = a1 \/ i = 2 /\ v = a2 \/ i = 3 /\ v = a3)%Z).
    { intros i v Hi Hv. assert (i = 0 \/ i = 1 \/ i = 2 \/ i = 3)%Z as [-> | [-> | [-> | ->]]] by lia;
        cbn in Hv; injection Hv as <-; tauto. }
    apply Hx in N0; [|lia]. apply Hx in N1; [|lia]. apply Hx in N2; [|lia]. apply Hx in N3; [|lia].
    apply Hx in Nk; [|lia]. apply Hx in Nk'; [|lia].
    clear Hx l.
    destruct N0 as [[-> N0]|[[-> N0]|[[-> N0]|[-> N0]]]];
    destruct N1 as [[-> N1]|[[-> N1]|[[-> N1]|[-> N1]]]]; try lra;
    destruct N2 as [[-> N2]|[[-> N2]|[[-> N2]|[-> N2]]]]; try lra;
    destruct N3 as [[-> N3]|[[-> N3]|[[-> N3]|[-> N3]]]]; try lra;
    destruct Nk as [[-> Nk]|[[-> Nk]|[[-> Nk]|[-> Nk]]]];
    destruct Nk' as [[-> Nk']|[[-> Nk']|[[-> Nk']|[-> Nk']]]]; lra || lia. }
  intros k a j0 j45 jm45 j90 Pk Q0 Q45 Qm45 Q90.
  transitivity (apply_fit c0 p k).
  { unfold apply_fit. apply rsum_ext. intros j Hj. unfold mat in Mc, Md. rewrite Mc, Md by (try assumption; apply Pk). reflexivity. }
  rewrite A0 by apply Pk. unfold vector_of, ideal. rewrite ideal_row. rewrite (Hlen a k Pk).
  rewrite (Uniq 0 j0 i0 Q0), (Uniq 45 j45 i45 Q45), (Uniq (-45) jm45 im45 Qm45), (Uniq 90 j90 i90 Q90);
    try assumption; cbn; tauto.
Qed.

(** ** The ideal sensor *)
Definition sorted_phases : list R := [0; 45; -45; 90].

Lemma trig0 : cos (2 * (0 * PI / 180)) = 1 /\ sin (2 * (0 * PI / 180)) = 0.
Proof. replace (2 * (0 * PI / 180)) with 0 by field. split; [apply cos_0|apply sin_0]. Qed.
Lemma trig45 : cos (2 * (45 * PI / 180)) = 0 /\ sin (2 * (45 * PI / 180)) = 1.
Proof. replace (2 * (45 * PI / 180)) with (PI / 2) by field. split; [apply cos_PI2|apply sin_PI2]. Qed.
Lemma trigm45 : cos (2 * (-45 * PI / 180)) = 0 /\ sin (2 * (-45 * PI / 180)) = -1.
Proof.
  replace (2 * (-45 * PI / 180)) with (- (PI / 2)) by field.
  rewrite cos_neg, sin_neg, cos_PI2, sin_PI2. split; reflexivity.
Qed.
Lemma trig90 : cos (2 * (90 * PI / 180)) = -1 /\ sin (2 * (90 * PI / 180)) = 0.
Proof. replace (2 * (90 * PI / 180)) with PI by field. split; [apply cos_PI|apply sin_PI]. Qed.

Lemma ideal_values i q u :
  ideal_pixel 0 i q u = / 2 * (i + q) /\ ideal_pixel 45 i q u = / 2 * (i + u) /\
  ideal_pixel (-45) i q u = / 2 * (i - u) /\ ideal_pixel 90 i q u = / 2 * (i - q).
Proof.
  unfold ideal_pixel. destruct trig0 as [-> ->], trig45 as [-> ->], trigm45 as [-> ->], trig90 as [-> ->].
  repeat split; ring.
Qed.

Lemma sensor_place y x :
  sensor_phase (2 * (y / 2) + 0 / 2) (2 * (x / 2) + 0 mod 2) = 0 /\
  sensor_phase (2 * (y / 2) + 1 / 2) (2 * (x / 2) + 1 mod 2) = 45 /\
  sensor_phase (2 * (y / 2) + 2 / 2) (2 * (x / 2) + 2 mod 2) = -45 /\
  sensor_phase (2 * (y / 2) + 3 / 2) (2 * (x / 2) + 3 mod 2) = 90.
Proof.
  assert (A : forall z, ((2 * (z / 2) + 0) mod 2 = 0)%Z)
    by (intro z; rewrite Z.add_0_r, Z.mul_comm; apply Z_mod_mult).
  assert (B : forall z, ((2 * (z / 2) + 1) mod 2 = 1)%Z)
    by (intro z; rewrite Z.add_comm, Z.mul_comm, Z_mod_plus_full; reflexivity).
  change (0 / 2)%Z with 0%Z. change (1 / 2)%Z with 0%Z. change (2 / 2)%Z with 1%Z. change (3 / 2)%Z with 1%Z.
  change (0 mod 2)%Z with 0%Z. change (1 mod 2)%Z with 1%Z. change (2 mod 2)%Z with 0%Z. change (3 mod 2)%Z with 1%Z.
  unfold sensor_phase. rewrite !A, !B. repeat split; reflexivity.
Qed.

Lemma ideal_superpixel h w v theta y x :
  let q := v * cos (2 * (theta * PI / 180)) in
  let u := v * sin (2 * (theta * PI / 180)) in
  let p := superpixel (ideal_image h w v theta) y x in
  p 0%Z = / 2 * (v + q) /\ p 1%Z = / 2 * (v + u) /\ p 2%Z = / 2 * (v - u) /\ p 3%Z = / 2 * (v - q).
Proof.
  cbv zeta. unfold superpixel, ideal_image. cbn [cell].
  destruct (sensor_place y x) as (-> & -> & -> & ->). apply ideal_values.
Qed.

Lemma ideal_fit pinv (p : Z -> R) v q u :
  inverts pinv -> 0 < v -> q * q + u * u = v * v ->
  p 0%Z = / 2 * (v + q) -> p 1%Z = / 2 * (v + u) -> p 2%Z = / 2 * (v - u) -> p 3%Z = / 2 * (v - q) ->
  exists c, fit_superpixel pinv (w_ideal (fun i => nth (Z.to_nat i) sorted_phases 0)) (vector_of p 0 1 2 3) p = Ok c /\
    (forall j, (0 <= j < 4)%Z -> snd c j = p j / (2 * (v * v) + 1)) /\
    (forall k j, (0 <= k < 4)%Z -> (0 <= j < 4)%Z ->
       fst c k j = p k * p j * (2 * (v * v) + 1) / (3 * (v * v) * (v * v))).
Proof.
  intros Hp Hv Hq P0 P1 P2 P3.
  destruct (fit_one_explicit pinv Hp (w_ideal (fun i => nth (Z.to_nat i) sorted_phases 0)) (vector_of p 0 1 2 3) p eq_refl)
    as (c & E & D & M).
  assert (Vs : vector_of p 0 1 2 3 0%Z 0%Z = v /\ vector_of p 0 1 2 3 1%Z 0%Z = q /\ vector_of p 0 1 2 3 2%Z 0%Z = u).
  { unfold vector_of, s_input. cbn. rewrite P0, P1, P2, P3. repeat split; field. }
  destruct Vs as (S0 & S1 & S2). rewrite S0, S1, S2 in D, M.
  assert (Hss : v * v + q * q + u * u = 2 * (v * v)) by lra.
  rewrite Hss in D, M.
  assert (Hpp : rsum 4 (fun i => p i * p i) = 3 / 2 * (v * v)) by (rewrite rsum4, P0, P1, P2, P3; nra).
  rewrite Hpp in M.
  assert (Hvv : 0 < v * v) by nra.
  exists c. split; [exact E|]. split; [exact D|]. intros k j Hk Hj.
  rewrite (proj1 (M k j Hk Hj)) by lra.
  assert (Er : rsum 3 (fun l => w_ideal (fun i => nth (Z.to_nat i) sorted_phases 0) k l * vector_of p 0 1 2 3 l 0%Z) = p k).
  { unfold vector_of. rewrite ideal_row.
    pose proof (ideal_values (p 0%Z + p 3%Z) (p 0%Z - p 3%Z) (p 1%Z - p 2%Z)) as (V0 & V1 & V2 & V3).
    assert (k = 0 \/ k = 1 \/ k = 2 \/ k = 3)%Z as [-> | [-> | [-> | ->]]] by lia; cbv beta.
    - change (nth (Z.to_nat 0) sorted_phases 0) with 0. rewrite V0. field.
    - change (nth (Z.to_nat 1) sorted_phases 0) with 45. rewrite V1, P0, P1, P2, P3. field.
    - change (nth (Z.to_nat 2) sorted_phases 0) with (-45). rewrite V2, P0, P1, P2, P3. field.
    - change (nth (Z.to_nat 3) sorted_phases 0) with 90. rewrite V3. field. }
  rewrite Er. field. lra.
Qed.

Lemma Reqb_refl a : Reqb a a = true.
Proof. unfold Reqb. destruct (Req_EM_T a a); [reflexivity|contradiction]. Qed.
Lemma Reqb_neq a b : a <> b -> Reqb a b = false.
Proof. unfold Reqb. destruct (Req_EM_T a b); [contradiction|reflexivity]. Qed.

Lemma ideal_changed pinv h w v :
  inverts pinv -> 0 < v -> Z.Even h -> Z.Even w ->
  exists dic f, phase_dic [0; 45; -45; 90] = Ok dic /\
    chen_fit pinv (map (ideal_image h w v) [-45; 0; 45; 90]) [0; 45; -45; 90] dic = Ok (h, w, f) /\
    forall y x, exists c k, f y x = Ok c /\ (0 <= k < 4)%Z /\
      apply_fit c (quadruple (ideal_image h w v 0) y x) k <> quadruple (ideal_image h w v 0) y x k.
Proof.
  intros Hp Hv Hh Hw. eexists _, _. split; [reflexivity|]. split.
  - unfold chen_fit. cbn [map forallb rows cols ideal_image]. unfold same_shapeb. cbn [rows cols ideal_image].
    rewrite !Z.eqb_refl. cbn [andb negb].
    rewrite <- (Z.negb_even h), <- (Z.negb_even w).
    apply Z.even_spec in Hh, Hw. rewrite Hh, Hw. cbn [negb orb].
    cbn [rdic_get]. rewrite !Reqb_refl.
    rewrite (Reqb_neq 90 0), (Reqb_neq (-45) 0), (Reqb_neq 45 0), (Reqb_neq 90 45), (Reqb_neq (-45) 45), (Reqb_neq 90 (-45)) by lra.
    cbv beta iota delta [bind]. reflexivity.
  - intros y x. cbv beta.
    pose proof (ideal_superpixel h w v 0 y x) as T0. pose proof (ideal_superpixel h w v 45 y x) as T45.
    pose proof (ideal_superpixel h w v (-45) y x) as Tm45. pose proof (ideal_superpixel h w v 90 y x) as T90.
    cbv zeta in T0, T45, Tm45, T90.
    rewrite (proj1 trig0), (proj2 trig0) in T0. rewrite (proj1 trig45), (proj2 trig45) in T45.
    rewrite (proj1 trigm45), (proj2 trigm45) in Tm45. rewrite (proj1 trig90), (proj2 trig90) in T90.
    change (quadruple (ideal_image h w v 0) y x) with (superpixel (ideal_image h w v 0) y x).
    set (q0 := superpixel (ideal_image h w v 0) y x) in *. set (q45 := superpixel (ideal_image h w v 45) y x) in *.
    set (qm45 := superpixel (ideal_image h w v (-45)) y x) in *. set (q90 := superpixel (ideal_image h w v 90) y x) in *.
    destruct T0 as (A0 & A1 & A2 & A3), T45 as (B0 & B1 & B2 & B3), Tm45 as (C0 & C1 & C2 & C3), T90 as (D0 & D1 & D2 & D3).
    destruct (ideal_fit pinv q0 v (v * 1) (v * 0) Hp Hv ltac:(ring) A0 A1 A2 A3) as (c0 & E0 & d0 & m0).
    destruct (ideal_fit pinv q45 v (v * 0) (v * 1) Hp Hv ltac:(ring) B0 B1 B2 B3) as (c1 & E1 & d1 & m1).
    destruct (ideal_fit pinv qm45 v (v * 0) (v * -1) Hp Hv ltac:(ring) C0 C1 C2 C3) as (c2 & E2 & d2 & m2).
    destruct (ideal_fit pinv q90 v (v * -1) (v * 0) Hp Hv ltac:(ring) D0 D1 D2 D3) as (c3 & E3 & d3 & m3).
    assert (Ef : fit_all pinv (w_ideal (fun i => nth (Z.to_nat i) [0; 45; -45; 90] 0)) 0 1 2 3
                   (map (fun im => superpixel im y x) (map (ideal_image h w v) [-45; 0; 45; 90])) = Ok [c2; c0; c1; c3]).
    { cbn [map]. fold q0 q45 qm45 q90. unfold vector_of, sorted_phases in E0, E1, E2, E3. cbn [fit_all].
      rewrite E2, E0, E1, E3. reflexivity. }
    set (c := mean_fit [c2; c0; c1; c3]).
    assert (G : apply_fit c q0 0 <> q0 0%Z \/ apply_fit c q0 3 <> q0 3%Z).
    { destruct (Req_dec (apply_fit c q0 3) (q0 3%Z)) as [Q3|]; [left; intro Q0|right; assumption].
      unfold apply_fit in Q0, Q3. rewrite rsum4 in Q0, Q3. unfold c, mean_fit, rmean in Q0, Q3.
      cbn [fst snd map fold_right length] in Q0, Q3. change (IZR (Z.of_nat 4)) with 4 in Q0, Q3.
      unfold mat in m0, m1, m2, m3, d0, d1, d2, d3.
      rewrite !m0, !m1, !m2, !m3, !d0, !d1, !d2, !d3 in Q0 by lia.
      rewrite !m0, !m1, !m2, !m3, !d0, !d1, !d2, !d3 in Q3 by lia.
      rewrite A0, A1, A2, A3, B0, B1, B2, B3, C0, C1, C2, C3, D0, D1, D2, D3 in Q0, Q3.
      assert (Hvv : 0 < v * v) by nra.
      assert (R0 : (40 * (v * v) + 4) / (96 * v) = v).
      { transitivity (/ 2 * (v + v * 1)); [|field]. rewrite <- Q0. field. lra. }
      assert (R3 : (24 * (v * v) - 4) / (96 * v) = 0).
      { transitivity (/ 2 * (v - v * 1)); [|field]. rewrite <- Q3. field. lra. }
      apply (Rmult_eq_compat_r (96 * v)) in R0, R3.
      replace ((40 * (v * v) + 4) / (96 * v) * (96 * v)) with (40 * (v * v) + 4) in R0 by (field; lra).
      replace ((24 * (v * v) - 4) / (96 * v) * (96 * v)) with (24 * (v * v) - 4) in R3 by (field; lra).
      lra. }
    cbn [map fit_all] in Ef. fold q0 q45 qm45 q90 in Ef.
    destruct G as [G|G]; [exists c, 0%Z|exists c, 3%Z]; (split; [cbn [map fit_all]; rewrite Ef; reflexivity|split; [lia|exact G]]).
Qed.

(** ** The whole run *)
From Coq Require Import Permutation.

Lemma insert_perm a l : Permutation (insert_pair a l) (a :: l).
Proof.
  induction l as [|b l IH]; [reflexivity|]. cbn [insert_pair]. destruct (pair_leb a b); [reflexivity|].
  rewrite IH. apply perm_swap.
Qed.
Lemma sort_perm l : Permutation (sort_pairs l) l.
Proof. induction l as [|a l IH]; [reflexivity|]. unfold sort_pairs in *. cbn [fold_right]. rewrite insert_perm, IH. reflexivity. Qed.

Lemma combine_snd {X Y} (l : list X) (l' : list Y) : length l = length l' -> map snd (combine l l') = l'.
Proof.
  revert l'. induction l as [|a l IH]; intros [|b l']; cbn; intro E; try discriminate; [reflexivity|].
  f_equal. apply IH. congruence.
Qed.

Lemma acceptable_checks orientations names :
  acceptable orientations names ->
  (length orientations =? length names)%nat = true /\
  forallb (fun v => existsb (Reqb v) orientations) [0; 45; 90; -45] = true.
Proof.
  intros (El & H0 & H1 & H2 & H3). split; [apply Nat.eqb_eq; exact El|].
  assert (G : forall v, In v orientations -> existsb (Reqb v) orientations = true)
    by (intros v Hv; apply existsb_exists; exists v; split; [exact Hv|apply Reqb_refl]).
  cbn [forallb]. rewrite !G by assumption. reflexivity.
Qed.

Lemma sorted_names orientations names :
  acceptable orientations names ->
  exists names', map snd (sort_pairs (combine orientations names)) = names' /\ Permutation names' names /\ names' <> [].
Proof.
  intros (El & H0 & _). eexists. split; [reflexivity|]. 
  assert (P : Permutation (map snd (sort_pairs (combine orientations names))) names).
  { transitivity (map snd (combine orientations names)); [apply Permutation_map, sort_perm|].
    rewrite combine_snd by exact El. reflexivity. }
  split; [exact P|]. intro E. rewrite E in P. apply Permutation_nil in P. subst names.
  destruct orientations; [destruct H0|discriminate].
Qed.

Lemma first_file open orientations names :
  acceptable orientations names -> Forall (readable open) names ->
  exists o n rest d, sort_pairs (combine orientations names) = (o, n) :: rest /\ In n names /\ open n = Ok d.
Proof.
  intros Ha Hr. destruct (sorted_names _ _ Ha) as (names' & E & P & N).
  destruct (sort_pairs (combine orientations names)) as [|[o n] rest]; [subst; contradiction|].
  assert (In n names) by (apply (Permutation_in n P); subst; left; reflexivity).
  rewrite Forall_forall in Hr. destruct (Hr n H) as [d Hd]. exists o, n, rest, d. auto.
Qed.

Lemma phase_dic_ok phases : (4 <= length phases)%nat -> exists dic, phase_dic phases = Ok dic.
Proof. destruct phases as [|a [|b [|c [|d l]]]]; cbn; try lia. eexists. reflexivity. Qed.

Lemma default_fails open pinv orientations names phases dark flat :
  (forall r, calculate_chen open pinv orientations names phases true dark flat <> Ok r) /\
  (acceptable orientations names -> (4 <= length phases)%nat -> Forall (readable open) names ->
   calculate_chen open pinv orientations names phases true dark flat = Raise AttributeError).
Proof.
  split.
  - intro r. unfold calculate_chen. destruct (negb _); [discriminate|]. destruct (negb _); [discriminate|].
    destruct (phase_dic phases); try discriminate. cbn [bind].
    destruct (sort_pairs _) as [|[o n] rest]; [discriminate|]. destruct (open n); discriminate.
  - intros Ha Hph Hr. unfold calculate_chen. destruct (acceptable_checks _ _ Ha) as [-> ->]. cbn [negb].
    destruct (phase_dic_ok _ Hph) as [dic ->]. cbn [bind].
    destruct (first_file open _ _ Ha Hr) as (o & n & rest & d & -> & _ & ->). reflexivity.
Qed.

Lemma no_flat_fails open pinv orientations names phases occulter dark flat :
  no_name flat ->
  (forall r, calculate_chen open pinv orientations names phases occulter dark flat <> Ok r) /\
  (acceptable orientations names -> (4 <= length phases)%nat -> Forall (readable open) names ->
   (forall n, dark = Some n -> n <> ""%string -> readable open n) -> occulter = false ->
   calculate_chen open pinv orientations names phases occulter dark flat = Raise UnboundLocalError).
Proof.
  intros Hf.
  assert (Ef : open_if open flat = Ok None) by (destruct Hf as [-> | ->]; reflexivity).
  assert (Et : truthy flat = false) by (destruct Hf as [-> | ->]; reflexivity).
  split.
  - intro r. unfold calculate_chen. destruct (negb _); [discriminate|]. destruct (negb _); [discriminate|].
    destruct (phase_dic phases); try discriminate. cbn [bind].
    destruct (sort_pairs _) as [|[o n] rest]; [discriminate|]. destruct (open n); try discriminate. cbn [bind].
    destruct occulter; [discriminate|]. destruct (open_if open dark); try discriminate. cbn [bind].
    rewrite Ef, Et. cbn [bind andb bound]. discriminate.
  - intros Ha Hph Hr Hd ->. unfold calculate_chen. destruct (acceptable_checks _ _ Ha) as [-> ->]. cbn [negb].
    destruct (phase_dic_ok _ Hph) as [dic ->]. cbn [bind].
    destruct (first_file open _ _ Ha Hr) as (o & n & rest & d & -> & _ & ->). cbn [bind].
    assert (exists dk, open_if open dark = Ok dk) as [dk ->].
    { destruct dark as [[|ch s]|]; [eexists; reflexivity| |eexists; reflexivity].
      destruct (Hd (String ch s) eq_refl) as [a Ea]; [discriminate|]. cbn [open_if]. rewrite Ea. eexists; reflexivity. }
    cbn [bind]. rewrite Ef, Et. reflexivity.
Qed.

(** ** With a flat *)
Lemma rmax_list_spec l v :
  (rmax_list v l = v \/ In (rmax_list v l) l) /\ v <= rmax_list v l /\ Forall (fun e => e <= rmax_list v l) l.
Proof.
  unfold rmax_list. revert v. induction l as [|a l IH]; intro v; cbn [fold_left].
  - split; [left; reflexivity|]. split; [lra|constructor].
  - destruct (IH (Rmax v a)) as (A & B & C). pose proof (Rmax_l v a). pose proof (Rmax_r v a).
    split; [|split; [lra|constructor; [lra|exact C]]].
    destruct A as [A|A]; [|right; right; exact A].
    rewrite A. unfold Rmax. destruct (Rle_dec v a); [right; left; reflexivity|left; reflexivity].
Qed.

Lemma in_pixels (a : arr R) v :
  In v (concat (to_list a)) <-> exists y x, (0 <= y < rows a)%Z /\ (0 <= x < cols a)%Z /\ cell a y x = v.
Proof.
  rewrite in_concat. unfold to_list. split.
  - intros (row & Hrow & Hv). apply in_map_iff in Hrow. destruct Hrow as (y & <- & Hy).
    apply in_map_iff in Hv. destruct Hv as (x & <- & Hx). apply in_zrange in Hy, Hx. exists y, x. auto.
  - intros (y & x & Hy & Hx & <-). exists (map (fun x => cell a y x) (zrange (cols a))). split.
    + apply in_map_iff. exists y. split; [reflexivity|]. apply in_zrange. exact Hy.
    + apply in_map_iff. exists x. split; [reflexivity|]. apply in_zrange. exact Hx.
Qed.

Lemma array_max_spec (a : arr R) : (0 < rows a)%Z -> (0 < cols a)%Z -> exists m, array_max a = Ok m /\ greatest a m.
Proof.
  intros Hr Hc. unfold array_max. pose proof (in_pixels a) as P.
  destruct (concat (to_list a)) as [|v l] eqn:E.
  - exfalso. apply (P (cell a 0%Z 0%Z)). exists 0%Z, 0%Z. repeat split; try lia.
  - exists (rmax_list v l). split; [reflexivity|]. destruct (rmax_list_spec l v) as (A & B & C). split.
    + apply P. destruct A as [A|A]; [left; symmetry; exact A|right; exact A].
    + intros y x Hy Hx. assert (Q : In (cell a y x) (v :: l)) by (apply P; eauto).
      destruct Q as [<-|Q]; [exact B|]. rewrite Forall_forall in C. exact (C _ Q).
Qed.

Lemma bmap2_same {A B C} (f : A -> B -> C) a b :
  rows a = rows b -> cols a = cols b ->
  exists r, bmap2 f a b = Ok r /\ rows r = rows a /\ cols r = cols a /\
    forall y x, (0 <= y < rows a)%Z -> (0 <= x < cols a)%Z -> cell r y x = f (cell a y x) (cell b y x).
Proof.
  intros Er Ec. unfold bmap2, bdim. rewrite Er, Ec, !Z.eqb_refl. eexists. split; [reflexivity|].
  cbn [rows cols cell]. split; [reflexivity|]. split; [reflexivity|]. intros y x Hy Hx. unfold bcell.
  rewrite Er, Ec.
  destruct (Z.eqb_spec (rows b) 1) as [E1|]; destruct (Z.eqb_spec (cols b) 1) as [E2|];
    try (replace y with 0%Z by lia); try (replace x with 0%Z by lia); reflexivity.
Qed.

Lemma correct_all_spec open dark nflat fl m h w names :
  rows nflat = h -> cols nflat = w -> rows fl = h -> cols fl = w -> m <> 0 ->
  (forall y x, (0 <= y < h)%Z -> (0 <= x < w)%Z -> cell nflat y x = cell fl y x / m) ->
  Forall (fun n => exists d, open n = Ok d /\ rows d = h /\ cols d = w) names ->
  exists images, correct_all open false true dark nflat names = Ok images /\
    Forall2 (fun n im => exists d, open n = Ok d /\ rows d = h /\ cols d = w /\ flattened fl m d im) names images.
Proof.
  intros Hnr Hnc Hfr Hfc Hm Hn. induction 1 as [|n names (d & Ed & Hd & Hd') _ (images & Ei & Fi)].
  { exists []. split; [reflexivity|constructor]. }
  destruct (bmap2_same (fun f v => if negb (Reqb f 0) then (v / f)%R else v) nflat d ltac:(congruence) ltac:(congruence))
    as (im & Em & R1 & C1 & V1).
  exists (im :: images). cbn [correct_all]. rewrite Ed. cbn [bind]. unfold correct_image at 1. cbn [bind].
  rewrite Em. cbn [bind]. rewrite Ei. cbn [bind]. split; [reflexivity|]. constructor; [|exact Fi].
  exists d. split; [exact Ed|]. split; [exact Hd|]. split; [exact Hd'|]. split; [congruence|]. split; [congruence|].
  intros y x Hy Hx. rewrite V1 by (rewrite ?Hnr, ?Hnc; congruence || lia). rewrite Hn by lia. split; intro Z0.
  - rewrite Z0. replace (0 / m) with 0 by (field; exact Hm). rewrite Reqb_refl. reflexivity.
  - rewrite Reqb_neq; [reflexivity|]. intro Q. apply Z0. apply (Rmult_eq_compat_r m) in Q.
    replace (cell fl y x / m * m) with (cell fl y x) in Q by (field; exact Hm). lra.
Qed.

Lemma placed_get phases dic a i : phase_dic phases = Ok dic -> placed phases a i -> exists j, rdic_get dic a = Ok j.
Proof.
  unfold phase_dic. intros E [Hi Hn].
  destruct phases as [|a0 [|a1 [|a2 [|a3 l]]]]; try discriminate. injection E as <-.
  assert (a = a0 \/ a = a1 \/ a = a2 \/ a = a3) as Q.
  { assert (i = 0 \/ i = 1 \/ i = 2 \/ i = 3)%Z as [-> | [-> | [-> | ->]]] by lia; cbn in Hn; injection Hn as <-; tauto. }
  cbn [rdic_get].
  destruct (Reqb a3 a) eqn:E3; [eexists; reflexivity|]. destruct (Reqb a2 a) eqn:E2; [eexists; reflexivity|].
  destruct (Reqb a1 a) eqn:E1; [eexists; reflexivity|]. destruct (Reqb a0 a) eqn:E0; [eexists; reflexivity|].
  exfalso. unfold Reqb in *. destruct (Req_EM_T a3 a), (Req_EM_T a2 a), (Req_EM_T a1 a), (Req_EM_T a0 a); try discriminate.
  destruct Q as [Q|[Q|[Q|Q]]]; congruence.
Qed.

Lemma flat_run open pinv orientations names phases fname fl h w :
  acceptable orientations names ->
  (exists i0 i45 im45 i90, placed phases 0 i0 /\ placed phases 45 i45 /\ placed phases (-45) im45 /\ placed phases 90 i90) ->
  (0 < h)%Z -> (0 < w)%Z -> Z.Even h -> Z.Even w ->
  Forall (fun n => exists d, open n = Ok d /\ rows d = h /\ cols d = w) names ->
  fname <> ""%string -> open fname = Ok fl -> rows fl = h -> cols fl = w ->
  (exists y x, (0 <= y < h)%Z /\ (0 <= x < w)%Z /\ 0 < cell fl y x) ->
  exists m names' images dic f,
    greatest fl m /\ Permutation names' names /\
    Forall2 (fun n im => exists d, open n = Ok d /\ flattened fl m d im) names' images /\
    phase_dic phases = Ok dic /\ chen_fit pinv images phases dic = Ok (h, w, f) /\
    calculate_chen open pinv orientations names phases false None (Some fname) = Ok (h, w, f).
Proof.
  intros Ha (i0 & i45 & im45 & i90 & P0 & P45 & Pm45 & P90) Hh Hw Eh Ew Hn Hf Ef Hfr Hfc (yp & xp & Hyp & Hxp & Hpos).
  destruct (array_max_spec fl) as (m & Em & Gm); [lia|lia|].
  assert (Hm : m <> 0) by (destruct Gm as [_ G]; specialize (G yp xp); rewrite Hfr, Hfc in G; specialize (G Hyp Hxp); lra).
  assert (Hph : (4 <= length phases)%nat).
  { assert (forall a i, placed phases a i -> (Z.to_nat i < length phases)%nat) as L
      by (intros a i [_ Q]; apply nth_error_Some; congruence).
    assert (D : forall a i a' i', placed phases a i -> placed phases a' i' -> a <> a' -> i <> i')
      by (intros a i a' i' [_ A] [_ B] Hne ->; congruence).
    pose proof (L _ _ P0). pose proof (L _ _ P45). pose proof (L _ _ Pm45). pose proof (L _ _ P90).
    pose proof (D _ _ _ _ P0 P45 ltac:(lra)). pose proof (D _ _ _ _ P0 Pm45 ltac:(lra)). pose proof (D _ _ _ _ P0 P90 ltac:(lra)).
    pose proof (D _ _ _ _ P45 Pm45 ltac:(lra)). pose proof (D _ _ _ _ P45 P90 ltac:(lra)). pose proof (D _ _ _ _ Pm45 P90 ltac:(lra)).
    destruct P0 as [? _], P45 as [? _], Pm45 as [? _], P90 as [? _]. lia. }
  destruct (phase_dic_ok phases Hph) as [dic Edic].
  destruct (sorted_names _ _ Ha) as (names' & En' & Pn & Nn).
  assert (Hr : Forall (readable open) names) by (eapply Forall_impl; [|exact Hn]; intros n (d & Ed & _); exists d; exact Ed).
  destruct (first_file open _ _ Ha Hr) as (o & n & rest & d & Epairs & Hin & Ed).
  assert (Hd : rows d = h /\ cols d = w).
  { rewrite Forall_forall in Hn. destruct (Hn n Hin) as (d' & Ed' & Q). rewrite Ed in Ed'. injection Ed' as <-. exact Q. }
  destruct (bmap2_same (fun (c : bool) v => if c then 1%R else (v / m)%R) (amap (fun _ : R => false) d) fl)
    as (nflat & Enf & R1 & C1 & V1); [cbn; destruct Hd; congruence|cbn; destruct Hd; congruence|].
  cbn [amap rows cols cell] in R1, C1, V1.
  assert (Hn' : Forall (fun n => exists d, open n = Ok d /\ rows d = h /\ cols d = w) names')
    by (apply (Permutation_Forall (Permutation_sym Pn)); exact Hn).
  destruct (correct_all_spec open None nflat fl m h w names') as (images & Ei & Fi); try assumption.
  { destruct Hd; congruence. } { destruct Hd; congruence. }
  { intros y x Hy Hx. rewrite V1 by (destruct Hd; lia). reflexivity. }
  destruct (placed_get _ _ _ _ Edic P0) as [j0 G0]. destruct (placed_get _ _ _ _ Edic P45) as [j45 G45].
  destruct (placed_get _ _ _ _ Edic Pm45) as [jm45 Gm45]. destruct (placed_get _ _ _ _ Edic P90) as [j90 G90].
  assert (Si : Forall (fun im => rows im = h /\ cols im = w) images).
  { clear -Fi. induction Fi as [|n im ns ims (d & _ & A & B & C & D & _) _ IH]; [constructor|]. constructor; [split; congruence|exact IH]. }
  assert (exists f, chen_fit pinv images phases dic = Ok (h, w, f)) as [f Hfit].
  { unfold chen_fit. destruct images as [|im ims]; [exfalso; apply Nn; inversion Fi; reflexivity|].
    inversion Si as [|? ? [Hr1 Hc1] Hims]; subst.
    assert (forallb (same_shapeb im) ims = true) as ->.
    { apply forallb_forall. intros e He. rewrite Forall_forall in Hims. destruct (Hims e He) as [A B]. unfold same_shapeb.
      rewrite A, B, Hr1, Hc1, !Z.eqb_refl. reflexivity. }
    cbn [negb]. rewrite <- (Z.negb_even (rows im)), <- (Z.negb_even (cols im)).
    rewrite Hr1, Hc1. apply Z.even_spec in Eh, Ew. rewrite Eh, Ew. cbn [negb orb].
    rewrite G0. cbn [bind]. rewrite G45. cbn [bind]. rewrite Gm45. cbn [bind]. rewrite G90. cbn [bind].
    eexists. reflexivity. }
  exists m, names', images, dic, f. split; [exact Gm|]. split; [exact Pn|]. split.
  { clear -Fi. induction Fi as [|n im ns ims (d & A & _ & _ & B) _ IH]; constructor; [exists d; auto|exact IH]. }
  split; [exact Edic|]. split; [exact Hfit|].
  unfold calculate_chen. destruct (acceptable_checks _ _ Ha) as [-> ->]. cbn [negb]. rewrite Edic. cbn [bind].
  rewrite Epairs in *. rewrite Ed. cbn [bind open_if].
  destruct fname as [|ch s]; [contradiction|]. rewrite Ef. cbn [bind truthy andb bound]. rewrite Em. cbn [bind].
  rewrite Enf. cbn [bind is_some]. rewrite En'. rewrite Ei. cbn [bind]. exact Hfit.
Qed.
