(** nparr_from_binary: parallel decoding of whole files. *)
From Coq Require Import ZifyBool Permutation Lia.
From Verif Require Import Base.Base Base.BaseFacts Model.Codec Spec.CodecSpec Spec.Terminates
  Proofs.CodecFacts.
Local Open Scope Z_scope.
Ltac Zify.zify_post_hook ::= idtac.

(** ** NUL stripping *)
Lemma drop_while0_spec l :
  exists k, l = repeat 0 k ++ drop_while0 l /\
    (drop_while0 l = [] \/ exists a r, drop_while0 l = a :: r /\ a <> 0).
Proof.
  induction l as [|a l (k & E & D)].
  - exists 0%nat. split; [reflexivity|left; reflexivity].
  - destruct (Z.eq_dec a 0) as [->|Ha].
    + exists (S k). cbn [drop_while0 repeat app]. split; [f_equal; exact E|exact D].
    + exists 0%nat. assert (Ed : drop_while0 (a :: l) = a :: l) by (destruct a; [congruence|reflexivity..]).
      rewrite Ed. split; [reflexivity|]. right; eauto.
Qed.

Lemma rev_repeat {A} (a : A) k : rev (repeat a k) = repeat a k.
Proof.
  induction k as [|k IH]; [reflexivity|]. cbn [repeat rev]. rewrite IH.
  clear IH. induction k as [|k IH]; [reflexivity|]. cbn [repeat app]. f_equal. exact IH.
Qed.

Lemma strip_spec l :
  exists k, l = strip_nul l ++ repeat 0 k /\ ~ ends_in_nul (strip_nul l).
Proof.
  unfold strip_nul. destruct (drop_while0_spec (rev l)) as (k & E & D).
  exists k. split.
  - rewrite <- (rev_involutive l) at 1. rewrite E at 1. rewrite rev_app_distr, rev_repeat. reflexivity.
  - intros [l' El]. destruct D as [D|(a & r & D & Ha)]; rewrite D in El.
    + cbn in El. destruct l'; discriminate.
    + cbn [rev] in El. apply app_inj_tail in El. destruct El; congruence.
Qed.

Lemma strip_id l : ~ ends_in_nul l -> strip_nul l = l.
Proof.
  intros Hn. destruct (strip_spec l) as (k & E & _). destruct k as [|k].
  - cbn [repeat] in E. rewrite app_nil_r in E. symmetry; exact E.
  - exfalso. apply Hn. exists (strip_nul l ++ repeat 0 k).
    rewrite <- app_assoc. replace (repeat 0 k ++ [0]) with (repeat 0 (S k)); [exact E|].
    apply repeat_cons.
Qed.

Lemma strip_shorter l : ends_in_nul l -> (length (strip_nul l) < length l)%nat.
Proof.
  intros [l' Hl]. destruct (strip_spec l) as (k & E & Hn). destruct k as [|k].
  - exfalso. apply Hn. cbn [repeat] in E. rewrite app_nil_r in E. rewrite <- E. exists l'; exact Hl.
  - rewrite E at 2. rewrite app_length, repeat_length. lia.
Qed.

Lemma strip_le l : (length (strip_nul l) <= length l)%nat.
Proof.
  destruct (strip_spec l) as (k & E & _). rewrite E at 2. rewrite app_length. lia.
Qed.

Lemma strip_bytes l : Forall is_byte l -> Forall is_byte (strip_nul l).
Proof.
  intros Hb. destruct (strip_spec l) as (k & E & _). rewrite E in Hb.
  apply Forall_app in Hb. exact (proj1 Hb).
Qed.

Lemma strip_app_nul l k : ~ ends_in_nul l -> strip_nul (l ++ repeat 0 k) = l.
Proof.
  intros Hn. unfold strip_nul. rewrite rev_app_distr, rev_repeat.
  assert (E : drop_while0 (repeat 0 k ++ rev l) = drop_while0 (rev l)).
  { induction k as [|k IH]; [reflexivity|exact IH]. }
  rewrite E. change (strip_nul l = l). apply strip_id, Hn.
Qed.

(** ** Chunks *)
Lemma chunk_S {A} (l : list A) c i : chunk l c (S i) = chunk (skipn c l) c i.
Proof. unfold chunk. rewrite skipn_add. f_equal. f_equal. lia. Qed.

Lemma chunk_0 {A} (l : list A) c : chunk l c 0 = firstn c l.
Proof. reflexivity. Qed.

Lemma concat_chunks {A} c : forall n (l : list A), length l = (n * c)%nat ->
  concat (map (chunk l c) (seq 0 n)) = l.
Proof.
  induction n as [|n IH]; intros l Hl.
  - cbn in *. destruct l; [reflexivity|discriminate].
  - cbn [seq map concat]. rewrite chunk_0, <- seq_shift, map_map.
    rewrite (map_ext _ (chunk (skipn c l) c)) by (intros i; apply chunk_S).
    rewrite IH by (rewrite skipn_length; lia). apply firstn_skipn.
Qed.

Lemma chunk_length {A} (l : list A) c n i :
  length l = (n * c)%nat -> (i < n)%nat -> length (chunk l c i) = c.
Proof.
  intros Hl Hi. unfold chunk. rewrite firstn_length, skipn_length.
  assert (i * c + c <= n * c)%nat by nia. lia.
Qed.

Lemma chunk_bytes l c i : Forall is_byte l -> Forall is_byte (chunk l c i).
Proof.
  intros Hb. unfold chunk.
  assert (G : forall (P : Z -> Prop) k l, Forall P l -> Forall P (firstn k l) /\ Forall P (skipn k l)).
  { clear. intros P k l Hl. rewrite <- (firstn_skipn k l) in Hl. apply Forall_app in Hl. exact Hl. }
  apply G, G, Hb.
Qed.

Lemma chunk_of_concat {A} (c : nat) : forall (ls : list (list A)) i,
  Forall (fun l => length l = c) ls -> (i < length ls)%nat ->
  chunk (concat ls) c i = nth i ls [].
Proof.
  induction ls as [|l ls IH]; intros i Hl Hi; [cbn in Hi; lia|].
  inversion Hl as [|? ? H1 H2]; subst. cbn [concat]. destruct i as [|i].
  - rewrite chunk_0, firstn_app, Nat.sub_diag, firstn_all. cbn. apply app_nil_r.
  - rewrite chunk_S, skipn_app, skipn_all, Nat.sub_diag. cbn [skipn app nth]. apply IH.
    + exact H2.
    + cbn in Hi; lia.
Qed.

Lemma decode_app a : forall d, (length a mod 3 = 0)%nat -> decode12 (a ++ d) = decode12 a ++ decode12 d.
Proof.
  induction a as [|x|x y|x y z a IH] using list_ind3; intros d Hl; try discriminate; [reflexivity|].
  cbn [app decode12]. rewrite IH; [reflexivity|].
  cbn [length] in Hl. replace (S (S (S (length a)))) with (length a + 1 * 3)%nat in Hl by lia.
  rewrite Nat.mod_add in Hl by lia. exact Hl.
Qed.

Lemma decode_concat ls : Forall (fun l => (length l mod 3 = 0)%nat) ls ->
  concat (map decode12 ls) = decode12 (concat ls).
Proof.
  induction ls as [|l ls IH]; intros Hl; [reflexivity|]. inversion Hl; subst.
  cbn [map concat]. rewrite IH by assumption. symmetry. apply decode_app. assumption.
Qed.

(** ** Whole files *)
Section File.
  Variables (dim : Z) (N : nat).

  Definition parts (content : bytes) : list bytes :=
    map (fun i => strip_nul (chunk content (length content / N) i)) (seq 0 N).

  Definition fits_chunks (content : bytes) : Prop :=
    (length content mod N = 0)%nat /\ ((length content / N) mod 3 = 0)%nat.

  Lemma complete_in sch : complete_schedule N sch ->
    forall k, (k < N)%nat -> In k sch.
  Proof.
    intros Hp k Hk. apply (Permutation_in k (Permutation_sym Hp)). apply in_seq. lia.
  Qed.

  Lemma nparr_unfold content sch : (0 < N)%nat ->
    nparr_from_binary_gen dim (Z.of_nat N) content sch =
    if ((length content mod N =? 0)%nat && ((length content / N) mod 3 =? 0)%nat)%bool then
      let* result := pool_map three_bytes_to_two_ints (parts content) sch in
      stack_reshape dim result
    else Raise ValueError.
  Proof.
    intros HN. unfold nparr_from_binary_gen, zlen.
    change 3 with (Z.of_nat 3). rewrite <- Nat2Z.inj_mod, <- Nat2Z.inj_div, <- Nat2Z.inj_mod.
    destruct (length content mod N =? 0)%nat eqn:E1;
      [apply Nat.eqb_eq in E1|apply Nat.eqb_neq in E1].
    - rewrite E1. destruct ((length content / N) mod 3 =? 0)%nat eqn:E2;
        [apply Nat.eqb_eq in E2|apply Nat.eqb_neq in E2].
      + rewrite E2. cbn [negb orb andb Z.of_nat Z.eqb].
        assert (Ep : parts content =
          map (fun i => strip_nul (slice content
                 (Z.to_nat i * Z.to_nat (Z.of_nat (length content / N)))
                 ((Z.to_nat i + 1) * Z.to_nat (Z.of_nat (length content / N)))))
              (zrange (Z.of_nat N))).
        { unfold parts, zrange. rewrite !Nat2Z.id, map_map.
          apply map_ext. intros i. rewrite !Nat2Z.id. unfold slice, chunk. f_equal. f_equal. lia. }
        rewrite Ep. reflexivity.
      + replace (Z.of_nat ((length content / N) mod 3) =? 0) with false by lia. reflexivity.
    - replace (Z.of_nat (length content mod N) =? 0) with false by lia. reflexivity.
  Qed.

  Lemma parts_bytes content : Forall is_byte content -> Forall (Forall is_byte) (parts content).
  Proof.
    intros Hb. unfold parts. apply Forall_map, Forall_forall. intros i _.
    apply strip_bytes, chunk_bytes, Hb.
  Qed.

  (** Outcome of the whole function in terms of the stripped chunks. *)
  Lemma nparr_eval content sch :
    (0 < N)%nat -> Forall is_byte content -> complete_schedule N sch -> fits_chunks content ->
    (Forall (fun p => (length p mod 3 = 0)%nat) (parts content) ->
       nparr_from_binary_gen dim (Z.of_nat N) content sch =
       stack_reshape dim (map decode12 (parts content))) /\
    (~ Forall (fun p => (length p mod 3 = 0)%nat) (parts content) ->
       raises (nparr_from_binary_gen dim (Z.of_nat N) content sch)).
  Proof.
    intros HN Hb Hs [F1 F2]. rewrite nparr_unfold by exact HN. rewrite F1, F2. cbn [Nat.eqb andb].
    assert (Hlen : length (parts content) = N) by (unfold parts; rewrite map_length; apply seq_length).
    pose proof (parts_bytes content Hb) as Hpb. split; intros Hall.
    - rewrite (pool_map_complete three_bytes_to_two_ints (parts content) sch (map decode12 (parts content))).
      + reflexivity.
      + rewrite Hlen. apply complete_in, Hs.
      + rewrite map_map. apply map_ext_in. intros p Hp.
        rewrite Forall_forall in Hpb, Hall. rewrite three_cases by (apply Hpb, Hp).
        rewrite (Hall p Hp). reflexivity.
    - destruct (pool_map_raises three_bytes_to_two_ints (parts content) sch) as (e & E & _).
      + rewrite Hlen. apply complete_in, Hs.
      + intros t Ht. rewrite Forall_forall in Hpb. rewrite three_cases by (apply Hpb, Ht).
        destruct (length t mod 3 =? 0)%nat; discriminate.
      + apply neg_Forall_Exists_neg in Hall.
        * apply Exists_exists in Hall. destruct Hall as (t & Ht & Hm). exists t, IndexError.
          split; [exact Ht|]. rewrite Forall_forall in Hpb. rewrite three_cases by (apply Hpb, Ht).
          apply Nat.eqb_neq in Hm. rewrite Hm. reflexivity.
        * intros x. apply Nat.eq_dec.
      + exists e. rewrite E. reflexivity.
  Qed.

  Lemma stack_reshape_cases ps :
    (Forall (fun p => length p = length (hd [] ps)) ps /\ zlen (concat ps) = dim * dim /\
     stack_reshape dim ps =
       Ok (mkarr dim dim (fun y x => nth (Z.to_nat (dim * y + x)) (concat ps) 0))) \/
    (~ (Forall (fun p => length p = length (hd [] ps)) ps /\ zlen (concat ps) = dim * dim) /\
     stack_reshape dim ps = Raise ValueError).
  Proof.
    unfold stack_reshape. destruct (forallb _ ps) eqn:E1.
    - assert (F : Forall (fun p => length p = length (hd [] ps)) ps).
      { apply Forall_forall. intros p Hp. rewrite forallb_forall in E1. specialize (E1 p Hp).
        unfold zlen in E1. lia. }
      destruct (zlen (concat ps) =? dim * dim) eqn:E2.
      + left. repeat split; [exact F|lia].
      + right. split; [|reflexivity]. intros [_ H]. lia.
    - right. split; [|reflexivity]. intros [F _].
      assert (forallb (fun p => zlen p =? zlen (hd [] ps)) ps = true); [|congruence].
      apply forallb_forall. intros p Hp. rewrite Forall_forall in F. specialize (F p Hp).
      unfold zlen. lia.
  Qed.
End File.

Lemma length_concat_const {A} c (ls : list (list A)) :
  Forall (fun l => length l = c) ls -> length (concat ls) = (length ls * c)%nat.
Proof.
  induction ls as [|l ls IH]; intros Hl; [reflexivity|]. inversion Hl; subst.
  cbn [concat length]. rewrite app_length, IH by assumption. lia.
Qed.

Lemma decode_len_nat l : (length (decode12 l) = 2 * (length l / 3))%nat.
Proof.
  pose proof (decode12_length l) as E. unfold zlen in E.
  change 3 with (Z.of_nat 3) in E. rewrite <- Nat2Z.inj_div in E. lia.
Qed.

Section Cases.
  Variables (dim : Z) (N : nat).
  Hypothesis HN : (0 < N)%nat.

  Lemma chunk_facts content : fits_chunks N content ->
    length content = (N * (length content / N))%nat /\
    (length content / N = 3 * (length content / N / 3))%nat.
  Proof.
    intros [F1 F2].
    pose proof (Nat.div_mod (length content) N ltac:(lia)).
    pose proof (Nat.div_mod (length content / N) 3 ltac:(lia)). lia.
  Qed.

  (** C45, good case *)
  Lemma nparr_good content sch :
    Forall is_byte content -> complete_schedule N sch -> fits_chunks N content ->
    2 * zlen content = 3 * (dim * dim) ->
    (forall i, (i < N)%nat -> ~ ends_in_nul (chunk content (length content / N) i)) ->
    nparr_from_binary_gen dim (Z.of_nat N) content sch =
    Ok (mkarr dim dim (fun y x => nth (Z.to_nat (dim * y + x)) (decode12 content) 0)).
  Proof.
    intros Hb Hs Hf Hlen Hnul. destruct (chunk_facts content Hf) as [L1 L2].
    set (c := (length content / N)%nat) in *.
    assert (Hp : parts N content = map (chunk content c) (seq 0 N)).
    { unfold parts. apply map_ext_in. intros i Hi. apply in_seq in Hi. apply strip_id, Hnul. lia. }
    assert (Hc : Forall (fun p => length p = c) (parts N content)).
    { rewrite Hp. apply Forall_map, Forall_forall. intros i Hi. apply in_seq in Hi.
      apply chunk_length with (n := N); [exact L1|lia]. }
    assert (H3 : Forall (fun p => (length p mod 3 = 0)%nat) (parts N content)).
    { eapply Forall_impl; [|exact Hc]. intros p Ep. cbn beta in Ep. rewrite Ep.
      destruct Hf as [_ F2]. exact F2. }
    rewrite (proj1 (nparr_eval dim N content sch HN Hb Hs Hf) H3).
    assert (Ec : concat (map decode12 (parts N content)) = decode12 content).
    { rewrite (decode_concat _ H3), Hp, concat_chunks by exact L1. reflexivity. }
    destruct (stack_reshape_cases dim (map decode12 (parts N content))) as [(_ & _ & E)|(Hn & _)].
    - rewrite E, Ec. reflexivity.
    - exfalso. apply Hn. split.
      + apply Forall_map. eapply Forall_impl; [|exact Hc]. intros p Ep. cbn beta in Ep.
        rewrite decode_len_nat, Ep.
        destruct (parts N content) as [|p0 ps] eqn:Eps.
        * exfalso. unfold parts in Eps. apply map_eq_nil in Eps. destruct N; [lia|discriminate].
        * cbn [map hd]. inversion Hc as [|? ? E0 _]; subst. rewrite decode_len_nat, E0. reflexivity.
      + rewrite Ec. unfold zlen. rewrite decode_len_nat.
        unfold zlen in Hlen.
        assert (H0 : (length content = N * (c / 3) * 3)%nat)
          by (clear - L1 L2; clearbody c; set (q := (c / 3)%nat) in *; clearbody q; subst c; lia).
        rewrite H0 in Hlen |- *. rewrite Nat.div_mul by lia. lia.
  Qed.

  (** Total size of what the workers return. *)
  Lemma parts_total content :
    fits_chunks N content ->
    (length (concat (map decode12 (parts N content))) <= 2 * (length content / 3))%nat.
  Proof.
    intros Hf. destruct (chunk_facts content Hf) as [L1 L2].
    set (c := (length content / N)%nat) in *.
    assert (Hle : Forall (fun p => (length p <= c)%nat) (parts N content)).
    { unfold parts. fold c. apply Forall_map, Forall_forall. intros i Hi. apply in_seq in Hi.
      pose proof (chunk_length content c N i L1 ltac:(lia)) as Ecl.
      pose proof (strip_le (chunk content c i)). lia. }
    assert (Hn : length (parts N content) = N)
      by (unfold parts; rewrite map_length; apply seq_length).
    assert (G : forall ps, Forall (fun p : bytes => (length p <= c)%nat) ps ->
      (length (concat (map decode12 ps)) <= length ps * (2 * (c / 3)))%nat).
    { clear. induction ps as [|p ps IH]; intros Hps; [cbn; lia|]. inversion Hps; subst.
      cbn [map concat length]. rewrite app_length, decode_len_nat.
      assert (length p / 3 <= c / 3)%nat by (apply Nat.div_le_mono; lia).
      specialize (IH H2). lia. }
    specialize (G _ Hle). rewrite Hn in G.
    assert (length content / 3 = N * (c / 3))%nat; [|lia].
    rewrite L1 at 1. rewrite L2 at 1. replace (N * (3 * (c / 3)))%nat with (N * (c / 3) * 3)%nat by lia.
    apply Nat.div_mul. lia.
  Qed.

  (** Any file that is shorter than the image, or that has a chunk not ending in NUL
      although its length is wrong, is rejected. *)
  Lemma nparr_wrong_length content sch :
    Forall is_byte content -> complete_schedule N sch ->
    2 * zlen content <> 3 * (dim * dim) ->
    (2 * zlen content < 3 * (dim * dim) \/
     (exists i, (i < N)%nat /\ ~ ends_in_nul (chunk content (length content / N) i))) ->
    raises (nparr_from_binary_gen dim (Z.of_nat N) content sch).
  Proof.
    intros Hb Hs Hlen Hor.
    destruct (Nat.eq_dec (length content mod N) 0) as [F1|F1];
      [|rewrite nparr_unfold by exact HN; apply Nat.eqb_neq in F1; rewrite F1;
        exists ValueError; reflexivity].
    destruct (Nat.eq_dec ((length content / N) mod 3) 0) as [F2|F2];
      [|rewrite nparr_unfold by exact HN; apply Nat.eqb_neq in F2; rewrite F2, andb_false_r;
        exists ValueError; reflexivity].
    assert (Hf : fits_chunks N content) by (split; assumption).
    destruct (Forall_dec (fun p => (length p mod 3 = 0)%nat) (fun p => Nat.eq_dec _ 0) (parts N content))
      as [H3|H3].
    2:{ apply (proj2 (nparr_eval dim N content sch HN Hb Hs Hf) H3). }
    rewrite (proj1 (nparr_eval dim N content sch HN Hb Hs Hf) H3).
    destruct (stack_reshape_cases dim (map decode12 (parts N content))) as [(Hall & Htot & _)|(_ & E)].
    2:{ exists ValueError; exact E. }
    exfalso. destruct (chunk_facts content Hf) as [L1 L2].
    set (c := (length content / N)%nat) in *.
    assert (L3 : (length content / 3 = N * (c / 3))%nat).
    { rewrite L1 at 1. rewrite L2 at 1.
      replace (N * (3 * (c / 3)))%nat with (N * (c / 3) * 3)%nat by lia. apply Nat.div_mul. lia. }
    unfold zlen in *. destruct Hor as [Hshort|(i & Hi & Hni)].
    - pose proof (parts_total content Hf) as Ht. rewrite L3 in Ht. nia.
    - (* some chunk kept its length, so all did *)
      assert (Hin : In (decode12 (chunk content c i)) (map decode12 (parts N content))).
      { apply in_map. unfold parts. fold c. apply in_map_iff. exists i. split.
        - apply strip_id, Hni.
        - apply in_seq. lia. }
      rewrite Forall_forall in Hall.
      pose proof (Hall _ Hin) as Ei. rewrite decode_len_nat in Ei.
      rewrite (chunk_length content c N i L1 Hi) in Ei.
      assert (Hc : Forall (fun l => length l = (2 * (c / 3))%nat) (map decode12 (parts N content))).
      { apply Forall_forall. intros l Hl. rewrite (Hall l Hl). symmetry. exact Ei. }
      rewrite (length_concat_const _ _ Hc), map_length in Htot.
      unfold parts in Htot. rewrite map_length, seq_length in Htot. nia.
  Qed.

  (** A correct-length file with a chunk ending in NUL is rejected. *)
  Lemma nparr_nul content sch i :
    Forall is_byte content -> complete_schedule N sch -> fits_chunks N content ->
    2 * zlen content = 3 * (dim * dim) -> (i < N)%nat ->
    ends_in_nul (chunk content (length content / N) i) ->
    raises (nparr_from_binary_gen dim (Z.of_nat N) content sch).
  Proof.
    intros Hb Hs Hf Hlen Hi Hnul.
    destruct (Forall_dec (fun p => (length p mod 3 = 0)%nat) (fun p => Nat.eq_dec _ 0) (parts N content))
      as [H3|H3].
    2:{ apply (proj2 (nparr_eval dim N content sch HN Hb Hs Hf) H3). }
    rewrite (proj1 (nparr_eval dim N content sch HN Hb Hs Hf) H3).
    destruct (stack_reshape_cases dim (map decode12 (parts N content))) as [(Hall & Htot & _)|(_ & E)].
    2:{ exists ValueError; exact E. }
    exfalso. destruct (chunk_facts content Hf) as [L1 L2].
    set (c := (length content / N)%nat) in *.
    assert (Hin : In (strip_nul (chunk content c i)) (parts N content)).
    { unfold parts. fold c. apply in_map_iff. exists i. split; [reflexivity|]. apply in_seq. lia. }
    pose proof (strip_shorter _ Hnul) as Hlt. rewrite (chunk_length content c N i L1 Hi) in Hlt.
    rewrite Forall_forall in H3. pose proof (H3 _ Hin) as Hm.
    pose proof (Nat.div_mod (length (strip_nul (chunk content c i))) 3 ltac:(lia)) as Hdm.
    set (s := length (strip_nul (chunk content c i))) in *.
    assert (Hs3 : (s / 3 < c / 3)%nat) by lia.
    pose proof (Hall) as Hall'. rewrite Forall_forall in Hall'.
    pose proof (Hall' _ (in_map decode12 _ _ Hin)) as Ei. rewrite decode_len_nat in Ei. fold s in Ei.
    assert (Hc : Forall (fun l => length l = (2 * (s / 3))%nat) (map decode12 (parts N content))).
    { apply Forall_forall. intros l Hl. rewrite (Hall' l Hl). symmetry. exact Ei. }
    unfold zlen in *.
    rewrite (length_concat_const _ _ Hc), map_length in Htot.
    unfold parts in Htot. rewrite map_length, seq_length in Htot. nia.
  Qed.

  (** A longer file made of padded chunks is accepted. *)
  Lemma nparr_padded (w : bytes) k sch :
    Forall is_byte w -> ~ ends_in_nul w -> (length w mod 3 = 0)%nat -> (k mod 3 = 0)%nat ->
    complete_schedule N sch -> Z.of_nat N * (2 * (zlen w / 3)) = dim * dim ->
    exists r, nparr_from_binary_gen dim (Z.of_nat N) (concat (repeat (w ++ repeat 0 k) N)) sch = Ok r.
  Proof.
    intros Hw Hn H3 Hk Hs Htot.
    set (u := w ++ repeat 0 k). set (content := concat (repeat u N)).
    assert (Hu : Forall is_byte u).
    { apply Forall_app. split; [exact Hw|]. apply Forall_forall. intros x Hx.
      apply repeat_spec in Hx. subst x. unfold is_byte. lia. }
    assert (Hb : Forall is_byte content).
    { unfold content. apply Forall_concat. apply Forall_forall. intros x Hx.
      apply repeat_spec in Hx. subst x. exact Hu. }
    assert (Hall : Forall (fun l => length l = length u) (repeat u N)).
    { apply Forall_forall. intros x Hx. apply repeat_spec in Hx. subst x. reflexivity. }
    assert (Hl : length content = (N * length u)%nat).
    { unfold content. rewrite (length_concat_const _ _ Hall), repeat_length. reflexivity. }
    assert (Hc : (length content / N = length u)%nat).
    { rewrite Hl, Nat.mul_comm. apply Nat.div_mul. lia. }
    assert (Hu3 : (length u mod 3 = 0)%nat).
    { unfold u. rewrite app_length, repeat_length, Nat.add_mod, H3, Hk by lia. reflexivity. }
    assert (Hf : fits_chunks N content).
    { split; [rewrite Hl, Nat.mul_comm; apply Nat.mod_mul; lia|]. rewrite Hc. exact Hu3. }
    assert (Hp : parts N content = repeat w N).
    { unfold parts. rewrite Hc.
      rewrite (map_ext_in _ (fun _ => w)).
      - clear. generalize 0%nat. induction N as [|n IH]; intros s; [reflexivity|].
        cbn [seq map repeat]. f_equal. apply IH.
      - intros i Hi. apply in_seq in Hi. unfold content.
        rewrite (chunk_of_concat (length u)) by (try exact Hall; rewrite repeat_length; lia).
        rewrite (nth_indep _ [] u) by (rewrite repeat_length; lia). rewrite nth_repeat.
        apply strip_app_nul, Hn. }
    assert (Hp3 : Forall (fun p => (length p mod 3 = 0)%nat) (parts N content)).
    { rewrite Hp. apply Forall_forall. intros x Hx. apply repeat_spec in Hx. subst x. exact H3. }
    rewrite (proj1 (nparr_eval dim N content sch HN Hb Hs Hf) Hp3), Hp.
    destruct (stack_reshape_cases dim (map decode12 (repeat w N))) as [(_ & _ & E)|(Hno & _)].
    - eexists; exact E.
    - exfalso. apply Hno.
      assert (Hd : map decode12 (repeat w N) = repeat (decode12 w) N).
      { clear. induction N as [|n IH]; [reflexivity|]. cbn [repeat map]. f_equal. exact IH. }
      rewrite Hd.
      assert (Hcst : Forall (fun l => length l = length (decode12 w)) (repeat (decode12 w) N)).
      { apply Forall_forall. intros x Hx. apply repeat_spec in Hx. subst x. reflexivity. }
      split.
      + destruct N as [|n]; [lia|]. cbn [repeat hd]. exact Hcst.
      + unfold zlen. rewrite (length_concat_const _ _ Hcst), repeat_length, decode_len_nat.
        unfold zlen in Htot. change 3 with (Z.of_nat 3) in Htot.
        rewrite <- Nat2Z.inj_div in Htot. lia.
  Qed.
End Cases.

(** ** Instances for 1952 x 1952 images and 32 chunks *)
Definition file_len : Z := 5715456.   (* 1952 * 1952 * 3 / 2 *)

Lemma file_fits content : zlen content = file_len -> fits_chunks 32 content.
Proof.
  unfold zlen, file_len. intros Hl.
  assert (E : length content = Z.to_nat 5715456) by lia.
  unfold fits_chunks. rewrite E.
  rewrite <- (Nat2Z.id 32), <- (Nat2Z.id 3).
  rewrite <- !Z2Nat.inj_div, <- !Z2Nat.inj_mod by (vm_compute; congruence).
  split; reflexivity.
Qed.

Lemma c45_good content sch :
  Forall is_byte content -> complete_schedule 32 sch -> zlen content = file_len ->
  (forall i, (i < 32)%nat -> ~ ends_in_nul (chunk content (length content / 32) i)) ->
  nparr_from_binary content sch =
  Ok (mkarr 1952 1952 (fun y x => nth (Z.to_nat (1952 * y + x)) (decode12 content) 0)).
Proof.
  intros Hb Hs Hl Hn. unfold nparr_from_binary, image_dimension. change 32 with (Z.of_nat 32).
  apply nparr_good; try assumption; [lia|apply file_fits; exact Hl|].
  rewrite Hl. reflexivity.
Qed.

Lemma c45_nul content sch i :
  Forall is_byte content -> complete_schedule 32 sch -> zlen content = file_len ->
  (i < 32)%nat -> ends_in_nul (chunk content (length content / 32) i) ->
  raises (nparr_from_binary content sch).
Proof.
  intros Hb Hs Hl Hi Hn. unfold nparr_from_binary, image_dimension. change 32 with (Z.of_nat 32).
  apply (nparr_nul 1952 32 ltac:(lia) content sch i); try assumption; [apply file_fits; exact Hl|].
  rewrite Hl. reflexivity.
Qed.

Lemma c46_partial content sch :
  Forall is_byte content -> complete_schedule 32 sch -> zlen content <> file_len ->
  (zlen content < file_len \/
   (exists i, (i < 32)%nat /\ ~ ends_in_nul (chunk content (length content / 32) i))) ->
  raises (nparr_from_binary content sch).
Proof.
  intros Hb Hs Hl Hor. unfold nparr_from_binary, image_dimension. change 32 with (Z.of_nat 32).
  apply nparr_wrong_length; try assumption; [lia| |].
  - unfold file_len in Hl. lia.
  - destruct Hor as [Hlt|Hex]; [left; unfold file_len in Hlt; lia|right; exact Hex].
Qed.

Lemma c46_refuted :
  exists content sch r, Forall is_byte content /\ complete_schedule 32 sch /\
    zlen content = file_len + 96 /\ nparr_from_binary content sch = Ok r.
Proof.
  set (w := repeat 1 (Z.to_nat 178608)).
  assert (Hw : Forall is_byte w).
  { apply Forall_forall. intros x Hx. apply repeat_spec in Hx. subst x. unfold is_byte. lia. }
  assert (Hlw : length w = Z.to_nat 178608) by apply repeat_length.
  assert (Hn : ~ ends_in_nul w).
  { intros [l' El]. assert (Hin : In 0 w) by (rewrite El; apply in_or_app; right; left; reflexivity).
    apply repeat_spec in Hin. discriminate. }
  destruct (nparr_padded 1952 32 ltac:(lia) w 3 (seq 0 32) Hw Hn) as [r Hr].
  - rewrite Hlw. rewrite <- (Nat2Z.id 3), <- Z2Nat.inj_mod by (vm_compute; congruence). reflexivity.
  - reflexivity.
  - apply Permutation_refl.
  - unfold zlen. rewrite Hlw. rewrite Z2Nat.id by lia. reflexivity.
  - exists (concat (repeat (w ++ repeat 0 3) 32)), (seq 0 32), r.
    split; [|split; [|split]].
    + apply Forall_concat, Forall_forall. intros x Hx. apply repeat_spec in Hx. subst x.
      apply Forall_app. split; [exact Hw|]. repeat constructor; unfold is_byte; lia.
    + apply Permutation_refl.
    + unfold zlen. rewrite (length_concat_const (length w + 3)).
      * rewrite repeat_length, Hlw. unfold file_len. lia.
      * apply Forall_forall. intros x Hx. apply repeat_spec in Hx. subst x.
        rewrite app_length. reflexivity.
    + exact Hr.
Qed.

(** Hypotheses of the good case are satisfiable. *)
Lemma chunk_no_nul (l : bytes) c i : ~ In 0 l -> ~ ends_in_nul (chunk l c i).
Proof.
  intros Hl [l' El]. apply Hl.
  assert (Hin : In 0 (chunk l c i)) by (rewrite El; apply in_or_app; right; left; reflexivity).
  unfold chunk in Hin.
  rewrite <- (firstn_skipn (i * c) l). apply in_or_app. right.
  rewrite <- (firstn_skipn c (skipn (i * c) l)). apply in_or_app. left. exact Hin.
Qed.

Lemma c45_witness :
  exists content, Forall is_byte content /\ zlen content = file_len /\
    (forall i, (i < 32)%nat -> ~ ends_in_nul (chunk content (length content / 32) i)).
Proof.
  assert (G : forall n, Forall is_byte (repeat 7 n) /\ zlen (repeat 7 n) = Z.of_nat n /\
    (forall i, (i < 32)%nat -> ~ ends_in_nul (chunk (repeat 7 n) (length (repeat 7 n) / 32) i))).
  { intros n. split; [|split].
    - apply Forall_forall. intros x Hx. apply repeat_spec in Hx. subst x. unfold is_byte. lia.
    - unfold zlen. rewrite repeat_length. reflexivity.
    - intros i _. apply chunk_no_nul. intros Hin. apply repeat_spec in Hin. discriminate. }
  destruct (G (Z.to_nat file_len)) as (G1 & G2 & G3).
  exists (repeat 7 (Z.to_nat file_len)). split; [exact G1|split; [|exact G3]].
  rewrite G2. apply Z2Nat.id. unfold file_len. lia.
Qed.

(** The refutation witness of the "always decodes" reading: the all-zero file. *)
Lemma c45_zero_file sch : complete_schedule 32 sch ->
  raises (nparr_from_binary (repeat 0 (Z.to_nat file_len)) sch).
Proof.
  intros Hs.
  assert (G : forall n, zlen (repeat 0 n) = file_len -> raises (nparr_from_binary (repeat 0 n) sch)).
  { intros n Hn. apply (c45_nul _ sch 0); try assumption.
    - apply Forall_forall. intros x Hx. apply repeat_spec in Hx. subst x. unfold is_byte. lia.
    - lia.
    - rewrite chunk_0. rewrite repeat_length.
      assert (Hc : (0 < n / 32)%nat).
      { unfold zlen in Hn. rewrite repeat_length in Hn. unfold file_len in Hn.
        apply Nat.div_str_pos. lia. }
      destruct (n / 32)%nat as [|c] eqn:Ec; [lia|].
      assert (Hle : (S c <= n)%nat) by (rewrite <- Ec; apply Nat.div_le_upper_bound; lia).
      exists (repeat 0 c). clear - Hle. replace n with (S c + (n - S c))%nat by lia.
      rewrite repeat_app, firstn_app, repeat_length, Nat.sub_diag, firstn_all2
        by (rewrite repeat_length; lia).
      cbn [firstn]. rewrite app_nil_r. cbn [repeat]. apply repeat_cons. }
  apply G. unfold zlen. rewrite repeat_length. apply Z2Nat.id. unfold file_len. lia.
Qed.
