(** The cache of polar coordinates (C131). *)
From Coq Require Import Reals Lra Lia.
From Verif Require Import Base.Base Base.Num Base.Bcast Model.Codec Model.Roi Model.Nrgf Model.Cache Spec.RoiSpec Spec.CacheSpec Proofs.PolFacts Proofs.RoiFacts.
Local Open Scope R_scope.

Lemma key_eqb_true a b : key_eqb a b = true <-> a = b.
Proof.
  unfold key_eqb. rewrite !andb_true_iff, !Z.eqb_eq, !Reqb_true. destruct a, b; cbn. split; [intros [[[-> ->] ->] ->]; reflexivity|intros E; injection E; auto].
Qed.

Definition right (e : polar_key * (arr R * arr R)) : Prop :=
  snd e = map_polar_coordinates (k_height (fst e)) (k_width (fst e)) (k_y (fst e)) (k_x (fst e)).
Definition fresh (c : cache) : Prop := Forall right c.

Lemma polar_call_right c k : fresh c ->
  fst (polar_call c k) = map_polar_coordinates (k_height k) (k_width k) (k_y k) (k_x k) /\ fresh (snd (polar_call c k)).
Proof.
  intros F. unfold polar_call, cache_get. destruct (find _ c) as [e|] eqn:E.
  - apply find_some in E as [Hin He]. apply key_eqb_true in He. assert (Re : right e) by (unfold fresh in F; rewrite Forall_forall in F; exact (F _ Hin)).
    subst k. split; [exact Re|]. constructor; [exact Re|]. unfold cache_drop. apply Forall_forall. intros x Hx. apply filter_In in Hx as [Hx _].
    unfold fresh in F. rewrite Forall_forall in F. exact (F _ Hx).
  - split; [reflexivity|]. cbn [snd]. apply Forall_forall. intros x Hx.
    assert (Hx' : In x ((k, map_polar_coordinates (k_height k) (k_width k) (k_y k) (k_x k)) :: c)).
    { rewrite <- (firstn_skipn 128). apply in_or_app. left. exact Hx. }
    destruct Hx' as [<-|Hx']; [reflexivity|]. unfold fresh in F. rewrite Forall_forall in F. exact (F _ Hx').
Qed.

Lemma roi_from_key {A} polar polar' (data : arr A) center rho theta incl :
  (forall k, roi_key data center rho incl = Some k -> polar (k_height k) (k_width k) (k_y k) (k_x k) = polar' (k_height k) (k_width k) (k_y k) (k_x k)) ->
  roi_condition_from polar data center rho theta incl = roi_condition_from polar' data center rho theta incl.
Proof.
  intros H. unfold roi_key in H. unfold roi_condition_from. destruct theta as [a b]. destruct rho as [[r1 r2]|]; [|reflexivity].
  destruct (match center with Some c => c | None => _ end) as [yc xc] eqn:E.
  replace (match center with None => _ | Some c => c end) with (yc, xc) in H by (destruct center; symmetry; exact E).
  destruct incl; specialize (H _ eq_refl); cbn [k_height k_width k_y k_x] in H; rewrite H; reflexivity.
Qed.

Lemma roi_key_none {A} (data : arr A) center rho theta fill incl : roi_key data center rho incl = None -> roi_from_polar data center rho theta fill incl = Raise TypeError.
Proof.
  unfold roi_key, roi_from_polar, roi_condition, roi_condition_from. destruct rho as [[? ?]|]; [|intros _; destruct theta; reflexivity].
  destruct (match center with None => _ | Some c => c end); discriminate.
Qed.

Lemma step_right c i : fresh c -> changes_nothing i -> fst (step_call c i) = alone i /\ fresh (snd (step_call c i)).
Proof.
  intros F. destruct i as [k|data center rho theta fill incl|data y x r s tm to|k y x v]; cbn [step_call alone changes_nothing]; intros Hn; [..|destruct Hn].
  - destruct (polar_call_right c k F) as [E F']. destruct (polar_call c k) as [m c']. cbn [fst snd] in *. subst m. split; [reflexivity|exact F'].
  - destruct (roi_key data center rho incl) as [k|] eqn:K.
    + destruct (polar_call_right c k F) as [E F']. destruct (polar_call c k) as [m c']. cbn [fst snd] in *. subst m. split; [|exact F'].
      unfold roi_from_polar, roi_condition. f_equal. f_equal. apply roi_from_key. intros k' K'. rewrite K in K'. injection K' as <-. reflexivity.
    + cbn [fst snd]. split; [|exact F]. rewrite (roi_key_none data center rho theta fill incl K). reflexivity.
  - destruct (polar_call_right c (nrgf_key data y x) F) as [E F']. destruct (polar_call c (nrgf_key data y x)) as [m c']. cbn [fst snd] in *. subst m. split; [reflexivity|exact F'].
Qed.

Lemma run_right p : forall c, fresh c -> Forall changes_nothing p -> fst (run_calls c p) = map alone p /\ fresh (snd (run_calls c p)).
Proof.
  induction p as [|i p IH]; intros c F Hp; [split; [reflexivity|exact F]|]. inversion_clear Hp as [|? ? Hi Hp']. cbn [run_calls map].
  destruct (step_right c i F Hi) as [E F1]. destruct (step_call c i) as [o c1]. cbn [fst snd] in E, F1.
  destruct (IH c1 F1 Hp') as [Es F2]. destruct (run_calls c1 p) as [os c2]. cbn [fst snd] in *. subst. split; [reflexivity|exact F2].
Qed.

Lemma c131_alone p : Forall changes_nothing p -> fst (run_calls [] p) = map alone p.
Proof. intros Hp. apply run_right; [constructor|exact Hp]. Qed.

(** At most 128 maps are kept, each key once. *)
Definition tidy (c : cache) : Prop := (length c <= 128)%nat /\ NoDup (map fst c).
Lemma drop_keys c k : ~ In k (map fst (cache_drop c k)).
Proof.
  intros Hi. apply in_map_iff in Hi as (e & <- & He). unfold cache_drop in He. apply filter_In in He as [_ He].
  rewrite (proj2 (key_eqb_true (fst e) (fst e)) eq_refl) in He. discriminate.
Qed.
Lemma NoDup_map_filter {A B} (f : A -> B) g l : NoDup (map f l) -> NoDup (map f (filter g l)).
Proof.
  induction l as [|a l IH]; cbn; [auto|]. intros N. inversion_clear N as [|? ? Na Nl]. destruct (g a); [|apply IH, Nl]. cbn. constructor; [|apply IH, Nl].
  intros Hi. apply Na. apply in_map_iff in Hi as (b & E & Hb). apply filter_In in Hb as [Hb _]. apply in_map_iff. exists b. auto.
Qed.
Lemma NoDup_left {A} (l l' : list A) : NoDup (l ++ l') -> NoDup l.
Proof.
  induction l as [|a l IH]; cbn; [constructor|]. intros N. inversion_clear N as [|? ? Na Nl]. constructor; [|exact (IH Nl)].
  intros Hi. apply Na, in_or_app. left. exact Hi.
Qed.
Lemma filter_shorter {A} (g : A -> bool) l : (length (filter g l) <= length l)%nat.
Proof. induction l as [|a l IH]; cbn; [lia|]. destruct (g a); cbn; lia. Qed.
Lemma drop_shorter c k e : In e c -> fst e = k -> (S (length (cache_drop c k)) <= length c)%nat.
Proof.
  intros Hi He. unfold cache_drop. induction c as [|a c IH]; [destruct Hi|]. cbn [filter length]. destruct Hi as [->|Hi].
  - rewrite (proj2 (key_eqb_true (fst e) k) He). cbn [negb]. pose proof (filter_shorter (fun e => negb (key_eqb (fst e) k)) c). lia.
  - specialize (IH Hi). destruct (negb _); cbn [length]; lia.
Qed.
Lemma polar_call_tidy c k : tidy c -> tidy (snd (polar_call c k)).
Proof.
  intros [L N]. unfold polar_call, cache_get. destruct (find _ c) as [e|] eqn:E; cbn [snd].
  - apply find_some in E as [Hin He]. apply key_eqb_true in He. split.
    + cbn [length]. pose proof (drop_shorter c k e Hin He). lia.
    + cbn [map]. constructor; [apply drop_keys|]. apply NoDup_map_filter, N.
  - split; [apply firstn_le_length|]. rewrite <- firstn_map. set (l := map fst _).
    assert (Nl : NoDup l).
    { unfold l. cbn [map]. constructor; [|exact N]. intros Hi. apply in_map_iff in Hi as (e & Ee & He). pose proof (find_none _ _ E e He) as Hf. cbv beta in Hf.
      rewrite (proj2 (key_eqb_true (fst e) k) Ee) in Hf. discriminate. }
    rewrite <- (firstn_skipn 128 l) in Nl. apply NoDup_left in Nl. exact Nl.
Qed.
Lemma step_tidy c i : tidy c -> tidy (snd (step_call c i)).
Proof.
  intros T. destruct i as [k|data center rho theta fill incl|data y x r s tm to|k y x v]; cbn [step_call].
  - pose proof (polar_call_tidy c k T) as T'. destruct (polar_call c k). exact T'.
  - destruct (roi_key data center rho incl) as [k|]; [|exact T]. pose proof (polar_call_tidy c k T) as T'. destruct (polar_call c k). exact T'.
  - pose proof (polar_call_tidy c (nrgf_key data y x) T) as T'. destruct (polar_call c _). exact T'.
  - cbn [snd]. destruct T as [L N]. split; [rewrite map_length; exact L|]. rewrite map_map.
    rewrite (map_ext _ fst); [exact N|]. intros e. destruct (key_eqb _ _); reflexivity.
Qed.
Lemma run_tidy p : forall c, tidy c -> tidy (snd (run_calls c p)).
Proof.
  induction p as [|i p IH]; intros c T; [exact T|]. cbn [run_calls]. pose proof (step_tidy c i T) as T1. destruct (step_call c i) as [o c1]. cbn [snd] in T1.
  specialize (IH c1 T1). destruct (run_calls c1 p) as [os c2]. exact IH.
Qed.
Lemma c131_bounded p : let c := snd (run_calls [] p) in (length c <= 128)%nat /\ NoDup (map fst c).
Proof. apply (run_tidy p []). split; [cbn; lia|constructor]. Qed.

(** ** A changed map *)
Definition changed_program : list call :=
  let k := mkkey 2 2 0 0 in
  [CallMap k; Change k 1 1 0; CallRoi (full 2 2 7) (Some (0, 0)) (Some (1 / 2, 5)) (0, 360) 0 false].

Lemma c131_changed : exists r r', fst (run_calls [] changed_program) = [Maps (map_polar_coordinates 2 2 0 0); Done; Image (Ok r)] /\
  map alone changed_program = [Maps (map_polar_coordinates 2 2 0 0); Done; Image (Ok r')] /\ cell r 1 1 = 0 /\ cell r' 1 1 = 7.
Proof.
  pose (k := mkkey 2 2 0 0). assert (K : key_eqb k k = true) by (apply key_eqb_true; reflexivity).
  unfold changed_program. cbn [run_calls step_call roi_key rows cols full]. fold k. unfold polar_call at 1. cbn [cache_get find firstn].
  cbn [map fst snd k_height k_width k_y k_x]. rewrite K. cbn [fst snd].
  change (mkkey 2 2 0 0) with k. unfold polar_call, cache_get. cbn [find fst]. rewrite K. cbn [fst snd].
  eexists _, _. split; [reflexivity|]. split; [reflexivity|]. cbn [alone]. unfold roi_from_polar, roi_condition, roi_condition_from, where_fill. cbn.
  split.
  - rewrite (proj2 (Rltb_false (1 / 2) 0)) by lra. reflexivity.
  - assert (S : 1 / 2 < rho_at 0 0 1 1 <= 5).
    { unfold rho_at. replace ((IZR 1 - 0) * (IZR 1 - 0) + (IZR 1 - 0) * (IZR 1 - 0)) with 2 by ring.
      pose proof (sqrt_lt_1_alt 1 2 ltac:(lra)) as A. rewrite sqrt_1 in A. pose proof (sqrt_lt_1_alt 2 (5 * 5) ltac:(lra)) as B. rewrite sqrt_square in B by lra. lra. }
    rewrite (proj2 (Rltb_true _ _) (proj1 S)), (proj2 (Rleb_true _ _) (proj2 S)).
    destruct (polar_at 0 0 1 1) as (_ & P & _).
    rewrite (proj2 (Rleb_true 0 _)) by lra. rewrite (proj2 (Rltb_true _ 360)) by lra. reflexivity.
Qed.
