(** Properties C81-C83: demosaicing options, resampled images, constructors. *)
From Coq Require Import Reals Lra.
From Verif Require Import Base.Base Base.Num Model.Demosaic Model.Stokes Model.ImageObj Model.Construct
  Spec.MosaicSpec Spec.ImageSpec Spec.ConstructSpec Proofs.ConstructFacts.
Local Open Scope Z_scope.

(** ** C81.  Full statement: every option handled by [demosaic] works.  False for "spline". *)
Theorem C81_options_partial {A} `{Num A} (d : arr A) o :
  mosaic d -> (o = "mean" \/ o = "adjacent")%string ->
  exists q, demosaic d o = Ok q /\ forall k, 0 <= k < 4 -> rows (qnth q k) = rows d /\ cols (qnth q k) = cols d.
Proof. exact (options_work d o). Qed.
Print Assumptions C81_options_partial.

Theorem C81_spline_refuted {A} `{Num A} (d : arr A) : demosaic d "spline" = Raise AttributeError.
Proof. exact eq_refl. Qed.
Print Assumptions C81_spline_refuted.

Example C81_case : mosaic (mkarr 4 2 (fun y x => IZR (10 * y + x))).
Proof. repeat split; vm_compute; congruence. Qed.

(** ** C82.  Full statement: the Stokes parameters of a resampled image have half the sides of
    its data, or all of them once demosaiced.  False: always all of them. *)
Theorem C82_congrid_refuted hist h W i ny nx v h' k :
  reached hist h -> view_of h i = Some v ->
  (forall a y x b, resize W a y x = Ok b -> rows b = y /\ cols b = x) ->
  exec W (Congrid i ny nx) h = (h', Ok (Some k)) ->
  exists u, view_of h' k = Some u /\
    (v_demosaiced v = true -> vector_fits u) /\
    (v_demosaiced v = false -> 0 < ny - ny mod 2 \/ 0 < nx - nx mod 2 -> ~ vector_fits u).
Proof. exact (congrid_fits hist h W i ny nx v h' k). Qed.
Print Assumptions C82_congrid_refuted.

(** Also the interpolated images of a demosaiced image keep their old size. *)
Theorem C82_sizes_partial hist h W i ny nx v h' k :
  reached hist h -> view_of h i = Some v ->
  (forall a y x b, resize W a y x = Ok b -> rows b = y /\ cols b = x) ->
  exec W (Congrid i ny nx) h = (h', Ok (Some k)) ->
  exists u, view_of h' k = Some u /\ v_demosaiced u = v_demosaiced v /\ v_quad u = v_quad v /\
    rows (v_data u) = ny - ny mod 2 /\ cols (v_data u) = nx - nx mod 2 /\
    rows (sI (v_vector u)) = ny - ny mod 2 /\ cols (sI (v_vector u)) = nx - nx mod 2 /\
    rows (sQ (v_vector u)) = ny - ny mod 2 /\ cols (sQ (v_vector u)) = nx - nx mod 2 /\
    rows (sU (v_vector u)) = ny - ny mod 2 /\ cols (sU (v_vector u)) = nx - nx mod 2.
Proof. exact (congrid_sizes hist h W i ny nx v h' k). Qed.
Print Assumptions C82_sizes_partial.

(** The other methods, as long as nothing is demosaiced. *)
Theorem C82_others_partial hist h i v a :
  reached hist h -> Forall (fun e => plain_call (snd e)) hist -> view_of h i = Some v -> describes (v_dic v) a ->
  vector_fits v.
Proof. exact (plain_fits hist h i v a). Qed.
Print Assumptions C82_others_partial.

(** A 4 x 4 image resampled to 6 x 9, that is 6 x 8. *)
Definition resizing : outside :=
  mkoutside (fun _ _ => 7%R) (fun _ _ _ => 0%R) (fun _ a => Ok a) (fun _ y x => Ok (mkarr y x (fun _ _ => 0%R))) 100%nat.
Example C82_case :
  let hist := [(resizing, Create (mkarr 4 4 (fun _ _ => 1%R)) None None None)] in
  let h := run_history hist empty_heap in
  reached hist h /\ Forall (fun e => plain_call (snd e)) hist /\
  (match view_of h 0 with Some v => v_demosaiced v = false | None => False end) /\
  (forall a y x b, resize resizing a y x = Ok b -> rows b = y /\ cols b = x) /\
  snd (exec resizing (Congrid 0 6 9) h) = Ok (Some 1%nat).
Proof.
  cbv zeta. split; [split; [repeat constructor; cbn; lia|reflexivity]|].
  split; [repeat constructor|]. split; [vm_compute; reflexivity|].
  split; [intros a y x b E; injection E as <-; auto|vm_compute; reflexivity].
Qed.

(** ** C83.  Full statement: a constructor gives an image with data, or raises.  True of
    MicropolImage, false of Image. *)
Theorem C83_micropol dic x m :
  source_ok x -> new_micropol dic x = Ok m ->
  has_data (m_plain m) /\
  match x with
  | FromMicropol i => p_data (m_plain m) = p_data (m_plain i) /\ m_stokes m = m_stokes i /\ m_dic m = m_dic i
  | _ => m_dic m = dic /\ m_demosaiced m = None /\
         exists d, p_data (m_plain m) = Some d /\ rows d mod 2 = 0 /\ cols d mod 2 = 0 /\
                   data_stokes dic d = Ok (m_stokes m)
  end.
Proof. exact (micropol_data dic x m). Qed.
Print Assumptions C83_micropol.

Theorem C83_image_partial x p : known x -> new_image x = Ok p -> has_data p.
Proof. exact (known_data _ x p). Qed.
Print Assumptions C83_image_partial.

(** From a MicropolImage, or anything of an unknown type. *)
Theorem C83_image_refuted x : ~ known x -> exists p, new_image x = Ok p /\ p_data p = None.
Proof.
  exact (fun Hx => match x return ~ known x -> exists p, new_image x = Ok p /\ p_data p = None with
    | FromMicropol _ | FromOther => fun _ => ex_intro _ _ (conj eq_refl eq_refl)
    | _ => fun Hn => False_ind _ (Hn I)
    end Hx).
Qed.
Print Assumptions C83_image_refuted.

Example C83_case :
  let d := mkarr 2 4 (fun y x => IZR (y + x)) in
  let p := mkplain (Some d) (Some (2, 4)) in
  (exists m, new_micropol polarcam_angles (FromArray (Matrix d)) = Ok m /\ source_ok (FromMicropol m)) /\
  new_micropol polarcam_angles (FromArray (Matrix (mkarr 3 4 (fun _ _ => 0%R)))) = Raise ValueError /\
  new_image (FromImage p) = Ok p /\ new_image (FromArray (NotMatrix [4; 2; 2])) = Raise ValueError.
Proof.
  cbv zeta. split; [|split; [reflexivity|split; reflexivity]].
  eexists. split; [reflexivity|]. exists (mkarr 2 4 (fun y x => IZR (y + x))). split; reflexivity.
Qed.
