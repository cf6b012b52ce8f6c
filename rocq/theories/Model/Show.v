(** What the plotting methods draw: micropolarray/image.py 228-275 and
    micropolarray/micropol_image.py 434-588, 590-647.  A figure is the list of its panels; colours,
    colour bars, axis labels and figure sizes are left out, as are the numbers written into titles. *)
From Coq Require Import Reals String.
From Verif Require Import Base.Base Base.Num Model.Demosaic Model.Stokes Model.Pol Model.Histogram Model.Limits.
Local Open Scope R_scope.

(** One [imshow] with its limits ([None] is NaN) and what the title names. *)
Record panel (T : Type) : Type := mkpanel { p_image : arr R; p_vmin : option R; p_vmax : option R; p_title : T }.
Arguments mkpanel {T} p_image p_vmin p_vmax p_title.
Arguments p_image {T} p.
Arguments p_vmin {T} p.
Arguments p_vmax {T} p.
Arguments p_title {T} p.

(** [data.shape[0] / data.shape[1]] *)
Definition data_ratio (data : arr R) : result R :=
  if (cols data =? 0)%Z then Raise ZeroDivisionError else Ok (IZR (rows data) / IZR (cols data)).

(** [np.min], [np.max] *)
Definition np_min (data : arr R) : result R :=
  match pixels data with [] => Raise ValueError | v :: l => Ok (smallest v l) end.
Definition np_max (data : arr R) : result R :=
  match pixels data with [] => Raise ValueError | v :: l => Ok (largest v l) end.

(** image.py 228-256 *)
Definition show (data : arr R) (vmin vmax : option R) : result (panel unit) :=
  let* _ := data_ratio data in
  let* lo := match vmin with None => np_min data | Some v => Ok v end in
  let* hi := match vmax with None => np_max data | Some v => Ok v end in
  Ok (mkpanel data (Some lo) (Some hi) tt).

(** micropol_image.py 138-181 *)
Definition polparam_list (s : stokes R) : list (string * arr R) :=
  [("I", sI s); ("Q", sQ s); ("U", sU s); ("pB", pB s); ("AoLP", AoLP s); ("DoLP", DoLP s)]%string.

(** 434-474: the data and the six parameters with mean -+ standard deviation, which is computed
    without [mean_minus_std] *)
Definition stats_panel {T} (a : arr R) (title : T) : panel T :=
  mkpanel a (lift2 Rminus (array_mean a) (array_std a)) (lift2 Rplus (array_mean a) (array_std a)) title.
(** 476-518 *)
Definition show_pol_params (data : arr R) (s : stokes R) : result (list (panel string)) :=
  let* _ := data_ratio data in
  Ok (map (fun p => stats_panel (snd p) (fst p)) (polparam_list s)).
Definition show_with_pol_params (data : arr R) (s : stokes R) : result (panel unit * list (panel string)) :=
  let* _ := data_ratio data in
  let* params := show_pol_params data s in
  Ok (stats_panel data tt, params).

(** 183-225: the sub-image of an orientation *)
Definition oriented (data : arr R) (d : angle_dic) (angle : Z) : result (arr R) :=
  let* q := split_polarizations data in
  let* i := dict_get d angle in
  quad_get q i.
(** 520-546: no limits are passed (matplotlib then uses the smallest and largest value) *)
Definition show_single_pol_images (data : arr R) (d : angle_dic) : result (list (arr R * Z)) :=
  let* _ := data_ratio data in
  let* p0 := oriented data d 0 in
  let* p45 := oriented data d 45 in
  let* p90 := oriented data d 90 in
  let* pm45 := oriented data d (-45) in
  Ok [(p0, 0%Z); (p45, 45%Z); (p90, 90%Z); (pm45, (-45)%Z)].

(** [list(d.keys())[list(d.values()).index(i)]] *)
Fixpoint key_of (d : angle_dic) (i : Z) : result Z :=
  match d with
  | [] => Raise ValueError
  | (k, v) :: d' => if (v =? i)%Z then Ok k else key_of d' i
  end.

(** One turn of the loop of 565-587: [this_vmin] is assigned only if no [vmin] is given, and used
    in any case. *)
Definition demo_panel (demos : option (quad R)) (d : angle_dic) (vmin vmax : option R) (i : Z)
    : result (panel Z) :=
  let* demo := match demos with None => Raise TypeError | Some q => Ok (qnth q i) end in
  let* this_vmin := match vmin with None => Ok (mean_minus_std demo 1) | Some _ => Raise UnboundLocalError end in
  let* this_vmax := match vmax with None => Ok (mean_plus_std demo 1) | Some _ => Raise UnboundLocalError end in
  let* key := key_of d i in
  Ok (mkpanel demo this_vmin this_vmax key).
(** 548-588; 559-560 only logs that the image is not demosaiced *)
Definition show_demo_images (data : arr R) (demos : option (quad R)) (d : angle_dic) (vmin vmax : option R)
    : result (list (panel Z)) :=
  let* _ := data_ratio data in
  let* a := demo_panel demos d vmin vmax 0 in
  let* b := demo_panel demos d vmin vmax 1 in
  let* c := demo_panel demos d vmin vmax 2 in
  let* e := demo_panel demos d vmin vmax 3 in
  Ok [a; b; c; e].

(** 590-626 for the six names of the documentation; other attribute names are taken as missing *)
Fixpoint getattr (l : list (string * arr R)) (name : string) : result (arr R) :=
  match l with
  | [] => Raise AttributeError
  | (n, a) :: l => if String.eqb n name then Ok a else getattr l name
  end.
Definition show_pol_param (data : arr R) (s : stokes R) (name : string) (vmin vmax : option R)
    : result (panel string) :=
  let* a := getattr (polparam_list s) name in
  let* _ := data_ratio data in
  Ok (mkpanel a (match vmin with None => mean_minus_std a 1 | Some v => Some v end)
               (match vmax with None => mean_plus_std a 1 | Some v => Some v end) name).

(** np.histogram(values, bins, range): the default range is that of [Histogram.histogram]; values
    outside of the range are dropped. *)
Definition outer_edges (range : option (R * R)) (values : list R) : result (R * R) :=
  match range with
  | None => Ok (hist_range values)
  | Some (a, b) =>
      if Rltb b a then Raise ValueError
      else Ok (if Reqb a b then (a - 1 / 2, b + 1 / 2) else (a, b))
  end.
Definition edge_of (ab : R * R) (bins k : Z) : R := fst ab + IZR k * ((snd ab - fst ab) / IZR bins).
Definition falls_in (ab : R * R) (bins i : Z) (v : R) : bool :=
  Rleb (edge_of ab bins i) v &&
  (Rltb v (edge_of ab bins (i + 1)) || ((i =? bins - 1)%Z && Rleb v (edge_of ab bins bins))).
Definition np_histogram (values : list R) (bins : Z) (range : option (R * R)) : result (list Z * list R) :=
  if (bins <? 1)%Z then Raise ValueError else
  let* ab := outer_edges range values in
  Ok (map (fun i => Z.of_nat (length (filter (falls_in ab bins i) values))) (zrange bins),
      map (edge_of ab bins) (zrange (bins + 1))).

(** image.py 258-275 and micropol_image.py 628-647: the total, then the families *)
Definition show_histogram (data : arr R) (split_pols : bool) (bins : Z) (range : option (R * R))
    : result (list (list Z * list R)) :=
  let* total := np_histogram (pixels data) bins range in
  if split_pols then
    let* q := split_polarizations data in
    let* a := np_histogram (pixels (q0 q)) bins range in
    let* b := np_histogram (pixels (q1 q)) bins range in
    let* c := np_histogram (pixels (q2 q)) bins range in
    let* e := np_histogram (pixels (q3 q)) bins range in
    Ok [total; a; b; c; e]
  else Ok [total].
