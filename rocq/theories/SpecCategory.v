(** What the result of one category means, in terms of the images on the disk. *)
From Verif Require Export SpecSingle SpecSamples SpecMetrics PropertiesEval3.
Open Scope Z_scope.
Open Scope list_scope.

Definition on (flag : option bool) : bool := match flag with Some b => b | None => false end.
(** SBD does not count predictions in the 5 outermost pixels. *)
Definition ignores_border (k : kind) : bool := match k with SBD | Reanno => true | _ => false end.

(** ** Stored ground truth *)
(** The three images of a sample. *)
Definition stored_sample (d : disk) (g : gt_files) (pred_file : text) (edge : rgb) (seg pred : image Z) : Prop :=
  match g with
  | EdgeSeg edge_file seg_file => d edge_file = Some (Colour edge) /\ d seg_file = Some (Gray seg) /\ d pred_file = Some (Gray pred)
  | SegInst _ _ => False
  end.
(** Non-empty images, an edge picture with channels of one size, a size that stays positive (and is at least
    2 x 2 for the suppression of non-maxima). *)
Definition stored_usable (e : eparams) (edge : rgb) (seg pred : image Z) : Prop :=
  rgb_shape edge /\ bytes (ch_r edge) /\ bytes (ch_g edge) /\ bytes (ch_b edge) /\ wf seg /\ wf pred /\
  (0 < g_h edge)%nat /\ (0 < g_w edge)%nat /\ (0 < ht seg)%nat /\ (0 < wd seg)%nat /\ (0 < ht pred)%nat /\ (0 < wd pred)%nat /\
  forall h w, scaled_size (g_h edge) (e_scale e) h -> scaled_size (g_w edge) (e_scale e) w ->
    ((0 < h)%nat \/ (0 < w)%nat) /\ (e_nms e = true -> (2 <= h)%nat /\ (2 <= w)%nat).
(** The counts of a class for these images: everything is resampled to the scaled size of the edge picture. *)
Definition stored_counts (lib : libm) (border : bool) (category : Z) (e : eparams) (th : list Q) (edge : rgb) (seg pred : image Z) (c : counts) : Prop :=
  exists h w r g b seg' pred' edges mask q,
    scaled_size (g_h edge) (e_scale e) h /\ scaled_size (g_w edge) (e_scale e) w /\
    resampled 0 (ch_r edge) h w r /\ resampled 0 (ch_g edge) h w g /\ resampled 0 (ch_b edge) h w b /\
    resampled 0 seg h w seg' /\ resampled 0 pred h w pred' /\
    class_edges r g b category edges /\ label_mask seg' (category - 1) mask /\
    strengths (l_orient lib) (l_cos lib) (l_sin lib) border (e_nms e) pred' q /\
    per_threshold th c (class_counts (e_thinning e) (on (e_kill e)) (on (e_skip e)) q edges mask (tolerance2 (e_dist e) edges)).

(** ** Ground truth computed from the labels *)
Definition label_sample (d : disk) (g : gt_files) (pred_file : text) (img : image Z) (insts : option (image Z)) (pred : image Z) : Prop :=
  match g with
  | EdgeSeg _ _ => False
  | SegInst label_file inst_file => d label_file = Some (Gray img) /\ d pred_file = Some (Gray pred) /\
      match inst_file, insts with Some f, Some i => d f = Some (Gray i) | None, None => True | _, _ => False end
  end.
Definition label_usable (e : eparams) (img : image Z) (insts : option (image Z)) (pred : image Z) : Prop :=
  wf img /\ wf pred /\ (0 < ht img)%nat /\ (0 < wd img)%nat /\ (0 < ht pred)%nat /\ (0 < wd pred)%nat /\
  match insts with None => True | Some i => (0 < ht i)%nat /\ (0 < wd i)%nat /\ (forall id, has_id i id -> 0 <= id < 100000) end /\
  forall h w, scaled_size (ht img) (e_scale e) h -> scaled_size (wd img) (e_scale e) w -> (34 <= h)%nat /\ (e_nms e = true -> (2 <= w)%nat).
Definition label_counts (lib : libm) (category label radius : Z) (e : eparams) (th : list Q) (img : image Z) (insts : option (image Z)) (pred : image Z) (c : counts) : Prop :=
  exists h w img' insts' pred' edges mask q,
    scaled_size (ht img) (e_scale e) h /\ scaled_size (wd img) (e_scale e) w /\
    resampled 0 img h w img' /\ resampled 0 pred h w pred' /\
    match insts, insts' with Some i, Some i' => resampled 0 i h w i' | None, None => True | _, _ => False end /\
    cityscapes_class_edges img' insts' label radius edges /\ label_mask img' label mask /\
    strengths (l_orient lib) (l_cos lib) (l_sin lib) false (e_nms e) pred' q /\
    per_threshold th c (class_counts (e_thinning e) (on (e_kill e)) (on (e_skip e)) q edges mask (tolerance2 (e_dist e) edges)).

(** ** The result *)
(** The threshold rows of a result are the scores of the summed counts. *)
Definition rows_of_counts (th : list Q) (cs : list counts) (trs : list score) : Prop :=
  List.length trs = List.length th /\
  forall i, (i < List.length th)%nat ->
    let sum f := zsum (map (fun c => nth i (f c) 0) cs) in
    let R := recall (sum count_r) (sum sum_r) in let P := precision (sum count_p) (sum sum_p) in
    nth i trs (0, 0, 0, 0)%Q = (nth i th 0%Q, R, P, f1 P R).
(** A result for the samples [names] whose counts satisfy [per_sample]. *)
Definition category_result (thr : tharg) (th : list Q) (names : list text) (per_sample : text -> counts -> Prop)
    (result : list sample_row * list score * overall) : Prop :=
  exists cs, Forall2 per_sample names cs /\ Forall sane cs /\
    let '(rows, trs, ov) := result in
    map r_name rows = map name_string names /\ rows_of_counts th cs trs /\
    summarise thr (combine (map name_string names) cs) = Ok result /\
    (forall x, In x [ODS_recall ov; ODS_precision ov; ODS_f1 ov; OIS_recall ov; OIS_precision ov; OIS_f1 ov; AUC ov; AP ov] -> (0 <= x <= 1)%Q).
