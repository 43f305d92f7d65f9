(** Evaluation of one image: pyEdgeEval/common/binary_label/evaluate_boundaries.py,
    pyEdgeEval/common/multi_label/evaluate_boundaries.py, pyEdgeEval/common/multi_label/options.py
    and the [_evaluate_single] functions of pyEdgeEval/datasets.

    Simplifications (also in DESIGN.md): prediction strengths, thresholds and tolerances are exact
    rationals; NMS uses the libm functions given in [libm]; [fuel]/[pfuel] bound the steps of the
    assignment solver (a result [None] means "not finished"; correspondence_exists shows that large
    enough bounds always exist); the state of the random generator is passed explicitly. *)
From Verif Require Export ModelThin ModelEdges ModelMatch ModelNMS ModelMetrics.
Open Scope Z_scope.

(** The floating point functions used by NMS (see ModelNMS.v). *)
Record libm := mkLibm { l_orient : Q -> Q; l_cos : Q -> Q; l_sin : Q -> Q; l_f32 : Q -> Q }.

(** [im.sum()] of an integer array. *)
Definition img_sum (im : image Z) : Z := zsum (List.concat (rows im)).
(** [(match > 0).sum()]. *)
Definition positives (m : image Z) : image bool := imap (fun v => 0 <? v) m.

(** binary_label/evaluate_boundaries.py:66,151 and multi_label/evaluate_boundaries.py:83:
    [_pred = pred >= thresh]. *)
Definition thresholded (pred : image Q) (thresh : Q) : image bool := imap (fun v => Qle_bool thresh v) pred.
(** [if apply_thinning: _pred = binary_thin(_pred)] (thinning always terminates:
    binary_thin_terminates; the [None] branch is unreachable). *)
Definition maybe_thin (apply_thinning : bool) (b : image bool) : image bool :=
  if apply_thinning then match binary_thin None (Bin b) with Some r => as_bool r | None => b end else b.
(** [if apply_nms: pred = fast_nms(img=pred, **nms_kwargs)] with the default arguments
    [r=1, s=5, m=1.01, half_prec=False]. *)
Definition maybe_nms (lib : libm) (apply_nms : bool) (pred : image Q) : res (image Q) :=
  if apply_nms then fast_nms (l_orient lib) (l_cos lib) (l_sin lib) (l_f32 lib) (F64 pred) 1 5 (101 # 100) false
  else Ok pred.

(** The four numbers stored at index [i_t]. *)
Record row4 := mkR4 { cr : Z; sr : Z; cp : Z; sp : Z }.
Definition to_counts (l : list row4) : counts := mkCounts (map cr l) (map sr l) (map cp l) (map sp l).

(** A computation that uses the random generator and the (bounded) solver. *)
Definition run (A : Type) : Type := stream -> res (option (A * stream)).
Definition ret {A} (a : A) : run A := fun s => Ok (Some (a, s)).
Definition fail {A} (e : exn) : run A := fun _ => Err e.
Definition then_ {A B} (m : run A) (f : A -> run B) : run B := fun s =>
  bind (m s) (fun r => match r with None => Ok None | Some (a, s) => f a s end).
(** [for x in l]. *)
Fixpoint forM {A B} (f : A -> run B) (l : list A) : run (list B) :=
  match l with
  | [] => ret []
  | a :: l => then_ (f a) (fun b => then_ (forM f l) (fun bs => ret (b :: bs)))
  end.

Section Solver.
Variables fuel pfuel : nat.

(** The call [correspond_pixels(_pred, gt, max_dist=max_dist)]; arrays are converted to float and
    compared with 0 (correspond_pixels.pyx:59-60, match.cc). *)
Definition correspond (p gt : image Z) (max_dist : Q) : run outcome :=
  correspond_pixels (nonzero p) (nonzero gt) max_dist 100 fuel pfuel.

(** The block shared by the two single-GT versions: binary_label/evaluate_boundaries.py:72-84,
    multi_label/evaluate_boundaries.py:101-113. *)
Definition score_against (p gt : image Z) (max_dist : Q) : run row4 :=
  then_ (correspond p gt max_dist) (fun o =>
    ret (mkR4 (Z.of_nat (count_true (positives (m2 o)))) (img_sum gt)
              (Z.of_nat (count_true (positives (m1 o)))) (img_sum p))).

(** ** binary_label *)
(** binary_label/evaluate_boundaries.py:64-89: one threshold. *)
Definition binary_step (pred : image Q) (gt : image Z) (max_dist : Q) (apply_thinning : bool) (thresh : Q) : run row4 :=
  let p := imap b2z (maybe_thin apply_thinning (thresholded pred thresh)) in
  if any_nonzero gt then score_against p gt max_dist
  else ret (mkR4 0 0 0 (img_sum p)).

(** binary_label/evaluate_boundaries.py:9-91 [evaluate_boundaries_threshold]. *)
Definition evaluate_binary (lib : libm) (thresholds : list Q) (pred : image Q) (gt : image Z) (max_dist : Q)
    (apply_thinning apply_nms : bool) : run counts := fun s =>
  bind (maybe_nms lib apply_nms pred) (fun pred =>
    then_ (forM (binary_step pred gt max_dist apply_thinning) thresholds) (fun l => ret (to_counts l)) s).

(** binary_label/evaluate_boundaries.py:158-172: the loop over the annotators; [acc] is
    (acc_prec, sum_r, count_r). *)
Fixpoint gts_loop (p : image Z) (max_dist : Q) (gts : list (image Z)) (acc : image bool * Z * Z) : run (image bool * Z * Z) :=
  match gts with
  | [] => ret acc
  | gt :: gts =>
    then_ (correspond p gt max_dist) (fun o =>
      let '(acc_prec, sum_r, count_r) := acc in
      gts_loop p max_dist gts
        (tab (ht p) (wd p) (fun y x => px false acc_prec y x || px false (positives (m1 o)) y x),
         sum_r + img_sum gt, count_r + Z.of_nat (count_true (positives (m2 o)))))
  end.
(** binary_label/evaluate_boundaries.py:149-176: one threshold. *)
Definition multi_gt_step (pred : image Q) (gts : list (image Z)) (max_dist : Q) (apply_thinning : bool) (thresh : Q) : run row4 :=
  let p := imap b2z (maybe_thin apply_thinning (thresholded pred thresh)) in
  then_ (gts_loop p max_dist gts (tab (ht p) (wd p) (fun _ _ => false), 0, 0)) (fun '(acc_prec, sum_r, count_r) =>
    ret (mkR4 count_r sum_r (Z.of_nat (count_true acc_prec)) (img_sum p))).
(** binary_label/evaluate_boundaries.py:94-178 [evaluate_boundaries_threshold_multiple_gts]. *)
Definition evaluate_multiple_gts (lib : libm) (thresholds : list Q) (pred : image Q) (gts : list (image Z)) (max_dist : Q)
    (apply_thinning apply_nms : bool) : run counts := fun s =>
  bind (maybe_nms lib apply_nms pred) (fun pred =>
    then_ (forM (multi_gt_step pred gts max_dist apply_thinning) thresholds) (fun l => ret (to_counts l)) s).

(** ** multi_label/options.py *)
(** A segmentation array: boolean or uint8. *)
Inductive seg_arr := SegBool (im : image bool) | SegU8 (im : image Z).
Definition seg_ht (s : seg_arr) : nat := match s with SegBool i => ht i | SegU8 i => ht i end.
Definition seg_wd (s : seg_arr) : nat := match s with SegBool i => wd i | SegU8 i => wd i end.

(** [distmap > buffer] with [distmap = distance_transform_edt(1 - gt)] and
    [buffer = sqrt(h^2 + w^2) * max_dist], compared through squares.  Without any pixel equal to 1
    scipy's result is unspecified ("buggy output", options.py:20); the model then says "far". *)
Definition far_from (gt : image Z) (max_dist : Q) (h w : nat) (y x : Z) : bool :=
  match edt2 (tab (ht gt) (wd gt) (fun y x => negb (1 - px 0 gt y x =? 0))) y x with
  | Some d2 => qlt max_dist 0 || qlt (max_dist * max_dist * inject_Z (diag2 h w)) (inject_Z d2)
  | None => true
  end.
(** options.py:7-25 [kill_internal_prediction]; [np.invert] is logical not on booleans and
    [255 - v] on uint8.  Arrays of different shapes are assumed not to broadcast. *)
Definition kill_internal_prediction (pred : image Z) (gt : image Z) (seg : seg_arr) (max_dist : Q) : res (image Z) :=
  if negb (Nat.eqb (ht gt) (seg_ht seg) && Nat.eqb (wd gt) (seg_wd seg)) then Err ValueError
  else if negb (Nat.eqb (ht gt) (ht pred) && Nat.eqb (wd gt) (wd pred)) then Err AssertionError
  else
    let killmask y x := match seg with
      | SegBool i => b2z (negb (far_from gt max_dist (ht pred) (wd pred) y x && px false i y x))
      | SegU8 i => 255 - b2z (far_from gt max_dist (ht pred) (wd pred) y x) * px 0 i y x
      end in
    Ok (tab (ht pred) (wd pred) (fun y x => px 0 pred y x * killmask y x)).

(** ** multi_label *)
(** multi_label/evaluate_boundaries.py:81-118: one threshold. *)
Definition multi_label_step (pred : image Q) (gt : image Z) (gt_seg : option seg_arr) (max_dist : Q)
    (apply_thinning kill_internal : bool) (thresh : Q) : run row4 := fun s =>
  let p := imap b2z (maybe_thin apply_thinning (thresholded pred thresh)) in
  if any_nonzero gt then
    bind (if kill_internal then
            match gt_seg with
            | None => Err AssertionError
            | Some seg => kill_internal_prediction p gt seg max_dist
            end
          else Ok p) (fun p => score_against p gt max_dist s)
  else ret (mkR4 0 0 0 (img_sum p)) s.

(** multi_label/evaluate_boundaries.py:13-120 [evaluate_boundaries_threshold]. *)
Definition evaluate_multi_label (lib : libm) (thresholds : list Q) (pred : image Q) (gt : image Z) (gt_seg : option seg_arr)
    (max_dist : Q) (apply_thinning kill_internal skip_if_nonexistent apply_nms : bool) : run counts := fun s =>
  if skip_if_nonexistent && negb (any_nonzero gt) then ret (to_counts (map (fun _ => mkR4 0 0 0 0) thresholds)) s
  else
    bind (maybe_nms lib apply_nms pred) (fun pred =>
      then_ (forM (multi_label_step pred gt gt_seg max_dist apply_thinning kill_internal) thresholds)
            (fun l => ret (to_counts l)) s).
End Solver.

(** ** datasets *)
(** [int(n * scale + 0.5)] (edge_decoding.py:54, otf_cityscapes.py:158). *)
Definition scaled (n : nat) (scale : Q) : nat := Z.to_nat (trunc (inject_Z (Z.of_nat n) * scale + (1 # 2))%Q).
(** [Image.resize((width, height), NEAREST)]: output pixel [i] reads input pixel
    [floor((i + 1/2) * n_in / n_out)].  (PIL rejects a width or height of 0; the model does not.) *)
Definition nearest (n_in n_out : nat) (i : Z) : Z := (2 * i + 1) * Z.of_nat n_in / (2 * Z.of_nat n_out).
Definition resize {A} (d : A) (h w : nat) (im : image A) : image A :=
  tab h w (fun y x => px d im (nearest (ht im) h y) (nearest (wd im) w x)).
Definition resize_rgb (h w : nat) (im : rgb) : rgb :=
  mkRGB h w (resize 0 h w (ch_r im)) (resize 0 h w (ch_g im)) (resize 0 h w (ch_b im)).

(** [(pred / 255).astype(float)]. *)
Definition unit_range (pred : image Z) : image Q := imap (fun v => inject_Z v / inject_Z 255)%Q pred.
(** common/multi_label/utils.py:6-21 on the floating point prediction with [border_px=5, ignore_id=0]
    (datasets/sbd.py:51-53). *)
Definition blank_border (pred : image Q) : image Q :=
  let h := Z.of_nat (ht pred) in let w := Z.of_nat (wd pred) in
  tab (ht pred) (wd pred) (fun y x =>
    if in_slice h 0 5 y || in_slice h (h - 5) h y || in_slice w 0 5 x || in_slice w (w - 5) w x
    then 0%Q else px 0%Q pred y x).

(** [edge[cat_idx, :, :]] after decoding, and [seg == cat_idx]. *)
Definition category_edge (edge : rgb) (num_classes category : Z) : res (image Z) :=
  chan_at (decode_png edge num_classes) (category - 1).
Definition category_seg (seg : image Z) (category : Z) : image bool := imap (fun v => v =? category - 1) seg.

(** datasets/cityscapes.py:13-78 and datasets/sbd.py:15-85 [_evaluate_single]; the two differ only
    in [blank_border] (sbd.py:51-53).  Arguments are the decoded image files. *)
Definition evaluate_single_png (fuel pfuel : nat) (lib : libm) (border : bool) (edge : rgb) (seg pred : image Z) (category : Z)
    (scale max_dist : Q) (thresholds : tharg) (apply_thinning apply_nms kill_internal skip_if_nonexistent : bool)
    (num_classes : Z) : run counts := fun s =>
  bind (check_thresholds thresholds) (fun th =>
    let h := scaled (g_h edge) scale in let w := scaled (g_w edge) scale in
    bind (category_edge (resize_rgb h w edge) num_classes category) (fun cat_edge =>
      let p := unit_range (resize 0 h w pred) in
      let p := if border then blank_border p else p in
      let cat_seg := if kill_internal then Some (SegBool (category_seg (resize 0 h w seg) category)) else None in
      evaluate_multi_label fuel pfuel lib th p cat_edge cat_seg max_dist apply_thinning kill_internal
        skip_if_nonexistent apply_nms s)).
Definition cityscapes_eval_single := fun fuel pfuel lib => evaluate_single_png fuel pfuel lib false.
Definition sbd_eval_single := fun fuel pfuel lib => evaluate_single_png fuel pfuel lib true.

(** datasets/bsds.py:41-78 [_evaluate_single] ([scale] is not used). *)
Definition bsds_eval_single (fuel pfuel : nat) (lib : libm) (gts : list (image Z)) (pred : image Z) (max_dist : Q)
    (thresholds : tharg) (apply_thinning apply_nms : bool) : run counts := fun s =>
  bind (check_thresholds thresholds) (fun th =>
    evaluate_multiple_gts fuel pfuel lib th (unit_range pred) gts max_dist apply_thinning apply_nms s).

(** datasets/otf_cityscapes.py:122-225 [_evaluate_single]; [inst] is [None] for an empty path. *)
Definition otf_eval_single (fuel pfuel : nat) (lib : libm) (seg_label : image Z) (inst : option (image Z)) (pred : image Z)
    (category : Z) (scale max_dist : Q) (thresholds : tharg)
    (apply_thinning apply_nms kill_internal skip_if_nonexistent : bool) (radius : Z) : run counts := fun s =>
  bind (check_thresholds thresholds) (fun th =>
    let h := scaled (ht seg_label) scale in let w := scaled (wd seg_label) scale in
    let seg_label := resize 0 h w seg_label in
    bind (otf_edge category (option_map (resize 0 h w) inst) radius seg_label) (fun edge =>
      let seg := mask_label2trainId seg_label CITYSCAPES_label2trainId in
      let cat_seg := if kill_internal then Some (SegBool (category_seg seg category)) else None in
      evaluate_multi_label fuel pfuel lib th (unit_range (resize 0 h w pred)) edge cat_seg max_dist apply_thinning
        kill_internal skip_if_nonexistent apply_nms s)).
