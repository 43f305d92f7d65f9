(** The evaluation of one image and of a list of images with every floating point number a binary64 number: the
    functions of ModelEval.v once more, on top of ModelMatchF.v (matching), ModelThreshF.v (thresholds and
    predictions) and ModelFloat.v (scores).

    Simplifications: those of these files; [apply_nms] is False; [thresholds] is an integer; the solver's step bounds
    [fuel] and [pfuel] as in ModelEval.v. *)
From Verif Require Export ModelThreshF ModelFloat.
Open Scope Z_scope.
Open Scope list_scope.

Section SolverF.
Variables fuel pfuel : nat.

(** [correspond_pixels(_pred, gt, max_dist=max_dist)]. *)
Definition fcorrespond (p gt : image Z) (max_dist : R) : run foutcome := fun s =>
  bind (fcorrespond_pixels (ModelThin.nonzero p) (ModelThin.nonzero gt) max_dist 100%R fuel pfuel s) (fun r =>
    match r with None => Ok None | Some (o, _, s) => Ok (Some (o, s)) end).

(** binary_label/evaluate_boundaries.py:72-84, multi_label/evaluate_boundaries.py:101-113. *)
Definition fscore_against (p gt : image Z) (max_dist : R) : run row4 :=
  then_ (fcorrespond p gt max_dist) (fun o =>
    ret (mkR4 (Z.of_nat (count_true (positives (fm2 o)))) (img_sum gt)
              (Z.of_nat (count_true (positives (fm1 o)))) (img_sum p))).

(** binary_label/evaluate_boundaries.py:64-89. *)
Definition fbinary_step (pred : image R) (gt : image Z) (max_dist : R) (apply_thinning : bool) (thresh : R) : run row4 :=
  let p := imap b2z (maybe_thin apply_thinning (fthresholded pred thresh)) in
  if any_nonzero gt then fscore_against p gt max_dist
  else ret (mkR4 0 0 0 (img_sum p)).
(** binary_label/evaluate_boundaries.py:9-91. *)
Definition fevaluate_binary (thresholds : list R) (pred : image R) (gt : image Z) (max_dist : R) (apply_thinning : bool) : run counts :=
  then_ (forM (fbinary_step pred gt max_dist apply_thinning) thresholds) (fun l => ret (to_counts l)).

(** binary_label/evaluate_boundaries.py:158-172. *)
Fixpoint fgts_loop (p : image Z) (max_dist : R) (gts : list (image Z)) (acc : image bool * Z * Z) : run (image bool * Z * Z) :=
  match gts with
  | [] => ret acc
  | gt :: gts =>
    then_ (fcorrespond p gt max_dist) (fun o =>
      let '(acc_prec, sum_r, count_r) := acc in
      fgts_loop p max_dist gts
        (tab (ht p) (wd p) (fun y x => px false acc_prec y x || px false (positives (fm1 o)) y x),
         sum_r + img_sum gt, count_r + Z.of_nat (count_true (positives (fm2 o)))))
  end.
(** binary_label/evaluate_boundaries.py:149-176. *)
Definition fmulti_gt_step (pred : image R) (gts : list (image Z)) (max_dist : R) (apply_thinning : bool) (thresh : R) : run row4 :=
  let p := imap b2z (maybe_thin apply_thinning (fthresholded pred thresh)) in
  then_ (fgts_loop p max_dist gts (tab (ht p) (wd p) (fun _ _ => false), 0, 0)) (fun '(acc_prec, sum_r, count_r) =>
    ret (mkR4 count_r sum_r (Z.of_nat (count_true acc_prec)) (img_sum p))).
(** binary_label/evaluate_boundaries.py:94-178. *)
Definition fevaluate_multiple_gts (thresholds : list R) (pred : image R) (gts : list (image Z)) (max_dist : R) (apply_thinning : bool) : run counts :=
  then_ (forM (fmulti_gt_step pred gts max_dist apply_thinning) thresholds) (fun l => ret (to_counts l)).

(** options.py:18-23: [distmap > buffer]; [distance_transform_edt] returns the root of the integer squared
    distance, [buffer = np.sqrt(h ** 2 + w ** 2) * max_dist].  Without any pixel equal to 1 see ModelEval.far_from. *)
Definition ffar_from (gt : image Z) (max_dist : R) (h w : nat) (y x : Z) : bool :=
  match edt2 (tab (ht gt) (wd gt) (fun y x => negb (1 - px 0 gt y x =? 0))) y x with
  | Some d2 => Rltb (fmul (fsqrt (IZR (diag2 h w))) max_dist) (fsqrt (IZR d2))
  | None => true
  end.
(** options.py:7-25. *)
Definition fkill_internal_prediction (pred : image Z) (gt : image Z) (seg : seg_arr) (max_dist : R) : res (image Z) :=
  if negb (Nat.eqb (ht gt) (seg_ht seg) && Nat.eqb (wd gt) (seg_wd seg)) then Err ValueError
  else if negb (Nat.eqb (ht gt) (ht pred) && Nat.eqb (wd gt) (wd pred)) then Err AssertionError
  else
    let killmask y x := match seg with
      | SegBool i => b2z (negb (ffar_from gt max_dist (ht pred) (wd pred) y x && px false i y x))
      | SegU8 i => 255 - b2z (ffar_from gt max_dist (ht pred) (wd pred) y x) * px 0 i y x
      end in
    Ok (tab (ht pred) (wd pred) (fun y x => px 0 pred y x * killmask y x)).

(** multi_label/evaluate_boundaries.py:81-118. *)
Definition fmulti_label_step (pred : image R) (gt : image Z) (gt_seg : option seg_arr) (max_dist : R)
    (apply_thinning kill_internal : bool) (thresh : R) : run row4 := fun s =>
  let p := imap b2z (maybe_thin apply_thinning (fthresholded pred thresh)) in
  if any_nonzero gt then
    bind (if kill_internal then
            match gt_seg with
            | None => Err AssertionError
            | Some seg => fkill_internal_prediction p gt seg max_dist
            end
          else Ok p) (fun p => fscore_against p gt max_dist s)
  else ret (mkR4 0 0 0 (img_sum p)) s.
(** multi_label/evaluate_boundaries.py:13-120. *)
Definition fevaluate_multi_label (thresholds : list R) (pred : image R) (gt : image Z) (gt_seg : option seg_arr)
    (max_dist : R) (apply_thinning kill_internal skip_if_nonexistent : bool) : run counts := fun s =>
  if skip_if_nonexistent && negb (any_nonzero gt) then ret (to_counts (map (fun _ => mkR4 0 0 0 0) thresholds)) s
  else then_ (forM (fmulti_label_step pred gt gt_seg max_dist apply_thinning kill_internal) thresholds) (fun l => ret (to_counts l)) s.
End SolverF.

(** ** datasets *)
(** [int(n * scale + 0.5)]. *)
Definition fscaled (n : nat) (scale : R) : nat := Z.to_nat (Ztrunc (fadd (fmul (IZR (Z.of_nat n)) scale) (/ 2)%R)).
(** common/multi_label/utils.py:6-21 on the prediction (datasets/sbd.py:51-53). *)
Definition fblank_border (pred : image R) : image R :=
  let h := Z.of_nat (ht pred) in let w := Z.of_nat (wd pred) in
  tab (ht pred) (wd pred) (fun y x =>
    if in_slice h 0 5 y || in_slice h (h - 5) h y || in_slice w 0 5 x || in_slice w (w - 5) w x
    then 0%R else px 0%R pred y x).

(** datasets/bsds.py:41-78 ([scale] is not used). *)
Definition fbsds_eval_single (fuel pfuel : nat) (gts : list (image Z)) (pred : image Z) (max_dist : R)
    (thresholds : Z) (apply_thinning : bool) : run counts := fun s =>
  bind (fthresholds_of_int thresholds) (fun th =>
    fevaluate_multiple_gts fuel pfuel th (fprediction Rescale pred) gts max_dist apply_thinning s).

(** datasets/cityscapes.py:13-78 ([border = false]) and datasets/sbd.py:15-85 ([border = true]). *)
Definition fevaluate_single_png (fuel pfuel : nat) (border : bool) (edge : rgb) (seg pred : image Z) (category : Z)
    (scale max_dist : R) (thresholds : Z) (apply_thinning kill_internal skip_if_nonexistent : bool)
    (num_classes : Z) : run counts := fun s =>
  bind (fthresholds_of_int thresholds) (fun th =>
    let h := fscaled (g_h edge) scale in let w := fscaled (g_w edge) scale in
    bind (category_edge (resize_rgb h w edge) num_classes category) (fun cat_edge =>
      let p := fprediction Divide (resize 0 h w pred) in
      let p := if border then fblank_border p else p in
      let cat_seg := if kill_internal then Some (SegBool (category_seg (resize 0 h w seg) category)) else None in
      fevaluate_multi_label fuel pfuel th p cat_edge cat_seg max_dist apply_thinning kill_internal
        skip_if_nonexistent s)).

(** datasets/otf_cityscapes.py:122-225. *)
Definition fotf_eval_single (fuel pfuel : nat) (seg_label : image Z) (inst : option (image Z)) (pred : image Z)
    (category : Z) (scale max_dist : R) (thresholds : Z)
    (apply_thinning kill_internal skip_if_nonexistent : bool) (radius : Z) : run counts := fun s =>
  bind (fthresholds_of_int thresholds) (fun th =>
    let h := fscaled (ht seg_label) scale in let w := fscaled (wd seg_label) scale in
    let seg_label := resize 0 h w seg_label in
    bind (otf_edge category (option_map (resize 0 h w) inst) radius seg_label) (fun edge =>
      let seg := mask_label2trainId seg_label CITYSCAPES_label2trainId in
      let cat_seg := if kill_internal then Some (SegBool (category_seg seg category)) else None in
      fevaluate_multi_label fuel pfuel th (fprediction Divide (resize 0 h w pred)) edge cat_seg max_dist apply_thinning
        kill_internal skip_if_nonexistent s)).

(** binary_label/calculate_metrics.py:21-168 (and multi_label/calculate_metrics.py): evaluate every sample, then
    the scores.  [eval] is the evaluation of one sample. *)
Definition fcalculate_metrics {A} (eval : A -> run counts) (thresholds : Z) (samples : list (string * A))
    : run (list frow * list fscore * foverall) :=
  then_ (forM (fun s => eval (snd s)) samples) (fun cs => fun s =>
    bind (fthresholds_of_int thresholds) (fun th =>
    bind (fsummarise th (combine (map fst samples) cs)) (fun r => Ok (Some (r, s))))).
