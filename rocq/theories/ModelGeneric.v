(** pyEdgeEval/datasets/generic_binary.py: evaluation of one sample.

    What is special here is a type: the loader returns a list of ground truths, the function it is handed to
    expects an array.  So a ground truth is a Python value, and [gt.any()] a method that lists do not have. *)
From Verif Require Export ModelEval.
Open Scope Z_scope.
Open Scope list_scope.

Inductive gt_value := GtArray (im : image Z) | GtList (ims : list (image Z)).
(** [gt.any()]. *)
Definition gt_any (g : gt_value) : res bool :=
  match g with GtArray im => Ok (any_nonzero im) | GtList _ => Err AttributeError end.

(** binary_label/evaluate_boundaries.py:64-89 for any value; the matching and [gt.sum()] only follow for what has [any]. *)
Definition value_step (fuel pfuel : nat) (pred : image Q) (g : gt_value) (max_dist : Q) (apply_thinning : bool) (thresh : Q) : run row4 := fun s =>
  let p := imap b2z (maybe_thin apply_thinning (thresholded pred thresh)) in
  bind (gt_any g) (fun any =>
    match g with
    | GtArray gt => if any then score_against fuel pfuel p gt max_dist s else ret (mkR4 0 0 0 (img_sum p)) s
    | GtList _ => Err AttributeError
    end).
(** binary_label/evaluate_boundaries.py:9-91 [evaluate_boundaries_threshold] for any value. *)
Definition evaluate_binary_value (fuel pfuel : nat) (lib : libm) (thresholds : list Q) (pred : image Q) (g : gt_value) (max_dist : Q)
    (apply_thinning apply_nms : bool) : run counts := fun s =>
  bind (maybe_nms lib apply_nms pred) (fun pred =>
    then_ (forM (value_step fuel pfuel pred g max_dist apply_thinning) thresholds) (fun l => ret (to_counts l)) s).

(** What [imread] returns: 8-bit or not. *)
Inductive picture := Picture8 (im : image Z) | OtherPicture.
(** generic_binary.py:33-38 [load_predictions]. *)
Definition load_predictions (p : picture) : res (image Q) :=
  match p with Picture8 im => Ok (unit_range im) | OtherPicture => Err AssertionError end.
(** generic_binary.py:14-30 [load_bsds_gt_boundaries]: the annotators' maps, in order, as a list. *)
Definition load_bsds_gt_boundaries (annotators : list (image Z)) : gt_value := GtList annotators.
(** generic_binary.py:41-80 [_evaluate_single], 83-85 ([scale] is not used). *)
Definition generic_eval_single (fuel pfuel : nat) (lib : libm) (annotators : list (image Z)) (pred : picture) (max_dist : Q)
    (thresholds : tharg) (apply_thinning apply_nms : bool) : run counts := fun s =>
  bind (check_thresholds thresholds) (fun th =>
  bind (load_predictions pred) (fun pred =>
    evaluate_binary_value fuel pfuel lib th pred (load_bsds_gt_boundaries annotators) max_dist apply_thinning apply_nms s)).
