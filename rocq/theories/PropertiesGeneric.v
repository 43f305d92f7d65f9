(** Theorems for C76: the evaluation in datasets/generic_binary.py. *)
From Verif Require Import ModelGeneric.
Open Scope Z_scope.
Open Scope list_scope.

(** The value-level reading of the single-GT function is the one used elsewhere when it is given an array. *)
Theorem arrays_are_evaluated_as_usual : forall fuel pfuel lib th pred gt md thin nms s,
  evaluate_binary_value fuel pfuel lib th pred (GtArray gt) md thin nms s = evaluate_binary fuel pfuel lib th pred gt md thin nms s.
Proof.
  intros. unfold evaluate_binary_value, evaluate_binary. destruct (maybe_nms lib nms pred) as [p|e]; [|reflexivity]. cbn [bind].
  assert (E : forall th s, forM (value_step fuel pfuel p (GtArray gt) md thin) th s = forM (binary_step fuel pfuel p gt md thin) th s).
  { clear. induction th as [|t th IH]; intros s; [reflexivity|]. cbn [forM]. unfold then_.
    replace (value_step fuel pfuel p (GtArray gt) md thin t s) with (binary_step fuel pfuel p gt md thin t s)
      by (unfold value_step, binary_step, gt_any; cbn [bind]; destruct (any_nonzero gt); reflexivity).
    destruct (binary_step fuel pfuel p gt md thin t s) as [[[b s']|]|e]; cbn [bind]; [|reflexivity|reflexivity]. rewrite IH. reflexivity. }
  unfold then_. rewrite E. reflexivity.
Qed.
Print Assumptions arrays_are_evaluated_as_usual.

(** The generic evaluation never produces a score: whatever the files hold, with at least one threshold it raises. *)
Theorem generic_evaluation_always_raises : forall fuel pfuel lib annotators pred md th ths thin nms s,
  check_thresholds th = Ok ths -> ths <> [] ->
  exists e, generic_eval_single fuel pfuel lib annotators pred md th thin nms s = Err e.
Proof.
  intros fuel pfuel lib ann pred md th ths thin nms s H N. unfold generic_eval_single. rewrite H. cbn [bind].
  destruct (load_predictions pred) as [p|e]; [|exists e; reflexivity]. cbn [bind]. unfold evaluate_binary_value.
  destruct (maybe_nms lib nms p) as [q|e]; [|exists e; reflexivity]. cbn [bind]. destruct ths as [|t ths]; [contradiction|]. exists AttributeError. reflexivity.
Qed.
Print Assumptions generic_evaluation_always_raises.
(** For a proper prediction, without non-maximum suppression, it is the AttributeError of the list. *)
Theorem generic_evaluation_attribute_error : forall fuel pfuel lib annotators im md th ths thin s,
  check_thresholds th = Ok ths -> ths <> [] ->
  generic_eval_single fuel pfuel lib annotators (Picture8 im) md th thin false s = Err AttributeError.
Proof.
  intros fuel pfuel lib ann im md th ths thin s H N. unfold generic_eval_single. rewrite H. destruct ths as [|t ths]; [contradiction|]. reflexivity.
Qed.
Print Assumptions generic_evaluation_attribute_error.
(** A picture that is not 8-bit is refused before anything else but the thresholds. *)
Theorem generic_evaluation_wants_8_bits : forall fuel pfuel lib annotators md th thin nms s,
  generic_eval_single fuel pfuel lib annotators OtherPicture md th thin nms s =
  Err (match check_thresholds th with Ok _ => AssertionError | Err e => e end).
Proof. intros. unfold generic_eval_single. destruct (check_thresholds th); reflexivity. Qed.
Print Assumptions generic_evaluation_wants_8_bits.
(** Only an evaluation at no threshold at all returns (empty counts). *)
Theorem generic_evaluation_returns_refuted : ~ (forall fuel pfuel lib ann im md th thin nms s,
   exists r, generic_eval_single fuel pfuel lib ann (Picture8 im) md th thin nms s = Ok r).
Proof.
  intros H. destruct (H 0%nat 0%nat (mkLibm (fun _ => 0%Q) (fun _ => 0%Q) (fun _ => 0%Q) (fun q => q)) [] (tab 1 1 (fun _ _ => 0)) 0%Q (AFloat (1#2)) false false (fun _ => 0)) as (r & E). discriminate.
Qed.
Print Assumptions generic_evaluation_returns_refuted.
Example ex_hyp : check_thresholds (AFloat (1#2)) = Ok [(1#2)%Q] /\ [(1#2)%Q] <> [].
Proof. split; [reflexivity|discriminate]. Qed.
Example ex_empty : forall fuel pfuel lib ann im md s, generic_eval_single fuel pfuel lib ann (Picture8 im) md (AList []) false false s = Ok (Some (mkCounts [] [] [] [], s)).
Proof. reflexivity. Qed.
