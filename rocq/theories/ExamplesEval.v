(** Concrete cases: the hypotheses of the evaluation theorems are met, and the results are the
    expected ones. *)
From Verif Require Export PropertiesEval2.
From Coq Require Import Lia ZifyBool ZifyNat.
Open Scope Z_scope.
Open Scope list_scope.

Definition ex_pred : image Q := mkImage 1 6 [[9 # 10; 0; 0; 6 # 10; 0; 7 # 10]]%Q.
Definition ex_gt : image Z := mkImage 1 6 [[0; 1; 0; 1; 0; 0]].
Definition ex_gt2 : image Z := mkImage 1 6 [[1; 0; 0; 0; 0; 0]].
Definition ex_seg : image bool := mkImage 1 6 [[false; false; true; true; true; true]].
Definition ex_stream : stream := rnd_stream (rnd_init 12345).

Lemma ex_wf_row {A} (l : list A) : length l = 6%nat -> wf (mkImage 1 6 [l]).
Proof. intros H. split; [reflexivity|]. constructor; [exact H|constructor]. Qed.
Example ex_pred_wf : wf ex_pred. Proof. apply ex_wf_row. reflexivity. Qed.
Example ex_gt_wf : wf ex_gt /\ wf ex_gt2 /\ wf ex_seg. Proof. repeat split; try apply ex_wf_row; try reflexivity; repeat constructor. Qed.
Lemma ex_row_cases (P : Z -> Z -> Prop) : (forall y x, inb 1 6 y x = false -> P y x) ->
  P 0 0 -> P 0 1 -> P 0 2 -> P 0 3 -> P 0 4 -> P 0 5 -> forall y x, P y x.
Proof.
  intros O A B C D E F y x. destruct (inb 1 6 y x) eqn:I; [|apply O, I]. apply inb_spec in I. assert (y = 0) as -> by lia.
  assert (x = 0 \/ x = 1 \/ x = 2 \/ x = 3 \/ x = 4 \/ x = 5) as K by lia. destruct K as [->|[->|[->|[->|[->| ->]]]]]; assumption.
Qed.
Example ex_binary : binary ex_gt /\ binary ex_gt2.
Proof.
  split; intros y x; revert y x; apply ex_row_cases; try (intros y x I; rewrite px_out by (solve [exact I|apply ex_gt_wf]); left; reflexivity);
    solve [left; reflexivity|right; reflexivity].
Qed.
Example ex_edge_pixels : edge_pixels ex_gt (nonzero ex_gt) /\ edge_pixels ex_gt2 (nonzero ex_gt2).
Proof. split; apply edge_pixels_nonzero; apply ex_gt_wf. Qed.
Example ex_raw : raw_values ex_stream.
Proof. intros n. apply (stream_values_valid (rnd_init 12345) n). Qed.

(** One ground truth, two thresholds, tolerance 0.2 of the diagonal (1.2 pixels). *)
Example ex_binary_counts :
  match evaluate_binary 20 2000 no_libm [(1 # 2); (4 # 5)]%Q ex_pred ex_gt (1 # 5) false false ex_stream with
  | Ok (Some (c, _)) => Some c | _ => None end = Some (mkCounts [2; 1] [2; 2] [2; 1] [3; 1]).
Proof. vm_compute. reflexivity. Qed.
(** Two annotators: recall counts add up, the prediction matched twice counts once. *)
Example ex_multi_gt_counts :
  match evaluate_multiple_gts 20 2000 no_libm [(1 # 2); (4 # 5)]%Q ex_pred [ex_gt; ex_gt2] (1 # 5) false false ex_stream with
  | Ok (Some (c, _)) => Some c | _ => None end = Some (mkCounts [3; 2] [3; 3] [2; 1] [3; 1]).
Proof. vm_compute. reflexivity. Qed.
(** Killing internal predictions: the pixel at column 5 lies in the mask, away from every edge. *)
Example ex_kill_counts :
  match evaluate_multi_label 20 2000 no_libm [(1 # 2); (4 # 5)]%Q ex_pred ex_gt (Some (SegBool ex_seg)) (1 # 5) false true false false ex_stream with
  | Ok (Some (c, _)) => Some c | _ => None end = Some (mkCounts [2; 1] [2; 2] [2; 1] [2; 1]).
Proof. vm_compute. reflexivity. Qed.
