(** Theorems for C39 (and the runner half of C04): task runners. *)
From Verif Require Import ModelProgress ProofsProgress.
From Coq Require Import Permutation ZifyBool ZifyNat.
Open Scope Z_scope.

Lemma upto_map n : upto 0 n = map (fun k => Completed (Z.of_nat k)) (seq 1 n).
Proof.
  assert (G : forall n m, upto (Z.of_nat m) n = map (fun k => Completed (Z.of_nat k)) (seq (S m) n)).
  { clear. induction n as [|n IH]; intros m; cbn [upto seq map]; [reflexivity|].
    replace (Z.of_nat m + 1) with (Z.of_nat (S m)) by lia. rewrite IH. reflexivity. }
  apply (G n 0%nat).
Qed.

(** Number of chunks that the pool hands out: ceil(number of tasks / chunksize). *)
Definition chunk_count (chunksize : Z) (ntasks : nat) : nat :=
  Z.to_nat ((Z.of_nat ntasks + chunksize - 1) / chunksize).
Lemma njobs_chunk_count {A} chunksize (tasks : list A) : 1 <= chunksize ->
  njobs chunksize tasks = chunk_count chunksize (length tasks).
Proof.
  intros Hc. unfold njobs, chunk_count, chunks.
  assert (G : forall fuel (l : list A), (length l <= fuel)%nat ->
     Z.of_nat (length (chunk_fuel fuel (Z.to_nat chunksize) l)) = (Z.of_nat (length l) + chunksize - 1) / chunksize).
  { induction fuel as [|f IH]; intros l H.
    - destruct l; [|simpl in H; lia]. cbn [chunk_fuel length]. rewrite Z.div_small; lia.
    - destruct l as [|a l']; [cbn [chunk_fuel length]; rewrite Z.div_small; lia|].
      remember (a :: l') as l eqn:El. replace (chunk_fuel (S f) (Z.to_nat chunksize) l) with
        (firstn (Z.to_nat chunksize) l :: chunk_fuel f (Z.to_nat chunksize) (skipn (Z.to_nat chunksize) l)) by (rewrite El; reflexivity).
      assert (Hl : (0 < length l)%nat) by (rewrite El; simpl; lia).
      cbn [length]. rewrite Nat2Z.inj_succ, IH by (rewrite skipn_length; lia). rewrite skipn_length.
      destruct (Z.le_gt_cases (Z.of_nat (length l)) chunksize) as [L|L].
      + replace (length l - Z.to_nat chunksize)%nat with 0%nat by lia. simpl Z.of_nat.
        rewrite (Z.div_small (0 + chunksize - 1)) by lia.
        replace (Z.of_nat (length l) + chunksize - 1) with (1 * chunksize + (Z.of_nat (length l) - 1)) by lia.
        rewrite Z.div_add_l by lia. rewrite Z.div_small by lia. lia.
      + replace (Z.of_nat (length l) + chunksize - 1) with
          (1 * chunksize + (Z.of_nat (length l - Z.to_nat chunksize) + chunksize - 1)) by lia.
        rewrite Z.div_add_l by lia. lia. }
  rewrite <- (G (length tasks) tasks (le_n _)). rewrite Nat2Z.id. reflexivity.
Qed.

(** Sequential: the function is applied to the tasks in order, one result per task, or the
    first failing task's exception. *)
Theorem track_progress_results : forall (A B : Type) (func : A -> res B) no_bar tasks,
  (exists bs, fst (track_progress func no_bar tasks) = Ok bs /\ Forall2 (fun t b => func t = Ok b) tasks bs) \/
  (exists pre t post e, tasks = pre ++ t :: post /\ func t = Err e /\
     (forall u, In u pre -> exists b, func u = Ok b) /\ fst (track_progress func no_bar tasks) = Err e).
Proof.
  intros A B func no_bar tasks. rewrite track_progress_result.
  destruct (run_chunk func tasks) as [bs|e] eqn:E.
  - left. exists bs. split; [reflexivity|]. apply run_chunk_ok; exact E.
  - right. destruct (proj1 (run_chunk_err func tasks e) E) as (pre & t & post & H1 & H2 & H3).
    exists pre, t, post, e. auto.
Qed.
Print Assumptions track_progress_results.

(** The bar counts 1, 2, .., number of tasks, then ends the line. *)
Theorem track_progress_bar : forall (A B : Type) (func : A -> res B) tasks bs,
  fst (track_progress func false tasks) = Ok bs ->
  snd (track_progress func false tasks) =
    Started :: map (fun k => Completed (Z.of_nat k)) (seq 1 (length tasks)) ++ [Newline].
Proof.
  intros A B func tasks bs H. rewrite track_progress_result in H. rewrite (track_progress_log _ _ _ H).
  do 2 f_equal. apply upto_map.
Qed.
Print Assumptions track_progress_bar.

(** Parallel, ordered: for every pool size, chunk size and completion order, the sequential
    result (also when a task raises). *)
Theorem parallel_ordered_equals_sequential : forall (A B : Type) (func : A -> res B)
    nproc chunksize skip_first no_bar no_bar' schedule tasks,
  1 <= nproc -> 1 <= chunksize -> Permutation schedule (seq 0 (chunk_count chunksize (length tasks))) ->
  fst (track_parallel_progress func nproc chunksize skip_first true no_bar schedule tasks)
  = fst (track_progress func no_bar' tasks).
Proof. intros. rewrite track_progress_result. apply parallel_ordered; try assumption. rewrite njobs_chunk_count by assumption. assumption. Qed.
Print Assumptions parallel_ordered_equals_sequential.

(** Parallel, unordered: a permutation of the sequential result. *)
Theorem parallel_unordered_is_permutation : forall (A B : Type) (func : A -> res B)
    nproc chunksize skip_first no_bar no_bar' schedule tasks bs,
  1 <= nproc -> 1 <= chunksize -> Permutation schedule (seq 0 (chunk_count chunksize (length tasks))) ->
  fst (track_progress func no_bar' tasks) = Ok bs ->
  exists bs', fst (track_parallel_progress func nproc chunksize skip_first false no_bar schedule tasks) = Ok bs'
    /\ Permutation bs bs'.
Proof. intros. rewrite track_progress_result in *. eapply parallel_unordered; try eassumption. rewrite njobs_chunk_count by assumption. assumption. Qed.
Print Assumptions parallel_unordered_is_permutation.

(** Without [skip_first] also the bar output is the sequential one. *)
Theorem parallel_bar_equals_sequential : forall (A B : Type) (func : A -> res B) nproc chunksize schedule tasks bs,
  1 <= nproc -> 1 <= chunksize -> Permutation schedule (seq 0 (chunk_count chunksize (length tasks))) ->
  fst (track_progress func false tasks) = Ok bs ->
  snd (track_parallel_progress func nproc chunksize false true false schedule tasks)
  = snd (track_progress func false tasks).
Proof.
  intros. rewrite track_progress_result in H2. f_equal. eapply parallel_same_as_sequential; try eassumption.
  rewrite njobs_chunk_count by assumption. assumption.
Qed.
Print Assumptions parallel_bar_equals_sequential.

(** [skip_first]: the first [nproc*chunksize] results are missing from the bar (which starts
    after them, or never if there are fewer) but not from the results. *)
Theorem skip_first_only_affects_bar : forall (A B : Type) (func : A -> res B) nproc chunksize schedule tasks bs,
  1 <= nproc -> 1 <= chunksize -> Permutation schedule (seq 0 (chunk_count chunksize (length tasks))) ->
  fst (track_progress func false tasks) = Ok bs ->
  track_parallel_progress func nproc chunksize true true false schedule tasks
  = (Ok bs, (if nproc * chunksize <=? Z.of_nat (length tasks) then [Started] else [])
       ++ map (fun k => Completed (Z.of_nat k)) (seq 1 (Z.to_nat (Z.of_nat (length tasks) - nproc * chunksize)))
       ++ [Newline]).
Proof.
  intros. rewrite track_progress_result in H2. rewrite <- upto_map. apply parallel_skip_first; try assumption.
  rewrite njobs_chunk_count by assumption. assumption.
Qed.
Print Assumptions skip_first_only_affects_bar.

Theorem parallel_rejects_bad_sizes : forall (A B : Type) (func : A -> res B) nproc chunksize sf ko nb schedule tasks,
  nproc < 1 \/ chunksize < 1 ->
  fst (track_parallel_progress func nproc chunksize sf ko nb schedule tasks) = Err ValueError.
Proof.
  intros. unfold track_parallel_progress. destruct (Z.ltb_spec nproc 1); [reflexivity|].
  replace (chunksize <? 1) with true by lia. reflexivity.
Qed.
Print Assumptions parallel_rejects_bad_sizes.

(** In the unordered mode the order really can differ. *)
Theorem unordered_keeps_order_refuted :
  ~ (forall (func : Z -> res Z) schedule tasks,
      Permutation schedule (seq 0 (chunk_count 1 (length tasks))) ->
      fst (track_parallel_progress func 2 1 false false true schedule tasks) = fst (track_progress func true tasks)).
Proof.
  intros H. specialize (H Ok [1; 0]%nat [5; 7] ltac:(apply perm_swap)). vm_compute in H. discriminate.
Qed.
Print Assumptions unordered_keeps_order_refuted.

Example ex_parallel : track_parallel_progress (fun x => Ok (x * x)) 2 2 false true false [1; 2; 0]%nat [1; 2; 3; 4; 5]
  = (Ok [1; 4; 9; 16; 25], Started :: map Completed [1; 2; 3; 4; 5] ++ [Newline]).
Proof. vm_compute. reflexivity. Qed.
Example ex_parallel_hyp : Permutation [1; 2; 0]%nat (seq 0 (chunk_count 2 5)).
Proof. vm_compute. apply Permutation_sym, (Permutation_cons_append [1; 2]%nat 0%nat). Qed.
Example ex_failing : track_parallel_progress (fun x => if x =? 3 then Err ValueError else Ok x) 2 1 false true true [2; 1; 0]%nat [1; 2; 3]
  = (Err ValueError, []).
Proof. vm_compute. reflexivity. Qed.
