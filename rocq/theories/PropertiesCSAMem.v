(** C71: the solver on its memory. *)
From Verif Require Import ModelCSAMem SpecMatch ProofsCSA3 ProofsCSA4 ProofsCSAMem ProofsCSAMem2 PropertiesMatch.
From Coq Require Import Lia ZifyBool ZifyNat.
Open Scope nat_scope.
Open Scope list_scope.

(** 1. On every graph with a perfect matching and a non-zero cost, after any number of steps, the solver has not left its arrays,
    not read a cell that was never written, not followed a null pointer; and what it returns is a minimum-cost matching. *)
Theorem solver_stays_in_its_memory N g m fuel pfuel :
  0 < N -> (forall a, In a g -> a_tail a < N /\ a_head a < N) -> (exists a, In a g /\ a_cost a <> 0%Z) -> perfect_matching N g m ->
  exists r, csa_mem_solve fuel pfuel N g = Ok r /\ match r with None => True | Some l => minimum_cost_matching N g l end.
Proof.
  intros HN V C P. destruct (solver_returns_minimum_cost_matching N g m fuel pfuel HN V C P) as (r & E & H). exists r. split; [apply csa_mem_ok, E|exact H].
Qed.
Print Assumptions solver_stays_in_its_memory.
(** 2. It finishes. *)
Theorem solver_in_memory_terminates N g m :
  0 < N -> (forall a, In a g -> a_tail a < N /\ a_head a < N) -> (exists a, In a g /\ a_cost a <> 0%Z) -> perfect_matching N g m ->
  exists F P l, minimum_cost_matching N g l /\ forall fuel pfuel, F <= fuel -> P <= pfuel -> csa_mem_solve fuel pfuel N g = Ok (Some l).
Proof.
  intros HN V C Pm. destruct (solver_terminates N g m HN V C Pm) as (F & P & l & M & T). exists F, P, l. split; [exact M|]. intros fuel pfuel A B. apply csa_mem_ok, T; assumption.
Qed.
Print Assumptions solver_in_memory_terminates.
(** 3. Whenever the solver described by functions (C46) returns, on whatever graph, the solver on its memory returns the same. *)
Theorem memory_solver_is_the_solver fuel pfuel N g r : csa_solve fuel pfuel N g = Ok r -> csa_mem_solve fuel pfuel N g = Ok r.
Proof. apply csa_mem_ok. Qed.
Print Assumptions memory_solver_is_the_solver.
(** 4. A bad endpoint is reported before anything else is touched. *)
Theorem memory_solver_rejects_bad_endpoints N g fuel pfuel :
  (exists a, In a g /\ (N <= a_tail a \/ N <= a_head a)) -> csa_mem_solve fuel pfuel N g = Err ValueError.
Proof.
  intros (a & I & H). apply csa_mem_bad; [apply solver_rejects_bad_endpoints; exists a; split; assumption|].
  apply existsb_exists. exists a. split; [exact I|]. unfold bad_input. lia.
Qed.
Print Assumptions memory_solver_rejects_bad_endpoints.
(** 5. [parse] groups the arcs: those of left node v are the cells first(v) .. first(v+1)-1, in the order of the input; every cell
    of the m arcs is written once (the groups are consecutive from 0 to m). *)
Theorem parse_groups_the_arcs N g : (forall a, In a g -> a_tail a < N /\ a_head a < N) -> exists G, parse N g = Ok G /\
  (forall v, v < N -> exists f t, rdm (x_first G) v = Ok f /\ rdm (x_first G) (S v) = Ok t /\
     let mine := filter (fun a => Nat.eqb (a_tail a) v) g in t = f + length mine /\
     (forall k a, nth_error mine k = Some a -> rdm (x_arcs G) (f + k) = Ok (a_head a, a_cost a)) /\
     rdm (x_few G) v = Ok (Nat.ltb (length mine) 4)) /\
  rdm (x_first G) 0 = Ok 0 /\ rdm (x_first G) N = Ok (length g) /\ msize (x_arcs G) = length g + 1.
Proof.
  intros V. assert (B : existsb (bad_input N) g = false) by (apply valid_no_error; exact V).
  destruct (parse_ok N g B) as (G & E & Ha & Hf & Hw & Hs). exists G. split; [exact E|]. split; [|split; [|split; [|exact Hs]]].
  - intros v I. exists (off g v), (off g (S v)). split; [apply Hf; lia|]. split; [apply Hf; lia|]. split; [apply off_S|]. split; [|apply Hw, I].
    intros k a Ek. assert (K : k < length (adj g v)) by (apply nth_error_Some; unfold adj; rewrite Ek; discriminate). rewrite (Ha v k I K).
    unfold arc_at. rewrite (nth_error_nth (adj g v) k (mkArc 0 0 0) Ek). reflexivity.
  - rewrite Hf by lia. f_equal. unfold off. clear. induction g as [|a g IH]; [reflexivity|exact IH].
  - rewrite Hf by lia. f_equal. unfold off. clear -V. induction g as [|a g IH]; [reflexivity|]. cbn [filter].
    assert (A := proj1 (V a (or_introl eq_refl))). destruct (Nat.ltb_spec (a_tail a) N); [|lia]. cbn [length]. f_equal. apply IH. intros b I. apply V. right. exact I.
Qed.
Print Assumptions parse_groups_the_arcs.
(** 6. Without the hypotheses of 1 it does leave them: a left node without arcs, or costs that are all zero. *)
Theorem solver_memory_needs_a_feasible_graph_refuted :
  ~ (forall N g fuel pfuel, 0 < N -> (forall a, In a g -> a_tail a < N /\ a_head a < N) -> (exists a, In a g /\ a_cost a <> 0%Z) -> exists r, csa_mem_solve fuel pfuel N g = Ok r).
Proof.
  intros H. destruct (H 2 [mkArc 0 1 3] 5 5 ltac:(lia)) as (r & E).
  - intros a [<-|[]]. cbn. lia.
  - exists (mkArc 0 1 3). split; [left; reflexivity|discriminate].
  - vm_compute in E. discriminate.
Qed.
Print Assumptions solver_memory_needs_a_feasible_graph_refuted.

(** A case with nodes of one, three, four and six arcs. *)
Definition ex_memory_graph : list garc :=
  [mkArc 0 1 5; mkArc 1 0 3; mkArc 0 0 4; mkArc 2 2 7; mkArc 1 2 2; mkArc 2 0 1; mkArc 0 2 9; mkArc 0 3 1; mkArc 3 3 4; mkArc 3 1 8;
   mkArc 0 4 2; mkArc 4 4 6; mkArc 4 3 1; mkArc 4 2 9; mkArc 4 1 3; mkArc 0 5 7; mkArc 5 5 2]%Z.
Definition ex_memory_matching : list (nat * Z) := [(4, 2%Z); (2, 2%Z); (0, 1%Z); (3, 4%Z); (1, 3%Z); (5, 2%Z)].
Example ex_memory_run : csa_mem_solve 20 300 6 ex_memory_graph = Ok (Some ex_memory_matching).
Proof. vm_compute. reflexivity. Qed.
Example ex_memory_hyp : (forall a, In a ex_memory_graph -> a_tail a < 6 /\ a_head a < 6) /\ perfect_matching 6 ex_memory_graph ex_memory_matching.
Proof.
  split; [intros a I; repeat (destruct I as [<-|I]; [cbn; lia|]); destruct I|]. split; [reflexivity|]. split.
  - cbn. repeat constructor; cbn; intuition discriminate.
  - intros v w c E. do 6 (destruct v as [|v]; [injection E as <- <-; split; [lia|cbn; tauto]|]). destruct v; discriminate.
Qed.
(** The best[] array at work: node 0 has six arcs. *)
Example ex_memory_best : (match parse 6 ex_memory_graph with
  | Ok G => match init_mem 6 G with Ok x => (map (rdm (x_best x)) [0; 1; 2; 3], rdm (x_nb x) 0, rdm (x_few G) 0) | Err _ => ([], crash, crash) end
  | Err _ => ([], crash, crash) end) = ([Ok 3; Ok 4; Ok 1; crash], Ok 5%Q, Ok false).
Proof. vm_compute. reflexivity. Qed.
(** What the model catches. *)
Example ex_memory_crash : rdm (malloc (A := nat) 3) 1 = crash /\ rdm (mkMem 3 (fun i => Some i)) 3 = crash /\ rdm (mkMem 3 (fun i => Some i)) 2 = Ok 2 /\
  wrm (malloc (A := nat) 3) 3 0 = crash /\ brd (mkMem 9 (fun i => Some i)) 0 3 = crash.
Proof. repeat split; reflexivity. Qed.
