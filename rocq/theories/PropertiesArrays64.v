(** C70 and C71 with the doubles of the solver. *)
From Verif Require Import ModelArrays64 SpecInts PropertiesInts SpecMatch ProofsImage ProofsMatch ProofsMatch2 ProofsArrays PropertiesArrays PropertiesSolver64 SpecCorrespond PropertiesMatch PropertiesMatch64.
From Verif Require ModelCSAMem64 ProofsCSAMem64.
From Coq Require Import Lia ZifyBool ZifyNat.
Open Scope Z_scope.
Open Scope list_scope.

(** 1. The solver in doubles, on every graph with a perfect matching and a non-zero cost and up to 2^30 nodes a side, after any
    number of steps: no access outside an array, no read of a cell never written, no null pointer; what it returns is a perfect
    matching. *)
Theorem solver64_stays_in_its_memory N g m fuel pfuel : (0 < N)%nat -> Z.of_nat N <= 2 ^ 30 ->
  (forall a, In a g -> (a_tail a < N)%nat /\ (a_head a < N)%nat) -> (exists a, In a g /\ a_cost a <> 0) -> perfect_matching N g m ->
  exists r, ModelCSAMem64.csa_mem_solve64 fuel pfuel N g = Ok r /\ match r with None => True | Some l => perfect_matching N g l end.
Proof.
  intros HN H2 V C P. destruct (solver64_returns_a_matching N g m fuel pfuel HN H2 V C P) as (r & E & H). exists r. split; [apply ProofsCSAMem64.csa_mem64_ok, E|exact H].
Qed.
Print Assumptions solver64_stays_in_its_memory.
(** 2. With N nodes a side and costs up to C it terminates, with a matching within 1 of the optimum if N^2 C <= 2^41 and optimal if
    N^3 C <= 2^40 (C57). *)
Theorem solver64_in_memory_terminates N g m C : (0 < N)%nat ->
  (forall a, In a g -> (a_tail a < N)%nat /\ (a_head a < N)%nat) -> (exists a, In a g /\ a_cost a <> 0) -> perfect_matching N g m ->
  (forall a, In a g -> Z.abs (a_cost a) <= C) -> Z.of_nat N ^ 2 * C <= 2 ^ 41 ->
  exists F P l, (forall fuel pfuel, (F <= fuel)%nat -> (P <= pfuel)%nat -> ModelCSAMem64.csa_mem_solve64 fuel pfuel N g = Ok (Some l)) /\
    perfect_matching N g l /\
    forall m', perfect_matching N g m' -> total_cost l <= total_cost m' + 1 /\ (Z.of_nat N ^ 3 * C <= 2 ^ 40 -> total_cost l <= total_cost m').
Proof.
  intros HN V Cn Pm Cb Sz. destruct (solver64_is_nearly_optimal N g m C HN V Cn Pm Cb Sz) as (F & P & l & T & R). exists F, P, l. split; [|exact R].
  intros fuel pfuel A B. apply ProofsCSAMem64.csa_mem64_ok, T; assumption.
Qed.
Print Assumptions solver64_in_memory_terminates.
(** 3. It computes what the solver in doubles without memory computes. *)
Theorem memory_solver64_is_the_solver64 fuel pfuel N g r : csa_solve64 fuel pfuel N g = Ok r -> ModelCSAMem64.csa_mem_solve64 fuel pfuel N g = Ok r.
Proof. apply ProofsCSAMem64.csa_mem64_ok. Qed.
Print Assumptions memory_solver64_is_the_solver64.

Lemma max_cost_nonzero g : 1 <= max_cost g -> exists a, In a g /\ a_cost a <> 0.
Proof.
  induction g as [|a g IH]; cbn [max_cost fold_right]; [lia|]. intros M. destruct (Z.eq_dec (a_cost a) 0) as [E|N0]; [|exists a; split; [left; reflexivity|exact N0]].
  destruct IH as (b & I & C); [unfold max_cost; lia|]. exists b. split; [right; exact I|exact C].
Qed.
Lemma nodes_few h w b1 b2 md2 : n_arcs h w b1 b2 md2 * 3 < 2 ^ 32 -> Z.of_nat (n1 h w b1 b2 md2 + n2 h w b1 b2 md2) <= 2 ^ 30.
Proof.
  unfold n_arcs, deg1, deg2, deg3, nmin, nmax. set (e := Z.of_nat (length (real_edges h w b1 b2 md2))). assert (0 <= e) by lia. clearbody e.
  set (p := n1 h w b1 b2 md2). set (q := n2 h w b1 b2 md2). clearbody p q. unfold degree. change (2 ^ 32) with 4294967296. change (2 ^ 30) with 1073741824. nia.
Qed.
(** 4. The matcher on its arrays with the solver on its memory in doubles computes what ModelMatch64.v says: for all images,
    tolerances, random numbers and solver runs whose sizes fit an unsigned. *)
Theorem array_matcher64_is_the_matcher64 h w b1 b2 md2 oc2 fuel pfuel s :
  wf b1 -> wf b2 -> ht b1 = h -> wd b1 = w -> ht b2 = h -> wd b2 = w -> (0 <= md2)%Q -> (md2 < oc2)%Q -> valid_stream s ->
  uint32 (Z.of_nat h) -> uint32 (Z.of_nat w) -> Forall uint32 (array_sizes h w b1 b2 md2) ->
  array_match_edge_maps64 h w b1 b2 md2 oc2 fuel pfuel s = match_edge_maps64 h w b1 b2 md2 oc2 fuel pfuel s.
Proof.
  intros W1 W2 E1 E2 E3 E4 D O V Hh Hw F. unfold array_sizes in F. cbv zeta in F. unfold uint32 in *.
  inversion F as [|? ? F1 G1]; subst. inversion G1 as [|? ? F2 G2]; subst. inversion G2 as [|? ? F3 G3]; subst.
  inversion G3 as [|? ? F4 G4]; subst. inversion G4 as [|? ? F5 G5]; subst. unfold array_match_edge_maps64.
  rewrite (array_match_with_ok (ht b1) (wd b1) b1 b2 md2 oc2) with (csolver := csa_solve64 fuel pfuel); try assumption; try reflexivity; try lia.
  intros g m L BV MC P. destruct (solver64_returns_a_matching _ g m fuel pfuel L (nodes_few (ht b1) (wd b1) b1 b2 md2 ltac:(lia)) BV (max_cost_nonzero g MC) P) as (r & ER & Hr).
  exists r. split; [exact ER|]. split; [apply ProofsCSAMem64.csa_mem64_ok, ER|exact Hr].
Qed.
Print Assumptions array_matcher64_is_the_matcher64.

Lemma usual_fits b1 b2 max_dist outlier_cost : wf b1 -> wf b2 -> ht b1 = ht b2 -> wd b1 = wd b2 -> (0 < max_dist)%Q -> (1 < outlier_cost)%Q -> (outlier_cost <= 100)%Q ->
  usual (ht b1) (wd b1) b1 b2 max_dist ->
  Forall uint32 (array_sizes (ht b1) (wd b1) b1 b2 (max_dist * max_dist * inject_Z (diag2 (ht b1) (wd b1)))) /\
  uint32 (Z.of_nat (ht b1)) /\ uint32 (Z.of_nat (wd b1)) /\ Z.of_nat (count_true b1 + count_true b2) <= 2 ^ 30.
Proof.
  intros W1 W2 Eh Ew D' P' O U. destruct (usual_sizes_are_moderate b1 b2 max_dist outlier_cost W1 W2 (eq_sym Eh) (eq_sym Ew) D' P' O U) as (n & k & M).
  set (md2 := (max_dist * max_dist * _)%Q) in *. set (oc2 := (outlier_cost * outlier_cost * (max_dist * max_dist) * _)%Q) in *.
  assert (S2 : n * (k + 20) < 1431655765 /\ Z.of_nat (ht b1) < 32768 /\ Z.of_nat (wd b1) < 32768 /\ Z.of_nat (ht b1) * Z.of_nat (wd b1) < 1073741824)
    by (destruct M as (_ & _ & _ & A & B & _); change (2 ^ 32) with 4294967296 in A; change (2 ^ 30) with 1073741824 in B; split; [lia|]; split; [nia|]; split; nia).
  assert (Hmd : (0 <= md2)%Q).
  { apply Qmult_le_0_compat; [apply Qmult_le_0_compat; apply Qlt_le_weak; exact D'|]. change 0%Q with (inject_Z 0). rewrite <- Zle_Qle. unfold diag2. nia. }
  split.
  { eapply arrays_fit; try eassumption; try reflexivity; try (symmetry; assumption). }
  split; [apply uint32_intro; lia|]. split; [apply uint32_intro; lia|].
  assert (K0 : 0 <= k). { destruct M as (_ & _ & K & _). apply (K []); [constructor|intros u v []]. }
  assert (C : forall b, wf b -> edge_pixels_at_most n b -> Z.of_nat (count_true b) <= n).
  { intros b Wb E. rewrite (count_true_fg b Wb). apply E; [apply NoDup_fg_list|]. intros y x I. apply in_fg_list in I; [exact I|exact Wb]. }
  assert (C1 := C b1 W1 (proj1 M)). assert (C2 := C b2 W2 (proj1 (proj2 M))). change (2 ^ 30) with 1073741824. nia.
Qed.
(** 5. For the pictures of the data sets (C69) at the usual parameters, any content, any random numbers, any number of steps: the
    call carried out access by access, in doubles in the solver, does not fail, is the call of ModelMatch64.v, and what it returns is a
    correspondence. *)
Theorem usual_correspondence64_safe b1 b2 max_dist outlier_cost fuel pfuel s :
  wf b1 -> wf b2 -> same_shape b1 b2 -> ((0 < ht b1)%nat \/ (0 < wd b1)%nat) -> (0 < max_dist)%Q -> (1 < outlier_cost)%Q -> (outlier_cost <= 100)%Q ->
  usual (ht b1) (wd b1) b1 b2 max_dist -> valid_stream s ->
  array_correspond_pixels64 b1 b2 max_dist outlier_cost fuel pfuel s = correspond_pixels64 b1 b2 max_dist outlier_cost fuel pfuel s /\
  exists r, array_correspond_pixels64 b1 b2 max_dist outlier_cost fuel pfuel s = Ok r /\
    forall out s', r = Some (out, s') -> is_correspondence b1 b2 (tolerance2 max_dist b1) (m1 out) (m2 out).
Proof.
  intros W1 W2 [Eh Ew] Ne D P O U V. destruct (usual_fits b1 b2 max_dist outlier_cost W1 W2 Eh Ew D P O U) as (F & Hh & Hw & C).
  assert (E : array_correspond_pixels64 b1 b2 max_dist outlier_cost fuel pfuel s = correspond_pixels64 b1 b2 max_dist outlier_cost fuel pfuel s).
  { unfold array_correspond_pixels64, correspond_pixels64. destruct (negb _); [reflexivity|]. destruct (Qle_bool max_dist 0); [reflexivity|]. destruct (Qle_bool outlier_cost 1); [reflexivity|]. cbv zeta.
    assert (G1 := Qlt_le_weak _ _ (api_md b1 max_dist D Ne)). assert (G2 := api_oc b1 max_dist outlier_cost D P Ne).
    apply array_matcher64_is_the_matcher64; try assumption; try reflexivity; symmetry; assumption. }
  split; [exact E|]. rewrite E. destruct (correspondence64_is_a_matching b1 b2 max_dist outlier_cost fuel pfuel s W1 W2 (conj Eh Ew) D P Ne V C) as (r & Er & H).
  exists r. split; [exact Er|]. intros out s' R. apply (H out s' R).
Qed.
Print Assumptions usual_correspondence64_safe.
(** Hypotheses: ex_usual_sizes (PropertiesArrays.v), with max_dist 2/100 and outlier cost 100. *)
Example ex_usual64 : wf ex_a1 /\ wf ex_a2 /\ same_shape ex_a1 ex_a2 /\ (0 < ht ex_a1)%nat /\ usual (ht ex_a1) (wd ex_a1) ex_a1 ex_a2 (2 # 100) /\ valid_stream ex_stream.
Proof.
  destruct ex_usual_sizes as (A & B & C & D). split; [exact A|]. split; [exact B|]. split; [split; reflexivity|]. split; [cbn; lia|]. split; assumption.
Qed.
(** A case of theorems 1 and 2: the graph of PropertiesCSAMem.v. *)
From Verif Require PropertiesCSAMem.
Example ex_memory64 : exists F P l,
  (forall fuel pfuel, (F <= fuel)%nat -> (P <= pfuel)%nat -> ModelCSAMem64.csa_mem_solve64 fuel pfuel 6 PropertiesCSAMem.ex_memory_graph = Ok (Some l)) /\
  perfect_matching 6 PropertiesCSAMem.ex_memory_graph l /\ total_cost l <= 14.
Proof.
  destruct PropertiesCSAMem.ex_memory_hyp as (V & P).
  assert (C : exists a, In a PropertiesCSAMem.ex_memory_graph /\ a_cost a <> 0) by (exists (mkArc 0 1 5); split; [left; reflexivity|discriminate]).
  assert (B : forall a, In a PropertiesCSAMem.ex_memory_graph -> Z.abs (a_cost a) <= 9).
  { intros a I. unfold PropertiesCSAMem.ex_memory_graph in I. cbn [In] in I. repeat (destruct I as [<- | I]; [apply Z.leb_le; reflexivity|]). destruct I. }
  assert (N0 : (0 < 6)%nat) by lia.
  assert (Sz : Z.of_nat 6 ^ 2 * 9 <= 2 ^ 41) by (apply Z.leb_le; vm_compute; reflexivity).
  assert (S3 : Z.of_nat 6 ^ 3 * 9 <= 2 ^ 40) by (apply Z.leb_le; vm_compute; reflexivity).
  assert (T14 : total_cost PropertiesCSAMem.ex_memory_matching = 14) by (vm_compute; reflexivity).
  destruct (solver64_in_memory_terminates 6 PropertiesCSAMem.ex_memory_graph _ 9 N0 V C P B Sz) as (F & Pf & l & T & Pl & O).
  exists F, Pf, l. split; [exact T|]. split; [exact Pl|]. rewrite <- T14. exact (proj2 (O _ P) S3).
Qed.
