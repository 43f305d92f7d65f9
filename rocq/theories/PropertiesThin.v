(** Theorems for C21-C24 (thinning). Statements use only the model entry points
    ([binary_thin], [bwmorph_thin], tables) and SpecThin. *)
From Verif Require Import ModelThin SpecThin ProofsThin.

(** ** C21: thinning only deletes pixels and keeps the shape *)
Theorem bwmorph_thin_subset_and_shape : forall im n_iter r,
  wf im -> bwmorph_thin im n_iter = Ok (Some r) ->
  wf r /\ same_shape im r /\ (forall y x, px false r y x = true -> px 0 im y x <> 0).
Proof. exact bwmorph_thin_shrinks. Qed.
Print Assumptions bwmorph_thin_subset_and_shape.

Theorem binary_thin_subset_and_shape : forall max_iter a r,
  wf_arr a -> binary_thin max_iter a = Some r ->
  wf (as_bool r) /\ same_shape (as_bool a) (as_bool r) /\
  (forall y x, px false (as_bool r) y x = true -> px false (as_bool a) y x = true).
Proof. exact binary_thin_shrinks. Qed.
Print Assumptions binary_thin_subset_and_shape.

(** ** C22: termination, limits, fixed points *)
(** [bwmorph_thin] never diverges: it raises ValueError exactly for a non-positive limit or
    a value other than 0/1, and returns otherwise. *)
Theorem bwmorph_thin_terminates_or_rejects : forall im n_iter, wf im ->
  (bwmorph_thin im n_iter = Err ValueError /\
     ((exists k, n_iter = Some k /\ k <= 0) \/ exists v, In v (concat (rows im)) /\ v <> 0 /\ v <> 1))
  \/ (exists r, bwmorph_thin im n_iter = Ok (Some r) /\
     (forall k, n_iter = Some k -> 0 < k) /\ forall v, In v (concat (rows im)) -> v = 0 \/ v = 1).
Proof. exact bwmorph_thin_outcome. Qed.
Print Assumptions bwmorph_thin_terminates_or_rejects.

(** With a limit [m] the result is exactly [m] Guo-Hall iterations. *)
Theorem bwmorph_thin_with_limit : forall im m r, wf im -> bwmorph_thin im (Some m) = Ok (Some r) ->
  0 < m /\ wf r /\ same_shape im r /\
  forall y x, px false r y x = gh_run (Z.to_nat m) (px false (nonzero im)) y x.
Proof. exact bwmorph_thin_functional. Qed.
Print Assumptions bwmorph_thin_with_limit.

(** Without a limit it is any sufficiently large number of iterations (at least the number
    of foreground pixels), and stable under both passes. *)
Theorem bwmorph_thin_reaches_fixed_point : forall im r, wf im -> bwmorph_thin im None = Ok (Some r) ->
  wf r /\ same_shape im r /\
  (forall n y x, (count_true (nonzero im) <= n)%nat ->
     px false r y x = gh_run n (px false (nonzero im)) y x) /\
  (forall y x, gh_pass gh_delete_odd (px false r) y x = px false r y x) /\
  (forall y x, gh_pass gh_delete_even (px false r) y x = px false r y x).
Proof. exact bwmorph_thin_limit_functional. Qed.
Print Assumptions bwmorph_thin_reaches_fixed_point.

Theorem bwmorph_thin_idempotent : forall im r, wf im -> bwmorph_thin im None = Ok (Some r) ->
  bwmorph_thin (imap b2z r) None = Ok (Some r).
Proof. exact bwmorph_idempotent. Qed.
Print Assumptions bwmorph_thin_idempotent.

Theorem binary_thin_terminates : forall max_iter a, wf_arr a -> exists r, binary_thin max_iter a = Some r.
Proof. exact binary_thin_total. Qed.
Print Assumptions binary_thin_terminates.

(** The fuel of the model is not observable. *)
Theorem binary_thin_fuel_irrelevant : forall f1 f2 max_iter a r,
  binary_thin_loop f1 max_iter a = Some r -> (f1 <= f2)%nat -> binary_thin_loop f2 max_iter a = Some r.
Proof. exact binary_loop_fuel. Qed.
Print Assumptions binary_thin_fuel_irrelevant.

Theorem bwmorph_thin_fuel_irrelevant : forall f1 f2 n x r,
  bw_loop f1 n x = Some r -> (f1 <= f2)%nat -> bw_loop f2 n x = Some r.
Proof. exact bw_loop_fuel. Qed.
Print Assumptions bwmorph_thin_fuel_irrelevant.

(** What [binary_thin] returns: some number [k] of iterations, at most the limit; if it is
    not the limit that stopped it, the result is stable under the odd or the even pass
    (only one of them: see the refutation below). *)
Theorem binary_thin_result : forall max_iter a r, wf_arr a -> binary_thin max_iter a = Some r ->
  wf (as_bool r) /\ same_shape (as_bool a) (as_bool r) /\
  exists k, (forall y x, px false (as_bool r) y x = gh_run k (px false (as_bool a)) y x) /\
    (forall m, max_iter = Some m -> (k <= Z.to_nat m)%nat) /\
    (max_iter = Some (Z.of_nat k) \/ (exists m, max_iter = Some m /\ m <= 0 /\ k = 0%nat) \/
     (forall y x, gh_pass gh_delete_odd (px false (as_bool r)) y x = px false (as_bool r) y x) \/
     (forall y x, gh_pass gh_delete_even (px false (as_bool r)) y x = px false (as_bool r) y x)).
Proof. exact binary_thin_functional. Qed.
Print Assumptions binary_thin_result.

(** [bwmorph_thin] completes what [binary_thin] leaves unfinished. *)
Theorem bwmorph_thin_completes_binary_thin : forall max_iter a r,
  wf_arr a -> binary_thin max_iter a = Some r ->
  bwmorph_thin (imap b2z (as_bool r)) None = bwmorph_thin (imap b2z (as_bool a)) None.
Proof. exact bwmorph_completes_binary. Qed.
Print Assumptions bwmorph_thin_completes_binary_thin.

(** Findings.  The L-shaped corner is not thinned by [binary_thin]: its first sub-iteration
    changes nothing and the loop is left before the second one. *)
Definition corner : image bool := mkImage 2 2 [[true; false]; [true; true]].
Definition stairs : image bool :=
  mkImage 3 3 [[false; false; true]; [false; true; true]; [true; true; true]].

Theorem thin_implementations_agree_refuted :
  exists x, wf x /\ binary_thin None (Bin x) = Some (Bin x) /\
    bwmorph_thin (imap b2z x) None <> Ok (Some x).
Proof.
  exists corner. split; [split; [reflexivity|repeat constructor]|].
  split; [vm_compute; reflexivity|vm_compute; discriminate].
Qed.
Print Assumptions thin_implementations_agree_refuted.

Theorem binary_thin_idempotent_refuted :
  exists x r r', wf x /\ binary_thin None (Bin x) = Some r /\
    binary_thin None r = Some r' /\ as_bool r <> as_bool r'.
Proof.
  exists stairs, (Bin (mkImage 3 3 [[false; false; true]; [false; true; false]; [true; true; false]])),
    (Bin (mkImage 3 3 [[false; false; true]; [false; true; false]; [true; false; false]])).
  split; [split; [reflexivity|repeat constructor]|].
  repeat split; try (vm_compute; reflexivity). vm_compute; discriminate.
Qed.
Print Assumptions binary_thin_idempotent_refuted.

(** "Returns: bool mask" (thin.py:252) is false: when the first sub-iteration deletes
    nothing the caller's array is returned unconverted. *)
Theorem binary_thin_returns_input_unconverted : forall max_iter (im : image Z), wf im ->
  (forall y x, gh_pass gh_delete_odd (px false (nonzero im)) y x = px false (nonzero im) y x) ->
  binary_thin max_iter (Raw im) = Some (Raw im).
Proof. exact raw_returned. Qed.
Print Assumptions binary_thin_returns_input_unconverted.

Theorem binary_thin_returns_bool_mask_refuted :
  exists im, wf im /\ binary_thin None (Raw im) = Some (Raw im) /\ px 0 im 0 0 = 5.
Proof.
  exists (mkImage 1 1 [[5]]). split; [split; [reflexivity|repeat constructor]|].
  split; vm_compute; reflexivity.
Qed.
Print Assumptions binary_thin_returns_bool_mask_refuted.

(** ** C23: the tables *)
Theorem literal_tables_match_recipe : G123_LUT = gen_g123_lut /\ G123P_LUT = gen_g123p_lut.
Proof. exact (conj G123_gen G123P_gen). Qed.
Print Assumptions literal_tables_match_recipe.

(** A table entry says "delete" iff the neighbours meet the Guo-Hall condition; [bidx] is
    the index formed from the neighbours. *)
Theorem bwmorph_tables_are_guo_hall : forall nw n ne w c e sw s se,
  0 <= bidx nw n ne w c e sw s se < 256 /\
  lut_get G123_LUT (bidx nw n ne w c e sw s se) = gh_delete_odd e ne n nw w sw s se /\
  lut_get G123P_LUT (bidx nw n ne w c e sw s se) = gh_delete_even e ne n nw w sw s se.
Proof.
  exact (fun nw n ne w c e sw s se =>
    conj (bidx_range nw n ne w c e sw s se)
      (conj (bw1_entry nw n ne w c e sw s se) (bw2_entry nw n ne w c e sw s se))).
Qed.
Print Assumptions bwmorph_tables_are_guo_hall.

Theorem thin_tables_are_guo_hall : forall nw n ne w c e sw s se,
  0 <= idx9 nw n ne w c e sw s se < Z.of_nat 512 /\
  lut_get thin_iter_1_lut (idx9 nw n ne w c e sw s se) = c && negb (gh_delete_odd e ne n nw w sw s se) /\
  lut_get thin_iter_2_lut (idx9 nw n ne w c e sw s se) = c && negb (gh_delete_even e ne n nw w sw s se).
Proof.
  exact (fun nw n ne w c e sw s se =>
    conj (idx9_range nw n ne w c e sw s se)
      (conj (thin1_entry nw n ne w c e sw s se) (thin2_entry nw n ne w c e sw s se))).
Qed.
Print Assumptions thin_tables_are_guo_hall.

(** One sub-iteration of either implementation is the Guo-Hall pass on every image. *)
Theorem subiterations_are_guo_hall_passes : forall x y c, wf x ->
  px false (apply_lut x thin_iter_1_lut) y c = gh_pass gh_delete_odd (px false x) y c /\
  px false (apply_lut x thin_iter_2_lut) y c = gh_pass gh_delete_even (px false x) y c /\
  px false (bw_sub G123_LUT x) y c = gh_pass gh_delete_odd (px false x) y c /\
  px false (bw_sub G123P_LUT x) y c = gh_pass gh_delete_even (px false x) y c.
Proof.
  exact (fun x y c H => conj (apply1_px x y c H) (conj (apply2_px x y c H)
    (conj (bw1_px x y c H) (bw2_px x y c H)))).
Qed.
Print Assumptions subiterations_are_guo_hall_passes.

Theorem subiterations_agree : forall x, wf x ->
  apply_lut x thin_iter_1_lut = bw_sub G123_LUT x /\
  apply_lut x thin_iter_2_lut = bw_sub G123P_LUT x.
Proof. exact (fun x H => conj (subiter1_agree x H) (subiter2_agree x H)). Qed.
Print Assumptions subiterations_agree.

(** ** C24: thinning preserves the topology, end points and isolated pixels *)
Theorem bwmorph_thin_keeps_topology : forall im n_iter r, wf im -> bwmorph_thin im n_iter = Ok (Some r) ->
  topology_preserved (fun p => px false (nonzero im) (fst p) (snd p) = true)
                     (fun p => px false r (fst p) (snd p) = true).
Proof. exact bwmorph_thin_topology. Qed.
Print Assumptions bwmorph_thin_keeps_topology.

Theorem binary_thin_keeps_topology : forall max_iter a r, wf_arr a -> binary_thin max_iter a = Some r ->
  topology_preserved (fun p => px false (as_bool a) (fst p) (snd p) = true)
                     (fun p => px false (as_bool r) (fst p) (snd p) = true).
Proof. exact binary_thin_topology. Qed.
Print Assumptions binary_thin_keeps_topology.

Theorem bwmorph_thin_keeps_end_points : forall im n_iter r y x, wf im ->
  bwmorph_thin im n_iter = Ok (Some r) ->
  px false (nonzero im) y x = true -> degree8 (px false (nonzero im)) y x <= 1 ->
  px false r y x = true.
Proof. exact bwmorph_thin_endpoints. Qed.
Print Assumptions bwmorph_thin_keeps_end_points.

Theorem binary_thin_keeps_end_points : forall max_iter a r y x, wf_arr a ->
  binary_thin max_iter a = Some r ->
  px false (as_bool a) y x = true -> degree8 (px false (as_bool a)) y x <= 1 ->
  px false (as_bool r) y x = true.
Proof. exact binary_thin_endpoints. Qed.
Print Assumptions binary_thin_keeps_end_points.

(** ** Non-vacuity: the docstring example of bwmorph_thin.py:82-101 *)
Definition doc_square : image Z := mkImage 7 7
  [[0;1;0;0;0;0;0]; [0;0;1;1;1;0;0]; [0;0;1;1;1;0;0]; [0;0;1;1;1;0;0];
   [0;0;1;1;1;0;0]; [0;0;1;1;1;0;0]; [0;0;0;0;0;0;0]].
Definition doc_skel : image Z := mkImage 7 7
  [[0;1;0;0;0;0;0]; [0;0;1;0;0;0;0]; [0;0;0;1;0;0;0]; [0;0;0;1;0;0;0];
   [0;0;0;1;0;0;0]; [0;0;0;0;0;0;0]; [0;0;0;0;0;0;0]].
Example doc_example : wf doc_square /\ bwmorph_thin doc_square None = Ok (Some (nonzero doc_skel)).
Proof. split; [split; [reflexivity|repeat constructor]|vm_compute; reflexivity]. Qed.
Example doc_example_binary_thin : wf_arr (Raw doc_square) /\
  exists r, binary_thin None (Raw doc_square) = Some (Bin r) /\ count_true r = 5%nat.
Proof.
  split; [split; [reflexivity|repeat constructor]|].
  eexists; split; vm_compute; reflexivity.
Qed.
Example doc_end_point : px false (nonzero doc_square) 0 1 = true /\
  degree8 (px false (nonzero doc_square)) 0 1 <= 1.
Proof. split; [reflexivity|vm_compute; discriminate]. Qed.
Example raw_case : wf (mkImage 1 2 [[7; 0]]) /\
  forall y x, gh_pass gh_delete_odd (px false (nonzero (mkImage 1 2 [[7; 0]]))) y x
              = px false (nonzero (mkImage 1 2 [[7; 0]])) y x.
Proof.
  split; [split; [reflexivity|repeat constructor]|]. intros y x.
  set (im := nonzero (mkImage 1 2 [[7; 0]])).
  assert (W : wf im) by (split; [reflexivity|repeat constructor]).
  destruct (inb (ht im) (wd im) y x) eqn:E.
  - apply inb_spec in E. simpl in E. assert (y = 0) by lia. assert (x = 0 \/ x = 1) as [->| ->] by lia;
    subst y; vm_compute; reflexivity.
  - rewrite gh_pass_out by assumption. rewrite px_out; auto.
Qed.
