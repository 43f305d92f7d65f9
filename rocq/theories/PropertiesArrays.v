(** C70: matchEdgeMaps on its arrays. *)
From Verif Require Import ModelArrays SpecInts PropertiesInts SpecMatch ProofsImage ProofsKofn ProofsMatch ProofsMatch2 ProofsMatch3 ProofsMatch4 ProofsArrays ProofsArrays2 ProofsArrays3 PropertiesMatch.
From Verif Require ModelCSAMem ProofsCSAMem2.
From Coq Require Import Lia ZifyBool ZifyNat.
Open Scope Z_scope.
Open Scope list_scope.

Section Main.
Variable h w : nat.
Variable b1 b2 : image bool.
Variable md2 oc2 : Q.
Hypothesis W1 : wf b1.
Hypothesis W2 : wf b2.
Hypothesis Eh1 : ht b1 = h.
Hypothesis Ew1 : wd b1 = w.
Hypothesis Eh2 : ht b2 = h.
Hypothesis Ew2 : wd b2 = w.
Hypothesis Hmd : (0 <= md2)%Q.
Hypothesis Hoc : (md2 < oc2)%Q.
Notation zh := (Z.of_nat h).
Notation zw := (Z.of_nat w).
Notation n1 := (n1 h w b1 b2 md2).
Notation n2 := (n2 h w b1 b2 md2).
Hypothesis Hhw : zw * zh < 2 ^ 32.
Hypothesis Hh : zh < 2 ^ 32.
Hypothesis Hw : zw < 2 ^ 32.
Hypothesis Hm : n_arcs h w b1 b2 md2 * 3 < 2 ^ 32.
Hypothesis Hn : (Z.of_nat n1 + Z.of_nat n2) * 3 < 2 ^ 32.

(** Whatever the solver, if it returns perfect matchings on the graphs that are built. *)
Definition match_with (solver : nat -> list garc -> res (option (list (nat * Z)))) (s : stream) : res (option (outcome * stream)) :=
  check (Qle_bool 0 md2 && Qltb md2 oc2)
  (if n_arcs h w b1 b2 md2 =? 0 then Ok (Some (nothing h w, s))
   else bind (build_graph h w b1 b2 md2 oc2 s) (fun '(g, s) => bind (solver (n1 + n2)%nat g) (fun r =>
       match r with
       | None => Ok None
       | Some l => check (Nat.eqb (length l) (n1 + n2) && check_solution h w b1 b2 md2 l)
         (let ps := decode_pairs h w b1 b2 md2 l in
          Ok (Some (mkOut (code_map h w b1 (lookup1 ps)) (code_map h w b2 (lookup2 ps)) (cost_add (cost_side h w b1 (lookup1 ps)) (cost_side h w b2 (lookup2 ps))), s)))
       end))).
Lemma array_match_with_ok solver csolver s : valid_stream s ->
  (forall g m, (0 < n1 + n2)%nat -> (forall a, In a g -> (a_tail a < n1 + n2)%nat /\ (a_head a < n1 + n2)%nat) -> 1 <= max_cost g -> perfect_matching (n1 + n2) g m ->
     exists r, csolver (n1 + n2)%nat g = Ok r /\ solver (n1 + n2)%nat g = Ok r /\ match r with None => True | Some l => perfect_matching (n1 + n2) g l end) ->
  array_match_with h w b1 b2 md2 oc2 solver s = match_with csolver s.
Proof.
  intros V SOL. unfold array_match_with, match_with. unfold require at 1. rewrite (guard_ok md2 oc2 Hmd Hoc), check_ok by reflexivity.
  assert (IM : exists m1 m2, init_matches h w = Ok (m1, m2) /\ tbl m1 zw zh (fun _ _ => Some (-1, -1)) /\ tbl m2 zw zh (fun _ _ => Some (-1, -1)))
    by (eapply init_matches_ok; eassumption).
  destruct IM as (M1 & M2 & -> & TM1 & TM2). cbn [bind].
  assert (SC : exists k, scan h w b1 b2 md2 = Ok k /\ marked h w (hits h w b1 b2 md2) k) by (eapply scan_ok; eassumption).
  destruct SC as ([k1 k2] & -> & MK). cbn [bind].
  assert (NU : exists t1 t2, number h w k1 k2 = Ok ((t1, nodes1 h w b1 b2 md2, Z.of_nat n1), (t2, nodes2 h w b1 b2 md2, Z.of_nat n2)) /\
    tbl t1 zw zh (fun x y => Some (if matchable1 h w b1 b2 md2 (x, y) then Z.of_nat (index_of (x, y) (nodes1 h w b1 b2 md2)) else -1)) /\
    tbl t2 zw zh (fun x y => Some (if matchable2 h w b1 b2 md2 (x, y) then Z.of_nat (index_of (x, y) (nodes2 h w b1 b2 md2)) else -1)))
    by (eapply number_ok; eassumption).
  destruct NU as (t1 & t2 & -> & TT1 & TT2). cbn [bind].
  assert (FE : find_edges h w md2 oc2 k1 k2 t1 t2 (Z.of_nat n1) (Z.of_nat n2) = Ok (map ze (real_edges h w b1 b2 md2)))
    by (eapply find_edges_ok; eassumption).
  rewrite FE. cbn [bind]. cbv zeta. rewrite map_length.
  set (e := Z.of_nat (length (real_edges h w b1 b2 md2))).
  assert (M : e + deg1z (Z.of_nat n1) * Z.of_nat n1 + deg1z (Z.of_nat n2) * Z.of_nat n2 +
    Z.min degree (Z.min (Z.of_nat n1) (Z.of_nat n2)) * Z.max (Z.of_nat n1) (Z.of_nat n2) + (Z.of_nat n1 + Z.of_nat n2) = n_arcs h w b1 b2 md2).
  { unfold n_arcs, deg1, deg2, deg3, nmin, nmax, deg1z. fold e. rewrite <- Nat2Z.inj_min, <- Nat2Z.inj_max, Nat2Z.inj_add. reflexivity. }
  rewrite M. set (m := n_arcs h w b1 b2 md2) in *.
  unfold require at 1. match goal with |- (if ?c then _ else _) = _ => replace c with true by (symmetry; unfold deg1z, degree; lia) end.
  destruct (Z.eqb_spec m 0) as [E0|N0]; [reflexivity|].
  assert (L : (0 < n1 + n2)%nat).
  { assert (NZ := n_arcs_zero h w b1 b2 md2 W1 W2 Eh1 Ew1 Eh2 Ew2). destruct (Nat.eq_dec (n1 + n2) 0) as [E|]; [apply NZ in E; contradiction|lia]. }
  destruct (build_graph_ok h w b1 b2 md2 oc2 W1 W2 Eh1 Ew1 Eh2 Ew2 Hmd Hoc s V) as (g & s' & EB & V' & B).
  assert (FI : exists gc, fill (map ze (real_edges h w b1 b2 md2)) (Z.of_nat n1) (Z.of_nat n2) m (ow oc2) s = Ok (gc, s') /\
    filled gc m (map az g) /\ Z.of_nat (length g) = m) by (eapply fill_ok; eassumption).
  destruct FI as ([gr cnt] & -> & FG & LG). rewrite EB. cbn [bind]. apply filled_rows in FG; [|rewrite map_length; exact LG].
  destruct FG as [EC RG]. cbn [fst snd] in EC, RG. subst cnt. unfold require at 1. rewrite Z.eqb_refl.
  assert (BV := built_valid h w b1 b2 md2 oc2 W1 W2 Eh1 Ew1 Eh2 Ew2 Hmd Hoc g B).
  assert (BV' : forall a, In a g -> Z.of_nat (a_tail a) < Z.of_nat n1 + Z.of_nat n2 /\ Z.of_nat (a_head a) < Z.of_nat n1 + Z.of_nat n2).
  { intros a I. destruct (BV a I) as [X Y]. lia. }
  destruct (shift_rows_ok m (Z.of_nat n1 + Z.of_nat n2) gr _ ltac:(lia) RG) as (g' & -> & RG').
  { intros i I. change r0 with (az (mkArc 0 0 0)). rewrite map_nth. assert (IA : In (nth (Z.to_nat i) g (mkArc 0 0 0)) g) by (apply nth_In; lia).
    apply BV' in IA. unfold az. cbn [fst snd]. lia. }
  cbn [bind]. rewrite (csa_input_ok m (Z.of_nat n1 + Z.of_nat n2) g' g LG BV' RG'). cbn [bind].
  replace (Z.to_nat (Z.of_nat n1 + Z.of_nat n2)) with (n1 + n2)%nat by lia.
  destruct (SOL g _ L BV (built_max_cost h w b1 b2 md2 oc2 Eh1 Ew1 Eh2 Ew2 Hmd Hoc g B L)
    (overlay_perfect h w b1 b2 md2 oc2 Eh1 Ew1 Eh2 Ew2 g B)) as (r & ER & ER' & Hr).
  rewrite ER, ER'. cbn [bind].
  destruct r as [l|]; [|reflexivity]. assert (Pm : perfect_matching (n1 + n2) g l) by exact Hr.
  rewrite check_ok.
  2: { apply andb_true_iff. split; [apply Nat.eqb_eq, Pm|]. eapply (check_solution_ok h w b1 b2 md2 oc2); eassumption. }
  destruct (solution_rows_ok (Z.of_nat n1 + Z.of_nat n2) l) as (og & -> & SR); [rewrite (proj1 Pm); lia|exact Hn|]. cbn [bind].
  assert (CR : check_rows (Z.of_nat n1 + Z.of_nat n2) (Z.of_nat n1) (Z.of_nat n2) (nodes1 h w b1 b2 md2) (nodes2 h w b1 b2 md2) og = Ok tt)
    by (eapply check_rows_ok; eassumption).
  rewrite CR. cbn [bind]. clear CR.
  assert (DR : exists ma1 ma2, decode_rows (Z.of_nat n1 + Z.of_nat n2) (Z.of_nat n1) (Z.of_nat n2) (nodes1 h w b1 b2 md2) (nodes2 h w b1 b2 md2) og (M1, M2) = Ok (ma1, ma2) /\
    tbl ma1 zw zh (fun x y => Some (found (lookup1 (decode_pairs h w b1 b2 md2 l) (x, y)))) /\
    tbl ma2 zw zh (fun x y => Some (found (lookup2 (decode_pairs h w b1 b2 md2 l) (x, y)))))
    by (eapply decode_rows_ok; eassumption).
  destruct DR as (ma1 & ma2 & -> & D1 & D2). cbn [bind].
  assert (DP : forall p q, In (p, q) (decode_pairs h w b1 b2 md2 l) -> 0 <= fst p /\ 0 <= fst q).
  { intros p q I. assert (X : at1 b1 p = true /\ at2 b2 q = true /\ near md2 p q) by (eapply (decode_props h w b1 b2 md2 oc2); eassumption).
    destruct X as (X & Y & _). apply (at1_in h w b1 W1 Eh1 Ew1) in X. apply (at2_in h w b2 W2 Eh2 Ew2) in Y. unfold inimg in X, Y. rewrite inb_spec in X, Y. lia. }
  assert (K1 : forall p q, lookup1 (decode_pairs h w b1 b2 md2 l) p = Some q -> 0 <= fst q).
  { intros p q E. assert (X : In (p, q) (decode_pairs h w b1 b2 md2 l)) by (eapply lookup1_spec; eassumption). apply (DP p q X). }
  assert (K2 : forall p q, lookup2 (decode_pairs h w b1 b2 md2 l) p = Some q -> 0 <= fst q).
  { intros p q E. assert (X : In (q, p) (decode_pairs h w b1 b2 md2 l)) by (eapply lookup2_spec; eassumption). apply (DP q p X). }
  destruct (fill_codes_ok h w Hhw Hh Hw b1 ma1 _ Eh1 Ew1 D1 K1) as (o1 & -> & F1). cbn [bind].
  destruct (fill_codes_ok h w Hhw Hh Hw b2 ma2 _ Eh2 Ew2 D2 K2) as (o2 & -> & F2). cbn [bind].
  rewrite (side_cost_ok h w b1 ma1 _ Eh1 Ew1 D1 K1). cbn [bind].
  rewrite (side_cost_ok h w b2 ma2 _ Eh2 Ew2 D2 K2). cbn [bind]. rewrite F1, F2. reflexivity.
Qed.
Lemma array_match_ok fuel pfuel s : valid_stream s ->
  array_match_edge_maps h w b1 b2 md2 oc2 fuel pfuel s = match_edge_maps h w b1 b2 md2 oc2 fuel pfuel s.
Proof.
  intros V. unfold array_match_edge_maps. rewrite (array_match_with_ok _ (csa_solve fuel pfuel)); [reflexivity|exact V|].
  intros g m L BV MC P. destruct (csa_solve_sound fuel pfuel (n1 + n2) g m L BV MC P) as (r & ER & Hr). exists r. split; [exact ER|].
  split; [apply ProofsCSAMem2.csa_mem_ok, ER|]. destruct r as [l|]; [exact (proj1 Hr)|exact I].
Qed.
End Main.

(** 1. matchEdgeMaps, executed array access by array access, yields what ModelMatch.v says, for all images, tolerances, random
    numbers and solver runs whose sizes fit an unsigned. *)
Theorem array_matcher_is_the_matcher h w b1 b2 md2 oc2 fuel pfuel s :
  wf b1 -> wf b2 -> ht b1 = h -> wd b1 = w -> ht b2 = h -> wd b2 = w -> (0 <= md2)%Q -> (md2 < oc2)%Q -> valid_stream s ->
  uint32 (Z.of_nat h) -> uint32 (Z.of_nat w) -> Forall uint32 (array_sizes h w b1 b2 md2) ->
  array_match_edge_maps h w b1 b2 md2 oc2 fuel pfuel s = match_edge_maps h w b1 b2 md2 oc2 fuel pfuel s.
Proof.
  intros W1 W2 E1 E2 E3 E4 D O V Hh Hw F. unfold array_sizes in F. cbv zeta in F. unfold uint32 in *.
  inversion F as [|? ? F1 G1]; subst. inversion G1 as [|? ? F2 G2]; subst. inversion G2 as [|? ? F3 G3]; subst.
  inversion G3 as [|? ? F4 G4]; subst. inversion G4 as [|? ? F5 G5]; subst. apply array_match_ok; try assumption; try reflexivity; try lia.
Qed.
Print Assumptions array_matcher_is_the_matcher.

(** 2. It therefore never reads or writes outside an array, never reads an array cell or a node number that was not written,
    never passes the solver an arc outside its range and violates none of its assertions; nor does the solver (C71). *)
Theorem array_matcher_safe h w b1 b2 md2 oc2 fuel pfuel s :
  wf b1 -> wf b2 -> ht b1 = h -> wd b1 = w -> ht b2 = h -> wd b2 = w -> (0 <= md2)%Q -> (md2 < oc2)%Q -> valid_stream s ->
  uint32 (Z.of_nat h) -> uint32 (Z.of_nat w) -> Forall uint32 (array_sizes h w b1 b2 md2) ->
  exists r, array_match_edge_maps h w b1 b2 md2 oc2 fuel pfuel s = Ok r.
Proof.
  intros W1 W2 E1 E2 E3 E4 D O V Hh Hw F. rewrite array_matcher_is_the_matcher by assumption.
  destruct (match_sound h w b1 b2 md2 oc2 W1 W2 E1 E2 E3 E4 D O fuel pfuel s V) as (r & E & _). exists r. exact E.
Qed.
Print Assumptions array_matcher_safe.

(** 3. So for the pictures of the data sets (C69): BSDS, SBD and Cityscapes sizes at the usual tolerances, any content, any
    random numbers. *)
Theorem usual_sizes_safe b1 b2 max_dist outlier_cost fuel pfuel s :
  wf b1 -> wf b2 -> (outlier_cost <= 100)%Q -> usual (ht b1) (wd b1) b1 b2 max_dist -> valid_stream s ->
  array_correspond_pixels b1 b2 max_dist outlier_cost fuel pfuel s = correspond_pixels b1 b2 max_dist outlier_cost fuel pfuel s.
Proof.
  intros W1 W2 O U V. unfold array_correspond_pixels, correspond_pixels.
  destruct (Nat.eqb_spec (ht b1) (ht b2)) as [Eh|]; [|reflexivity]. destruct (Nat.eqb_spec (wd b1) (wd b2)) as [Ew|]; [|reflexivity]. cbn [negb andb].
  destruct (Qle_bool max_dist 0) eqn:D; [reflexivity|]. destruct (Qle_bool outlier_cost 1) eqn:P; [reflexivity|].
  assert (D' : (0 < max_dist)%Q) by (apply Qnot_le_lt; intros X; apply Qle_bool_iff in X; congruence).
  assert (P' : (1 < outlier_cost)%Q) by (apply Qnot_le_lt; intros X; apply Qle_bool_iff in X; congruence).
  destruct (usual_sizes_are_moderate b1 b2 max_dist outlier_cost W1 W2 (eq_sym Eh) (eq_sym Ew) D' P' O U) as (n & k & M). cbv zeta.
  set (md2 := (max_dist * max_dist * _)%Q) in *. set (oc2 := (outlier_cost * outlier_cost * (max_dist * max_dist) * _)%Q) in *.
  destruct (Qle_bool 0 md2 && Qltb md2 oc2) eqn:G.
  - apply andb_true_iff in G. destruct G as [G1 G2]. apply Qle_bool_iff in G1. apply Qltb_true in G2.
    assert (S1 : Forall uint32 (array_sizes (ht b1) (wd b1) b1 b2 md2)) by (eapply arrays_fit; try eassumption; try reflexivity; try (symmetry; assumption)).
    assert (S2 : Z.of_nat (ht b1) < 32768 /\ Z.of_nat (wd b1) < 32768).
    { assert (X : n * (k + 20) < 1431655765 /\ Z.of_nat (ht b1) < 32768 /\ Z.of_nat (wd b1) < 32768 /\ Z.of_nat (ht b1) * Z.of_nat (wd b1) < 1073741824)
        by (eapply sizes; eassumption). lia. }
    apply array_matcher_is_the_matcher; try assumption; try reflexivity; try (symmetry; assumption); apply uint32_intro; lia.
  - unfold array_match_edge_maps, array_match_with, match_edge_maps, require, check. rewrite G. reflexivity.
Qed.
Print Assumptions usual_sizes_safe.

(** 4. The bound is needed: rows of three beyond 2^32 elements share cells (and Array.hh's assertions do not notice). *)
Theorem large_arrays_alias a : 2 ^ 32 <= a * 3 -> a < 2 ^ 32 ->
  index (alloc (A := Z) a 3) 0 0 = index (alloc (A := Z) a 3) 1431655765 1 /\ index (alloc (A := Z) a 3) 0 0 = Ok 0.
Proof.
  intros A B. change (2 ^ 32) with 4294967296 in *.
  assert (S1 : 0 < u32 (u32 a * u32 3)).
  { rewrite (u32_small a), (u32_small 3) by (change (2 ^ 32) with 4294967296; lia). unfold u32. change (2 ^ 32) with 4294967296.
    assert (Y := Z.div_mod (a * 3) 4294967296 ltac:(lia)). assert (Y2 := Z.mod_pos_bound (a * 3) 4294967296 ltac:(lia)). lia. }
  unfold index, alloc. cbn [d0 d1 asize]. rewrite (u32_small a) in * by (change (2 ^ 32) with 4294967296; lia).
  change (u32 3) with 3 in *. change (u32 0) with 0. change (u32 1) with 1. change (u32 1431655765) with 1431655765.
  change (u32 (0 * 3 + 0)) with 0. change (u32 (1431655765 * 3 + 1)) with 0.
  destruct (Z.ltb_spec 0 a); [|lia]. destruct (Z.ltb_spec 1431655765 a); [|lia]. cbn [negb Z.ltb Z.compare Pos.compare Pos.compare_cont].
  destruct (Z.ltb_spec 0 (u32 (a * 3))); [|lia]. split; reflexivity.
Qed.
Print Assumptions large_arrays_alias.

(** A case: two 2 x 3 pictures with two edge pixels each; the accesses are carried out. *)
Definition ex_a1 : image bool := tab 2 3 (fun y x => x =? 0).
Definition ex_a2 : image bool := tab 2 3 (fun y x => x =? 1).
Definition ex_stream : stream := rnd_stream (rnd_init 12345).
Example ex_usual_sizes : wf ex_a1 /\ wf ex_a2 /\ usual (ht ex_a1) (wd ex_a1) ex_a1 ex_a2 (2 # 100) /\ valid_stream ex_stream.
Proof.
  split; [apply wf_tab|]. split; [apply wf_tab|]. split; [|apply rnd_stream_valid].
  right; left. split; [apply Nat.leb_le; reflexivity|]. split; [apply Nat.leb_le; reflexivity|discriminate].
Qed.
Example ex_sizes : array_sizes 2 3 ex_a1 ex_a2 (1 # 1) = [6; 14; 42; 15; 12; 8]. Proof. vm_compute. reflexivity. Qed.
Example ex_fits : Forall uint32 (array_sizes 2 3 ex_a1 ex_a2 (1 # 1)).
Proof. rewrite ex_sizes. repeat constructor; discriminate. Qed.
Example ex_run : match array_match_edge_maps 2 3 ex_a1 ex_a2 (1 # 1) (4 # 1) 60 60 ex_stream with
  Ok (Some (o, _)) => Some (rows (m1 o), rows (m2 o), total o) | _ => None end =
  Some ([[3; 0; 0]; [4; 0; 0]], [[0; 1; 0]; [0; 2; 0]], mkCost 0 [1; 1; 1; 1]).
Proof. vm_compute. reflexivity. Qed.
(** What the model catches: a cell never written, an index outside. *)
Example ex_unwritten : rd (alloc (A := Z) 2 3) 1 1 = fault. Proof. reflexivity. Qed.
Example ex_outside : rd (init (alloc 2 3) 0) 0 3 = fault /\ rd (init (alloc 2 3) 0) (-1) 0 = fault /\ rd (init (alloc 2 3) 0) 1 2 = Ok 0.
Proof. repeat split; reflexivity. Qed.
