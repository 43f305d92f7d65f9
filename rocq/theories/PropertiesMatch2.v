(** The correspondence as the solution of an assignment problem described from scratch. *)
From Verif Require Import ModelMatch ProofsMatch5 SpecGraph PropertiesMatch ProofsMatch6 ProofsMatch7.
From Coq Require Import Lia ZifyBool ZifyNat Lqa.
Open Scope Z_scope.
Open Scope list_scope.

(** C18/C46. The pixels that take part are those with a counterpart within tolerance; the graph has
    exactly the arcs of the specification (the spare nodes' partners being some choice); and the
    reported pairs are the pixel pairs of a perfect matching of least total cost. *)
Theorem correspondence_solves_assignment_problem : forall img0 img1 max_dist outlier_cost fuel pfuel s out s',
  wf img0 -> wf img1 -> same_shape img0 img1 -> (0 < max_dist)%Q -> (1 < outlier_cost)%Q ->
  ((0 < ht img0)%nat \/ (0 < wd img0)%nat) -> (forall i, 0 <= s i < 2 ^ 48) ->
  correspond_pixels img0 img1 max_dist outlier_cost fuel pfuel s = Ok (Some (out, s')) ->
  let tol2 := tolerance2 max_dist img0 in
  (exists y x y' x', matchable_pair img0 img1 tol2 y x y' x') ->
  exists A B W g l,
    NoDup A /\ NoDup B /\
    (forall x y, In (x, y) A <-> exists y' x', matchable_pair img0 img1 tol2 y x y' x') /\
    (forall x' y', In (x', y') B <-> exists y x, matchable_pair img0 img1 tol2 y x y' x') /\
    ceiling_hundredths (outlier_cost * outlier_cost * tol2) W /\
    assignment_graph A B tol2 W g /\
    minimum_cost_matching (length A + length B) g l /\
    (forall y x y' x',
      (px false img1 y' x' = true /\ px 0 (m1 out) y x = pixel_code (ht img0) y' x') <->
      exists i j c, nth_error l i = Some (j, c) /\ nth_error A i = Some (x, y) /\ nth_error B j = Some (x', y')).
Proof.
  intros img0 img1 md oc fuel pfuel s out s' W0 W1 Sh Pd Po Ne V E tol2 Ex.
  destruct (correspondence_has_minimum_cost img0 img1 md oc fuel pfuel s out s' W0 W1 Sh Pd Po Ne V E Ex) as (g & l & Eg & Mn & Pr).
  destruct (nodes_are_the_matchable_pixels img0 img1 tol2 W0 W1 Sh) as (D1 & D2 & I1 & I2).
  fold tol2 in Eg, Mn, Pr. set (h := ht img0) in *. set (w := wd img0) in *.
  set (oc2 := (oc * oc * (md * md) * inject_Z (diag2 h w))%Q) in *.
  assert (Pm : (0 < tol2)%Q) by exact (api_md img0 md Pd Ne).
  assert (Oc : (tol2 < oc2)%Q) by exact (api_oc img0 md oc Pd Po Ne).
  destruct Sh as [S1 S2].
  exists (nodes1 h w img0 img1 tol2), (nodes2 h w img0 img1 tol2), (ow oc2), g, l.
  split; [exact D1|]. split; [exact D2|]. split; [intros x y; apply I1|]. split; [intros x y; apply I2|]. split.
  - assert (Eq : (oc2 == oc * oc * tol2)%Q) by exact (api_oc_eq img0 md oc).
    destruct (ceiling_ow oc2) as (A & B & C); [lra|]. split; [exact A|]. split; [rewrite <- Eq; exact B|].
    intros d Hd Ld. apply C; [exact Hd|]. rewrite Eq. exact Ld.
  - split; [|split; [exact Mn|exact Pr]].
    destruct (build_graph_ok h w img0 img1 tol2 oc2 W0 W1 eq_refl eq_refl (eq_sym S1) (eq_sym S2) (Qlt_le_weak _ _ Pm) Oc s V) as (g' & s'' & Eg' & _ & B).
    rewrite Eg in Eg'. injection Eg' as <- _.
    apply (built_assignment h w img0 img1 tol2 oc2); try assumption; try reflexivity; try (symmetry; assumption). apply Qlt_le_weak. exact Pm.
Qed.
Print Assumptions correspondence_solves_assignment_problem.
(** The hypotheses are those of [ex_correspond] and [ex_matchable]. *)

(** C46. If one of the maps has at most six edge pixels (and the outlier cost is at least 7; the
    default is 100) then no correspondence within the tolerance matches more pixels than the
    returned one. *)
Theorem small_maps_are_matched_maximum : forall img0 img1 max_dist outlier_cost fuel pfuel s out s',
  wf img0 -> wf img1 -> same_shape img0 img1 -> (0 < max_dist)%Q -> (7 <= outlier_cost)%Q ->
  ((0 < ht img0)%nat \/ (0 < wd img0)%nat) -> (forall i, 0 <= s i < 2 ^ 48) ->
  (count_true img0 <= 6)%nat \/ (count_true img1 <= 6)%nat ->
  correspond_pixels img0 img1 max_dist outlier_cost fuel pfuel s = Ok (Some (out, s')) ->
  forall m1' m2', is_correspondence img0 img1 (tolerance2 max_dist img0) m1' m2' ->
    (matched m1' <= matched (m1 out))%nat.
Proof.
  intros img0 img1 md oc fuel pfuel s out s' W0 W1 Sh Pd Po Ne V Cnt E m1' m2' K'.
  assert (Po' : (1 < oc)%Q) by lra. set (tol2 := tolerance2 md img0) in *.
  assert (Pm : (0 < tol2)%Q) by exact (api_md img0 md Pd Ne).
  destruct (matched m1') as [|k] eqn:Ek; [lia|]. rewrite <- Ek.
  assert (Ex : exists y x y' x', matchable_pair img0 img1 tol2 y x y' x').
  { unfold matched in Ek. destruct K' as ((Wm & _) & _ & Pb & _). rewrite count_true_fg in Ek by (apply wf_imap; exact Wm). fold (nz m1') in Ek.
    destruct (nz m1') as [|[y x] r] eqn:En; [discriminate|]. assert (X : In (y, x) (nz m1')) by (rewrite En; left; reflexivity).
    apply in_nz in X; [|exact Wm]. destruct (Pb y x X) as (A1 & y' & x' & _ & B1 & C1 & _). exists y, x, y', x'. split; [exact A1|]. split; assumption. }
  destruct (correspondence_is_a_matching img0 img1 md oc fuel pfuel s W0 W1 Sh Pd Po' Ne V) as (r & Er & Kr).
  rewrite E in Er. injection Er as <-. destruct (Kr out s' eq_refl) as (K & _). fold tol2 in K. clear Kr.
  destruct (correspondence_solves_assignment_problem img0 img1 md oc fuel pfuel s out s' W0 W1 Sh Pd Po' Ne V E Ex)
    as (A & B & W & g & l & DA & DB & IA & IB & CW & AG & Mn & Pr). fold tol2 in IA, IB, CW, AG.
  destruct (corr_pairs img0 img1 tol2 (m1 out) (m2 out) A B W0 W1 Sh K DA DB IA IB) as (M & JM & LM & EM).
  destruct (corr_pairs img0 img1 tol2 m1' m2' A B W0 W1 Sh K' DA DB IA IB) as (M' & JM' & LM' & EM').
  rewrite <- LM, <- LM'.
  assert (PW : 0 < W).
  { destruct CW as (C1 & C2 & _). destruct (Z.eq_dec W 0) as [->|]; [|lia]. exfalso. change (inject_Z (0 * 0)) with 0%Q in C2.
    assert (X : (0 < oc * oc * tol2)%Q) by (apply Qmult_lt_0_compat; [apply Qmult_lt_0_compat; lra|exact Pm]). lra. }
  apply (no_larger A B tol2 W g AG PW) with (l := l) (mw := (W - 1) / 6).
  - assert (C1 : (length A <= count_true img0)%nat).
    { rewrite count_true_fg by exact W0. rewrite <- (map_length swap). apply NoDup_incl_length.
      - apply FinFun.Injective_map_NoDup; [|exact DA]. intros [a b] [c d] Eq. unfold swap in Eq. cbn in Eq. congruence.
      - intros q Q. apply in_map_iff in Q. destruct Q as ([a b] & <- & Q). apply IA in Q. destruct Q as (? & ? & Q & _).
        unfold swap. cbn [fst snd]. apply in_fg_list; assumption. }
    assert (C2 : (length B <= count_true img1)%nat).
    { rewrite count_true_fg by exact W1. rewrite <- (map_length swap). apply NoDup_incl_length.
      - apply FinFun.Injective_map_NoDup; [|exact DB]. intros [a b] [c d] Eq. unfold swap in Eq. cbn in Eq. congruence.
      - intros q Q. apply in_map_iff in Q. destruct Q as ([a b] & <- & Q). apply IB in Q. destruct Q as (? & ? & _ & Q & _).
        unfold swap. cbn [fst snd]. apply in_fg_list; assumption. }
    lia.
  - exact Mn.
  - exact JM.
  - exact JM'.
  - intros i j. rewrite EM. split.
    + intros (x & y & x' & y' & E1 & E2 & Px & Ec).
      split; [apply nth_error_Some; intros Q; discriminate (eq_trans (eq_sym E1) Q)|].
      split; [apply nth_error_Some; intros Q; discriminate (eq_trans (eq_sym E2) Q)|].
      destruct (proj1 (Pr y x y' x') (conj Px Ec)) as (i' & j' & c & E3 & E4 & E5).
      assert (i' = i). { eapply NoDup_nth_error; [exact DA|apply nth_error_Some; congruence|congruence]. }
      assert (j' = j). { eapply NoDup_nth_error; [exact DB|apply nth_error_Some; congruence|congruence]. }
      subst i' j'. exists c. exact E3.
    + intros (Hi & Hj & c & E3). destruct (nth_error A i) as [[x y]|] eqn:E4; [|apply nth_error_None in E4; lia].
      destruct (nth_error B j) as [[x' y']|] eqn:E5; [|apply nth_error_None in E5; lia].
      exists x, y, x', y'. split; [reflexivity|]. split; [reflexivity|]. apply Pr. exists i, j, c. split; [exact E3|]. split; assumption.
  - intros i j X. apply EM' in X. destruct X as (x & y & x' & y' & E1 & E2 & Px & Ec).
    split; [apply nth_error_Some; intros Q; discriminate (eq_trans (eq_sym E1) Q)|].
    split; [apply nth_error_Some; intros Q; discriminate (eq_trans (eq_sym E2) Q)|].
    assert (Mp : (inject_Z (sqdist y x y' x') <= tol2)%Q).
    { destruct K' as (_ & _ & Pb & _). assert (Nz : px 0 m1' y x <> 0).
      { rewrite Ec. assert (Px' := Px). apply inside in Px'; [|exact W1]. rewrite inb_spec in Px'. unfold pixel_code. nia. }
      destruct (Pb y x Nz) as (_ & y2 & x2 & Ec2 & P2 & D2 & _). rewrite Ec in Ec2. destruct Sh as [S1 S2].
      assert (P3 := P2). assert (P4 := Px). apply inside in P3, P4; [|exact W1|exact W1]. rewrite inb_spec in P3, P4.
      apply code_inj in Ec2; [|lia|lia]. destruct Ec2 as [-> ->]. exact D2. }
    assert (Nn : 0 <= sqdist y x y' x') by (unfold sqdist; assert (S1 := Z.square_nonneg (x - x')); assert (S2 := Z.square_nonneg (y - y')); lia).
    exists (weight (sqdist y x y' x')). assert (Nw : nearest_hundredths (sqdist y x y' x') (weight (sqdist y x y' x'))) by (apply nearest_weight; [exact Nn|reflexivity]).
    split; [apply (ag_pixels _ _ _ _ _ AG i j x y x' y' _ E1 E2); split; [exact Mp|exact Nw]|].
    apply (six_arcs oc tol2 W (sqdist y x y' x')); assumption.
  - assert (X := Z.mul_div_le (W - 1) 6 ltac:(lia)). lia.
  - apply Z.div_pos; lia.
Qed.
Print Assumptions small_maps_are_matched_maximum.

(** A case where a bad choice would lose a pair: columns {2, 4} against {1, 3}; column 2 is next to
    both 1 and 3, column 4 only to 3. *)
Definition ex_c : image bool := row [0; 0; 1; 0; 1; 0; 0; 0; 0; 0].
Definition ex_d : image bool := row [0; 1; 0; 1; 0; 0; 0; 0; 0; 0].
Example ex_maximum : match correspond_pixels ex_c ex_d (1 # 10) 100 20 2000 (rnd_stream (rnd_init 12345)) with
  | Ok (Some (o, _)) => (matched (m1 o), map (fun x => px 0 (m1 o) 0 x) [2; 4]) | _ => (0%nat, []) end = (2%nat, [2; 4]).
Proof. vm_compute. reflexivity. Qed.
