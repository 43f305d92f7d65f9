(** The correspondence with the binary64 solver, for any squared tolerance and outlier cost. *)
From Verif Require Import ProofsMatch5 SpecMatch SpecCorrespond PropertiesMatch PropertiesMatch2 ModelMatch64 PropertiesSolver64.
From Coq Require Import Lqa ZifyBool ZifyNat.
Open Scope Z_scope.
Open Scope list_scope.

Lemma rint_le_up n : 0 <= n -> rint_sqrt n <= Z.sqrt_up n.
Proof.
  intros H. destruct (Z.eq_dec n 0) as [->|N0]; [discriminate|]. unfold rint_sqrt. cbn zeta.
  destruct (Z.sqrt_spec n H) as [A B]. assert (P := Z.sqrt_nonneg n). destruct (Z.sqrt_up_spec n ltac:(lia)) as [C D]. assert (U := Z.sqrt_up_nonneg n).
  set (s := Z.sqrt n) in *. set (t := Z.sqrt_up n) in *. clearbody s t. destruct (Z.ltb_spec (s * (s + 1)) n); nia.
Qed.
Lemma ceil_sqrt_le q W : 0 <= W -> (q <= inject_Z (W * W))%Q -> ceil_sqrt q <= W.
Proof.
  intros H L. unfold ceil_sqrt. apply Z.le_trans with (Z.sqrt_up (W * W)); [|rewrite Z.sqrt_up_square by exact H; lia].
  apply Z.sqrt_up_le_mono. apply Qceiling_resp_le in L. rewrite Qceiling_Z in L. exact L.
Qed.

Section Gen.
Variable img0 img1 : image bool.
Variable md2 oc2 : Q.
Hypothesis W0 : wf img0.
Hypothesis W1 : wf img1.
Hypothesis Sh : same_shape img0 img1.
Hypothesis Hmd : (0 <= md2)%Q.
Hypothesis Hoc : (md2 < oc2)%Q.
Let h := ht img0.
Let w := wd img0.
Let n1 := n1 h w img0 img1 md2.
Let n2 := n2 h w img0 img1 md2.
Notation built := (built h w img0 img1 md2 oc2).
Let S1 : ht img1 = h := eq_sym (proj1 Sh).
Let S2 : wd img1 = w := eq_sym (proj2 Sh).

Lemma node_counts : (n1 <= count_true img0)%nat /\ (n2 <= count_true img1)%nat.
Proof.
  destruct (nodes_are_the_matchable_pixels img0 img1 md2 W0 W1 Sh) as (D1 & D2 & I1 & I2). fold h w in D1, D2, I1, I2. split.
  - unfold n1, ModelMatch.n1. rewrite count_true_fg by exact W0. rewrite <- (map_length swap). apply NoDup_incl_length.
    + apply FinFun.Injective_map_NoDup; [|exact D1]. intros [a b] [c d] Eq. unfold swap in Eq. cbn in Eq. congruence.
    + intros q Q. apply in_map_iff in Q. destruct Q as ([a b] & <- & Q). apply I1 in Q. destruct Q as (? & ? & Q & _).
      unfold swap. cbn [fst snd]. apply in_fg_list; assumption.
  - unfold n2, ModelMatch.n2. rewrite count_true_fg by exact W1. rewrite <- (map_length swap). apply NoDup_incl_length.
    + apply FinFun.Injective_map_NoDup; [|exact D2]. intros [a b] [c d] Eq. unfold swap in Eq. cbn in Eq. congruence.
    + intros q Q. apply in_map_iff in Q. destruct Q as ([a b] & <- & Q). apply I2 in Q. destruct Q as (? & ? & _ & Q & _).
      unfold swap. cbn [fst snd]. apply in_fg_list; assumption.
Qed.
Lemma some_cost g : built g -> (0 < n1 + n2)%nat -> exists a, In a g /\ a_cost a <> 0.
Proof.
  intros B L. assert (M := built_max_cost h w img0 img1 md2 oc2 eq_refl eq_refl S1 S2 Hmd Hoc g B L).
  clear - M. unfold max_cost in M. induction g as [|a g IH]; [cbn in M; lia|]. cbn [fold_right] in M.
  destruct (Z.eq_dec (a_cost a) 0) as [Z|Z]; [|exists a; split; [left; reflexivity|exact Z]].
  rewrite Z in M. destruct IH as (b & Ib & Cb); [lia|]. exists b. split; [right; exact Ib|exact Cb].
Qed.
Lemma arc_cost_bound g W a : built g -> 0 <= W -> (10000 * oc2 <= inject_Z (W * W))%Q -> In a g -> Z.abs (a_cost a) <= 100 * W.
Proof.
  intros B HW HO I. assert (K := built_kind h w img0 img1 md2 oc2 W0 W1 eq_refl eq_refl S1 S2 g a B I).
  destruct (kind_range h w img0 img1 md2 oc2 eq_refl eq_refl S1 S2 Hmd Hoc a K) as (_ & _ & Nn). rewrite Z.abs_eq by exact Nn.
  assert (O1 : ow oc2 <= W) by (apply ceil_sqrt_le; [exact HW|]; change (inject_Z (multiplier * multiplier)) with (10000 # 1)%Q; lra).
  assert (O0 := ow_positive md2 oc2 Hmd Hoc).
  destruct K as [[(A & C & D) E]|[(i & j & A & C & D & F & E)|[(i & j & A & C & D & F & E)|(i & j & A & C & D & F & E)]]]; unfold multiplier in *; try lia.
  rewrite E. set (d := d2_nodes h w img0 img1 md2 (a_tail a) (a_head a)). assert (Dn : 0 <= d) by apply dist2_nonneg.
  assert (Dm : (inject_Z d <= md2)%Q) by exact D. apply Z.le_trans with (Z.sqrt_up (d * 10000)); [apply rint_le_up; lia|].
  apply Z.le_trans with (ow oc2); [|lia]. unfold ow, ceil_sqrt. apply Z.sqrt_up_le_mono. apply Qle_ceiling_Z. change (inject_Z (multiplier * multiplier)) with (10000 # 1)%Q.
  rewrite inject_Z_mult. change (inject_Z 10000) with (10000 # 1)%Q. lra.
Qed.
(** What a run yields. *)
Definition result64 (s : stream) (out : outcome) (s' : stream) (Good : list garc -> list (nat * Z) -> Prop) : Prop :=
  (n1 + n2 = 0)%nat /\ out = nothing h w /\ s' = s \/
  (0 < n1 + n2)%nat /\ exists g l, build_graph h w img0 img1 md2 oc2 s = Ok (g, s') /\ built g /\
    perfect_matching (n1 + n2) g l /\ Good g l /\ out = outcome_of h w img0 img1 md2 l.
Lemma gen64_step s : valid_stream s ->
  (n1 + n2 = 0)%nat /\ (forall fuel pfuel, match_edge_maps64 h w img0 img1 md2 oc2 fuel pfuel s = Ok (Some (nothing h w, s))) \/
  (0 < n1 + n2)%nat /\ exists g s', build_graph h w img0 img1 md2 oc2 s = Ok (g, s') /\ built g /\
    forall fuel pfuel, (csa_solve64 fuel pfuel (n1 + n2) g = Ok None -> match_edge_maps64 h w img0 img1 md2 oc2 fuel pfuel s = Ok None) /\
      forall l, csa_solve64 fuel pfuel (n1 + n2) g = Ok (Some l) -> perfect_matching (n1 + n2) g l ->
        match_edge_maps64 h w img0 img1 md2 oc2 fuel pfuel s = Ok (Some (outcome_of h w img0 img1 md2 l, s')).
Proof.
  intros V. assert (NZ := n_arcs_zero h w img0 img1 md2 W0 W1 eq_refl eq_refl S1 S2). fold n1 n2 in NZ.
  assert (G := guard_ok md2 oc2 Hmd Hoc).
  destruct (Z.eqb_spec (n_arcs h w img0 img1 md2) 0) as [E|N].
  - left. split; [apply NZ; exact E|]. intros fuel pfuel. unfold match_edge_maps64. rewrite check_ok by exact G. rewrite E. reflexivity.
  - right. assert (L : (0 < n1 + n2)%nat) by (destruct (Nat.eq_dec (n1 + n2) 0) as [E|]; [apply NZ in E; contradiction|lia]). split; [exact L|].
    destruct (build_graph_ok h w img0 img1 md2 oc2 W0 W1 eq_refl eq_refl S1 S2 Hmd Hoc s V) as (g & s' & E & V' & B).
    exists g, s'. split; [exact E|]. split; [exact B|]. intros fuel pfuel. unfold match_edge_maps64. rewrite check_ok by exact G. fold n1 n2.
    apply Z.eqb_neq in N. rewrite N, E. cbn [bind]. split; [intros ->; reflexivity|]. intros l -> Pm. cbn [bind]. rewrite check_ok; [reflexivity|].
    apply andb_true_iff. split; [apply Nat.eqb_eq, Pm|]. eapply (check_solution_ok h w img0 img1 md2 oc2); try eassumption; reflexivity.
Qed.
Lemma result64_correspondence s out s' Good : result64 s out s' Good -> is_correspondence img0 img1 md2 (m1 out) (m2 out).
Proof.
  intros [(_ & -> & _)|(_ & g & l & _ & B & Pm & _ & ->)].
  - apply nothing_correspondence, Sh.
  - apply (decoded_correspondence h w img0 img1 md2 oc2 W0 W1 eq_refl eq_refl S1 S2 g l B Pm).
Qed.
Lemma graph_facts g : built g -> (forall a, In a g -> (a_tail a < n1 + n2)%nat /\ (a_head a < n1 + n2)%nat) /\
  exists m, perfect_matching (n1 + n2) g m.
Proof.
  intros B. split; [exact (built_valid h w img0 img1 md2 oc2 W0 W1 eq_refl eq_refl S1 S2 Hmd Hoc g B)|].
  eexists. exact (overlay_perfect h w img0 img1 md2 oc2 eq_refl eq_refl S1 S2 g B).
Qed.


(** Some pixel is matchable exactly if there are nodes. *)
Lemma gen_nodes : (0 < n1 + n2)%nat <-> exists y x y' x', matchable_pair img0 img1 md2 y x y' x'.
Proof.
  unfold n1, n2.
  assert (M1 := matchable1_spec h w img0 img1 md2 W0 W1 eq_refl eq_refl (eq_sym (proj1 Sh)) (eq_sym (proj2 Sh))).
  assert (M2 := matchable2_spec h w img0 img1 md2 W0 W1 eq_refl eq_refl (eq_sym (proj1 Sh)) (eq_sym (proj2 Sh))).
  assert (I1 := in_nodes1 h w img0 img1 md2 W0 W1 eq_refl eq_refl (eq_sym (proj1 Sh)) (eq_sym (proj2 Sh))).
  assert (I2 := in_nodes2 h w img0 img1 md2 W0 W1 eq_refl eq_refl (eq_sym (proj1 Sh)) (eq_sym (proj2 Sh))).
  split.
  - intros H. unfold ModelMatch.n1, ModelMatch.n2 in H. destruct (nodes1 h w img0 img1 md2) as [|p r] eqn:E.
    + destruct (nodes2 h w img0 img1 md2) as [|q r] eqn:E2; [cbn in H; lia|]. assert (X := proj1 (I2 q) (or_introl eq_refl)).
      apply M2 in X. destruct X as (A & p & B & C). exists (snd p), (fst p), (snd q), (fst q). split; [exact B|]. split; [exact A|exact C].
    + assert (X := proj1 (I1 p) (or_introl eq_refl)). apply M1 in X. destruct X as (A & q & B & C).
      exists (snd p), (fst p), (snd q), (fst q). split; [exact A|]. split; [exact B|exact C].
  - intros (y & x & y' & x' & A & B & C). assert (X : matchable1 h w img0 img1 md2 (x, y) = true).
    { apply M1. split; [exact A|]. exists (x', y'). split; [exact B|exact C]. }
    apply I1 in X. unfold ModelMatch.n1. destruct (nodes1 h w img0 img1 md2); [destruct X|]. cbn [List.length]. lia.
Qed.
Lemma gen64_matching fuel pfuel s : (forall i, 0 <= s i < 2 ^ 48) -> Z.of_nat (count_true img0 + count_true img1) <= 2 ^ 30 ->
  exists r, match_edge_maps64 h w img0 img1 md2 oc2 fuel pfuel s = Ok r /\
  forall out s', r = Some (out, s') -> result64 s out s' (fun _ _ => True).
Proof.
  intros V Sz. destruct (gen64_step s V) as [(Z & E)|(L & g & s' & Eg & B & E)].
  - eexists. split; [apply E|]. intros out s' [= <- <-]. left. auto.
  - destruct (graph_facts g B) as (Vg & m & Pm). destruct node_counts as [C1 C2].
    assert (NK : Z.of_nat (n1 + n2) <= 2 ^ 30) by (clear - C1 C2 Sz; clearbody n1 n2; lia).
    destruct (solver64_returns_a_matching _ g m fuel pfuel L NK Vg (some_cost g B L) Pm) as (r & Er & Hr).
    destruct (E fuel pfuel) as [E1 E2]. destruct r as [l|].
    + eexists. split; [apply (E2 l Er Hr)|]. intros out s1 [= <- <-]. right. split; [exact L|]. exists g, l. auto.
    + exists None. split; [apply E1, Er|]. discriminate.
Qed.
Lemma result64_summary s out s' Good : result64 s out s' Good ->
  is_correspondence img0 img1 md2 (m1 out) (m2 out) /\ (matched (m1 out) = matched (m2 out))%nat /\ (matched (m1 out) <= count_true img0)%nat /\ (matched (m2 out) <= count_true img1)%nat.
Proof.
  intros R. assert (H := result64_correspondence s out s' Good R).
  split; [exact H|]. assert (M := equal_matched _ _ _ _ _ W0 W1 Sh H). destruct (matched_at_most_edge_pixels _ _ _ _ _ W0 W1 Sh H) as [X Y]. split; [exact M|]. split; [exact X|congruence].
Qed.
Lemma gen64_solution s W : (forall i, 0 <= s i < 2 ^ 48) ->
  let K := Z.of_nat (count_true img0 + count_true img1) in
  0 <= W -> (10000 * oc2 <= inject_Z (W * W))%Q -> K ^ 2 * (100 * W) <= 2 ^ 41 -> (0 < n1 + n2)%nat ->
  exists F P g l s', build_graph h w img0 img1 md2 oc2 s = Ok (g, s') /\ built g /\ perfect_matching (n1 + n2) g l /\
    (forall fuel pfuel, (F <= fuel)%nat -> (P <= pfuel)%nat -> csa_solve64 fuel pfuel (n1 + n2) g = Ok (Some l)) /\
    (forall m, perfect_matching (n1 + n2) g m -> total_cost l <= total_cost m + 1) /\
    (K ^ 3 * (100 * W) <= 2 ^ 40 -> minimum_cost_matching (n1 + n2) g l) /\
    forall y x y' x',
      (px false img1 y' x' = true /\ px 0 (m1 (outcome_of h w img0 img1 md2 l)) y x = pixel_code h y' x') <->
      exists i j c, nth_error l i = Some (j, c) /\
        nth_error (nodes1 h w img0 img1 md2) i = Some (x, y) /\ nth_error (nodes2 h w img0 img1 md2) j = Some (x', y').
Proof.
  intros V K HW HO Sz L. destruct (build_graph_ok h w img0 img1 md2 oc2 W0 W1 eq_refl eq_refl S1 S2 Hmd Hoc s V) as (g & s' & Eg & _ & B).
  destruct (graph_facts g B) as (Vg & m & Pm). destruct node_counts as [C1 C2].
  set (N := (n1 + n2)%nat) in *.
  assert (NK : Z.of_nat N <= K) by (unfold N, K; lia). assert (N0 : 0 <= Z.of_nat N) by lia.
  assert (P2 : Z.of_nat N ^ 2 * (100 * W) <= 2 ^ 41) by (eapply Z.le_trans; [|exact Sz]; apply Z.mul_le_mono_nonneg_r; [lia|]; apply Z.pow_le_mono_l; lia).
  assert (P3 : K ^ 3 * (100 * W) <= 2 ^ 40 -> Z.of_nat N ^ 3 * (100 * W) <= 2 ^ 40) by (intros H; eapply Z.le_trans; [|exact H]; apply Z.mul_le_mono_nonneg_r; [lia|]; apply Z.pow_le_mono_l; lia).
  destruct (solver64_is_nearly_optimal N g m (100 * W) L Vg (some_cost g B L) Pm
    (fun a Ha => arc_cost_bound g W a B HW HO Ha) P2) as (F & P & l & T & Pl & Opt).
  exists F, P, g, l, s'. split; [exact Eg|]. split; [exact B|]. split; [exact Pl|]. split; [exact T|]. split; [intros m' H; apply Opt, H|]. split; [intros H; split; [exact Pl|intros m' H'; apply Opt; [exact H'|apply P3, H]]|].
  intros y x y' x'. cbn [outcome_of m1].
  rewrite <- (m1_pair h w img0 img1 md2 oc2 W0 W1 eq_refl eq_refl (eq_sym (proj1 Sh)) (eq_sym (proj2 Sh)) g l B Pl).
  rewrite in_decode. split.
  * intros (i & j & c & A & L1 & L2 & Q1 & Q2). exists i, j, c. split; [exact A|].
    rewrite Q1, Q2. split; apply nth_error_nth'; assumption.
  * intros (i & j & c & A & Q1 & Q2). exists i, j, c. split; [exact A|].
    split; [apply nth_error_Some; congruence|]. split; [apply nth_error_Some; congruence|].
    split; symmetry; apply nth_error_nth; assumption.
Qed.
Lemma gen64_nearly_optimal s W : (forall i, 0 <= s i < 2 ^ 48) ->
  let K := Z.of_nat (count_true img0 + count_true img1) in
  0 <= W -> (10000 * oc2 <= inject_Z (W * W))%Q -> K ^ 2 * (100 * W) <= 2 ^ 41 ->
  exists F P out s', (forall fuel pfuel, (F <= fuel)%nat -> (P <= pfuel)%nat ->
      match_edge_maps64 h w img0 img1 md2 oc2 fuel pfuel s = Ok (Some (out, s'))) /\
    is_correspondence img0 img1 md2 (m1 out) (m2 out) /\
    ((exists y x y' x', matchable_pair img0 img1 md2 y x y' x') ->
     exists g l, build_graph h w img0 img1 md2 oc2 s = Ok (g, s') /\ perfect_matching (n1 + n2) g l /\
       (forall m, perfect_matching (n1 + n2) g m -> total_cost l <= total_cost m + 1) /\
       (K ^ 3 * (100 * W) <= 2 ^ 40 -> minimum_cost_matching (n1 + n2) g l) /\
       forall y x y' x',
         (px false img1 y' x' = true /\ px 0 (m1 out) y x = pixel_code h y' x') <->
         exists i j c, nth_error l i = Some (j, c) /\
           nth_error (nodes1 h w img0 img1 md2) i = Some (x, y) /\ nth_error (nodes2 h w img0 img1 md2) j = Some (x', y')).
Proof.
  intros V K HW HO Sz.
  destruct (gen64_step s V) as [(Z & E)|(L & g & s' & Eg & B & E)].
  - exists 0%nat, 0%nat, (nothing h w), s. split; [intros; apply E|]. split; [apply nothing_correspondence, Sh|]. intros Ex. exfalso.
    apply gen_nodes in Ex. lia.
  - destruct (gen64_solution s W V HW HO Sz L) as (F & P & g' & l & s'' & Eg' & _ & Pl & T & Opt & Min & Dec). rewrite Eg in Eg'. injection Eg' as <- <-.
    exists F, P, (outcome_of h w img0 img1 md2 l), s'. split; [intros fuel pfuel Hf Hp; apply (proj2 (E fuel pfuel) l (T fuel pfuel Hf Hp) Pl)|]. split.
    + apply (decoded_correspondence h w img0 img1 md2 oc2 W0 W1 eq_refl eq_refl (eq_sym (proj1 Sh)) (eq_sym (proj2 Sh)) g l B Pl).
    + intros _. exists g, l. split; [exact Eg|]. split; [exact Pl|]. split; [exact Opt|]. split; [exact Min|exact Dec].
Qed.
End Gen.
