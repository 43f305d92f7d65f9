(** C17-C20, C46, C47: pixel correspondence, the sampler, the solver and the generator. *)
From Verif Require Import ProofsMatch5 SpecMatch SpecCorrespond.
From Coq Require Import Lqa Reals Permutation.
Open Scope Z_scope.
Open Scope list_scope.

(** ** C19: k-of-n sampling *)
Theorem kofn_returns_k_subset : forall k n s, (forall i, 0 <= s i < 2 ^ 48) -> 0 <= k <= n ->
  exists l s', kofn k n s = Ok (l, s') /\
    Z.of_nat (length l) = k /\ StronglySorted Z.lt l /\ Forall (fun v => 0 <= v < n) l /\ NoDup l.
Proof.
  intros k n s V H. destruct (kofn_ok k n s V H) as (l & s' & E & _ & A & B & C). exists l, s'.
  split; [exact E|]. split; [exact A|]. split; [exact B|]. split; [exact C|apply SSorted_NoDup; exact B].
Qed.
Print Assumptions kofn_returns_k_subset.

Theorem kofn_rejects_impossible_requests : forall k n s, k < 0 \/ n < 0 \/ n < k -> kofn k n s = Err AssertionError.
Proof.
  intros k n s H. unfold kofn. destruct (Z.leb_spec 0 k); [|reflexivity]. destruct (Z.leb_spec 0 n); [|reflexivity]. cbn [andb negb].
  destruct (Z.eqb_spec k 0); [lia|]. unfold kofn_large. cbn [kofn_small].
  replace (negb ((0 <? k) && (k <=? n))) with true by lia. destruct (_ <? _); reflexivity.
Qed.
Print Assumptions kofn_rejects_impossible_requests.

(** ** C47: the generator *)
Theorem i32_draws_in_range : forall a b s, (forall i, 0 <= s i < 2 ^ 48) -> a <= b ->
  a <= fst (i32 a b s) <= b /\ snd (i32 a b s) = s_tl s.
Proof. intros a b s V H. split; [apply i32_range; assumption|reflexivity]. Qed.
Print Assumptions i32_draws_in_range.
(** Every value of the range is drawn for some state, so no value is excluded. *)
Theorem i32_draws_every_value : forall a b v, a <= v <= b -> b - a < 2 ^ 31 ->
  exists s, (forall i, 0 <= s i < 2 ^ 48) /\ fst (i32 a b s) = v.
Proof.
  intros a b v H R. set (m := b - a + 1).
  (* the first raw value whose image is v *)
  set (r := ((v - a) * two48 + (m - 1)) / m).
  assert (P := two48_pos). assert (M : 0 < m) by (unfold m; lia).
  assert (Em : m <= two48) by (unfold m, two48; lia).
  assert (D := Z.div_mod ((v - a) * two48 + (m - 1)) m ltac:(lia)). fold r in D.
  assert (B := Z.mod_pos_bound ((v - a) * two48 + (m - 1)) m M).
  assert (R0 : 0 <= r) by (apply Z.div_pos; nia).
  assert (R1 : (v - a) * two48 <= r * m) by nia.
  assert (R2 : r * m < (v - a + 1) * two48) by nia.
  assert (R3 : r < two48) by (unfold m in *; nia).
  exists (fun _ => r). split; [intros _; change (2 ^ 48) with two48; lia|].
  unfold i32, s_hd. cbn [fst]. fold m.
  assert (E : v - a = r * m / two48) by (apply (Z.div_unique_pos _ _ _ (r * m - (v - a) * two48)); [lia|ring]). lia.
Qed.
Print Assumptions i32_draws_every_value.

Theorem stream_values_valid : forall state i, 0 <= rnd_stream state i < 2 ^ 48.
Proof. apply rnd_stream_valid. Qed.
Print Assumptions stream_values_valid.

(** The stream is determined by the state: continuing after [n] draws is the stream of the state
    reached, and [reset] replays everything from the seed. *)
Theorem stream_replays : forall seed n i,
  rnd_stream (rnd_init seed) (n + i)%nat = match n with O => rnd_stream (rnd_init seed) i | S m => rnd_stream (rnd_stream (rnd_init seed) m) i end.
Proof.
  intros seed [|m] i; [reflexivity|]. unfold rnd_stream. replace (S (S m + i)) with (S i + S m)%nat by lia.
  induction i as [|i IH]; [reflexivity|]. cbn [Nat.add Nat.iter nat_rect] in *. f_equal. exact IH.
Qed.
Print Assumptions stream_replays.
Theorem reset_restores_the_initial_state : forall seed, rnd_reset (seed mod 2 ^ 48) = rnd_init seed.
Proof. intros seed. unfold rnd_reset, rnd_init. change (2 ^ 48) with two48. apply Z.mod_mod. discriminate. Qed.
Print Assumptions reset_restores_the_initial_state.
(** Only the low 48 bits of a seed matter; and a seed of 0 means "use the clock". *)
Theorem seeds_agree_modulo_2_48 : forall seed seed' sec usec, seed <> 0 -> seed' <> 0 -> seed mod 2 ^ 48 = seed' mod 2 ^ 48 ->
  rnd_reseed seed sec usec = rnd_reseed seed' sec usec.
Proof.
  intros seed seed' sec usec H H' E. unfold rnd_reseed. apply Z.eqb_neq in H, H'. rewrite H, H'. exact E.
Qed.
Print Assumptions seeds_agree_modulo_2_48.
(** Seeding by the clock: two processes get the same generator exactly when they start in the same
    second (of 2^32) and in the same 8 microsecond tick, ticks counted modulo 65536 (so starts 524288
    microseconds apart within a second are not told apart). *)
Theorem clock_seeding : forall sec usec sec' usec', 0 <= sec < 2 ^ 32 -> 0 <= sec' < 2 ^ 32 -> 0 <= usec < 1000000 -> 0 <= usec' < 1000000 ->
  (rnd_global sec usec = rnd_global sec' usec' <-> sec = sec' /\ (usec / 8 = usec' / 8 \/ usec / 8 = usec' / 8 + 65536 \/ usec' / 8 = usec / 8 + 65536)).
Proof.
  intros sec usec sec' usec' Hs Hs' Hu Hu'. unfold rnd_global, rnd_reseed, rnd_init, clock_seed. change (0 =? 0) with true. cbn iota. change two48 with 281474976710656. change (2 ^ 32) with 4294967296 in *.
  set (a := usec / 8). set (a' := usec' / 8).
  assert (Ha : 0 <= a < 125000) by (unfold a; split; [apply Z.div_pos; lia|apply Z.div_lt_upper_bound; lia]).
  assert (Ha' : 0 <= a' < 125000) by (unfold a'; split; [apply Z.div_pos; lia|apply Z.div_lt_upper_bound; lia]).
  assert (D := Z.div_mod sec 65536 ltac:(lia)). assert (D' := Z.div_mod sec' 65536 ltac:(lia)).
  assert (M := Z.mod_pos_bound sec 65536 ltac:(lia)). assert (M' := Z.mod_pos_bound sec' 65536 ltac:(lia)).
  rewrite (Z.mod_small (sec / 65536) 65536), (Z.mod_small (sec' / 65536) 65536) by lia.
  assert (A := Z.mod_pos_bound a 65536 ltac:(lia)). assert (A' := Z.mod_pos_bound a' 65536 ltac:(lia)).
  assert (E := Z.div_mod a 65536 ltac:(lia)). assert (E' := Z.div_mod a' 65536 ltac:(lia)).
  set (s1 := sec / 65536) in *. set (s0 := sec mod 65536) in *. set (s1' := sec' / 65536) in *. set (s0' := sec' mod 65536) in *.
  set (a0 := a mod 65536) in *. set (a1 := a / 65536) in *. set (a0' := a' mod 65536) in *. set (a1' := a' / 65536) in *.
  rewrite !Z.mod_small by lia. split.
  - intros H. assert (a0 = a0' /\ s0 = s0' /\ s1 = s1') by lia. split; [lia|]. assert (0 <= a1 <= 1) by lia. assert (0 <= a1' <= 1) by lia. lia.
  - intros [H1 H2]. assert (s0 = s0' /\ s1 = s1') by lia. assert (0 <= a1 <= 1) by lia. assert (0 <= a1' <= 1) by lia. assert (a0 = a0') by lia. lia.
Qed.
Print Assumptions clock_seeding.

(** ** C46: the solver *)
Theorem solver_returns_minimum_cost_matching : forall N g m fuel pfuel,
  (0 < N)%nat -> (forall a, In a g -> (a_tail a < N)%nat /\ (a_head a < N)%nat) -> (exists a, In a g /\ a_cost a <> 0) ->
  perfect_matching N g m ->
  exists r, csa_solve fuel pfuel N g = Ok r /\
    match r with None => True | Some l => minimum_cost_matching N g l end.
Proof.
  intros N g m fuel pfuel HN V (a & Ia & Ca) P. apply (csa_solve_sound fuel pfuel N g m HN V); [|exact P].
  assert (X := max_cost_bound g a Ia). lia.
Qed.
Print Assumptions solver_returns_minimum_cost_matching.

Theorem solver_terminates : forall N g m,
  (0 < N)%nat -> (forall a, In a g -> (a_tail a < N)%nat /\ (a_head a < N)%nat) -> (exists a, In a g /\ a_cost a <> 0) ->
  perfect_matching N g m ->
  exists F P l, minimum_cost_matching N g l /\
    forall fuel pfuel, (F <= fuel)%nat -> (P <= pfuel)%nat -> csa_solve fuel pfuel N g = Ok (Some l).
Proof.
  intros N g m HN V (a & Ia & Ca) Pm.
  assert (MC : 1 <= max_cost g) by (assert (X := max_cost_bound g a Ia); lia).
  destruct (csa_solve_terminates N g m HN V MC Pm) as (F & P & l & T). exists F, P, l.
  split; [|exact T]. destruct (csa_solve_sound F P N g m HN V MC Pm) as (r & E & H).
  rewrite (T F P (le_n _) (le_n _)) in E. injection E as <-. exact H.
Qed.
Print Assumptions solver_terminates.

Theorem solver_rejects_bad_endpoints : forall N g fuel pfuel,
  (exists a, In a g /\ ((N <= a_tail a)%nat \/ (N <= a_head a)%nat)) -> csa_solve fuel pfuel N g = Err ValueError.
Proof.
  intros N g fuel pfuel (a & I & H). unfold csa_solve. replace (existsb (bad_input N) g) with true; [reflexivity|].
  symmetry. apply existsb_exists. exists a. split; [exact I|]. unfold bad_input. lia.
Qed.
Print Assumptions solver_rejects_bad_endpoints.

(** With all costs zero the scaling loop is never entered and the solver dereferences a null
    pointer, although a perfect matching exists. *)
Theorem solver_needs_a_nonzero_cost_refuted :
  ~ (forall N g m fuel pfuel, (0 < N)%nat -> (forall a, In a g -> (a_tail a < N)%nat /\ (a_head a < N)%nat) ->
       perfect_matching N g m -> (exists r, csa_solve (S fuel) pfuel N g = Ok r)).
Proof.
  intros H. specialize (H 1%nat [mkArc 0 0 0] [(0%nat, 0)] 1%nat 1%nat ltac:(lia)).
  destruct H as (r & E).
  - intros a [<-|[]]. cbn. lia.
  - split; [reflexivity|]. split; [repeat constructor; intros []|]. intros [|v] w c E; [|destruct v; discriminate].
    injection E as <- <-. split; [lia|left; reflexivity].
  - vm_compute in E. discriminate.
Qed.
Print Assumptions solver_needs_a_nonzero_cost_refuted.

(** A 3x3 assignment with several optimal candidates. *)
Definition ex_graph : list garc :=
  [mkArc 0 0 4; mkArc 0 1 1; mkArc 0 2 3; mkArc 1 0 2; mkArc 1 1 0; mkArc 1 2 5; mkArc 2 0 3; mkArc 2 1 2; mkArc 2 2 2].
Example ex_solver : csa_solve 20 200 3 ex_graph = Ok (Some [(1%nat, 1); (0%nat, 2); (2%nat, 2)]).
Proof. vm_compute. reflexivity. Qed.
Example ex_solver_feasible : perfect_matching 3 ex_graph [(0%nat, 4); (1%nat, 0); (2%nat, 2)].
Proof.
  split; [reflexivity|]. split; [repeat constructor; cbn; intuition discriminate|].
  intros v w c E. destruct v as [|[|[|v]]]; [| | |destruct v; discriminate]; injection E as <- <-; (split; [lia|]); cbn; tauto.
Qed.

(** ** C17, C18, C20: the correspondence *)
Section Api.
Variable img0 img1 : image bool.
Variable max_dist outlier_cost : Q.
Hypothesis W0 : wf img0.
Hypothesis W1 : wf img1.
Hypothesis Sh : same_shape img0 img1.
Hypothesis Pd : (0 < max_dist)%Q.
Hypothesis Po : (1 < outlier_cost)%Q.
Hypothesis Ne : (0 < ht img0)%nat \/ (0 < wd img0)%nat.
Let h := ht img0.
Let w := wd img0.
Let md2 : Q := tolerance2 max_dist img0.
Let oc2 : Q := (outlier_cost * outlier_cost * (max_dist * max_dist) * inject_Z (diag2 h w))%Q.

Lemma api_diag : (0 < inject_Z (diag2 h w))%Q.
Proof. change 0%Q with (inject_Z 0). rewrite <- Zlt_Qlt. unfold diag2, h, w. nia. Qed.
Lemma api_md : (0 < md2)%Q.
Proof.
  unfold md2, tolerance2. assert (D := api_diag). unfold diag2, h, w in D. 
  apply Qmult_lt_0_compat; [apply Qmult_lt_0_compat; exact Pd|exact D].
Qed.
Lemma api_oc_eq : (oc2 == outlier_cost * outlier_cost * md2)%Q.
Proof. unfold oc2, md2, tolerance2, diag2, h, w. ring. Qed.
Lemma api_oc : (md2 < oc2)%Q.
Proof.
  rewrite api_oc_eq. assert (M := api_md).
  assert (X : (0 < (outlier_cost - 1) * (outlier_cost + 1))%Q) by (apply Qmult_lt_0_compat; lra).
  assert (Y : (0 < ((outlier_cost - 1) * (outlier_cost + 1)) * md2)%Q) by (apply Qmult_lt_0_compat; assumption). lra.
Qed.
Lemma api_unfold fuel pfuel s : correspond_pixels img0 img1 max_dist outlier_cost fuel pfuel s =
  match_edge_maps h w img0 img1 md2 oc2 fuel pfuel s.
Proof.
  unfold correspond_pixels. destruct Sh as [S1 S2]. rewrite S1, S2, !Nat.eqb_refl. cbn [andb negb].
  destruct (Qle_bool max_dist 0) eqn:E1; [apply Qle_bool_iff in E1; exfalso; lra|].
  destruct (Qle_bool outlier_cost 1) eqn:E2; [apply Qle_bool_iff in E2; exfalso; lra|].
  unfold md2, oc2, tolerance2, diag2, h, w. rewrite S1, S2. reflexivity.
Qed.
Definition api_result (s : stream) (out : outcome) (s' : stream) : Prop := result_of h w img0 img1 md2 oc2 s out s'.
Lemma api_sound fuel pfuel s : valid_stream s -> exists r, correspond_pixels img0 img1 max_dist outlier_cost fuel pfuel s = Ok r /\
  match r with None => True | Some (out, s') => valid_stream s' /\ api_result s out s' end.
Proof.
  intros V. rewrite api_unfold. apply match_sound; try assumption; try reflexivity; try (symmetry; apply Sh); [apply Qlt_le_weak, api_md|apply api_oc].
Qed.
Lemma api_total s : valid_stream s -> exists F P out s', (forall fuel pfuel, (F <= fuel)%nat -> (P <= pfuel)%nat ->
    correspond_pixels img0 img1 max_dist outlier_cost fuel pfuel s = Ok (Some (out, s'))) /\ api_result s out s'.
Proof.
  intros V. destruct (match_terminates h w img0 img1 md2 oc2 W0 W1 eq_refl eq_refl (eq_sym (proj1 Sh)) (eq_sym (proj2 Sh))
     (Qlt_le_weak _ _ api_md) api_oc s V) as (F & P & out & s' & T).
  exists F, P, out, s'. assert (T' : forall fuel pfuel, (F <= fuel)%nat -> (P <= pfuel)%nat ->
    correspond_pixels img0 img1 max_dist outlier_cost fuel pfuel s = Ok (Some (out, s'))) by (intros; rewrite api_unfold; apply T; assumption).
  split; [exact T'|]. destruct (api_sound F P s V) as (r & E & H). rewrite (T' F P (le_n _) (le_n _)) in E. injection E as <-. apply H.
Qed.
Lemma api_correspondence s out s' : api_result s out s' -> is_correspondence img0 img1 md2 (m1 out) (m2 out).
Proof.
  intros R. eapply (result_correspondence h w img0 img1 md2 oc2); try eassumption; try reflexivity; symmetry; apply Sh.
Qed.
(** Some pixel is matchable exactly if there are nodes. *)
Lemma api_nodes : (0 < n1 h w img0 img1 md2 + n2 h w img0 img1 md2)%nat <-> exists y x y' x', matchable_pair img0 img1 md2 y x y' x'.
Proof.
  assert (M1 := matchable1_spec h w img0 img1 md2 W0 W1 eq_refl eq_refl (eq_sym (proj1 Sh)) (eq_sym (proj2 Sh))).
  assert (M2 := matchable2_spec h w img0 img1 md2 W0 W1 eq_refl eq_refl (eq_sym (proj1 Sh)) (eq_sym (proj2 Sh))).
  assert (I1 := in_nodes1 h w img0 img1 md2 W0 W1 eq_refl eq_refl (eq_sym (proj1 Sh)) (eq_sym (proj2 Sh))).
  assert (I2 := in_nodes2 h w img0 img1 md2 W0 W1 eq_refl eq_refl (eq_sym (proj1 Sh)) (eq_sym (proj2 Sh))).
  split.
  - intros H. unfold n1, n2 in H. destruct (nodes1 h w img0 img1 md2) as [|p r] eqn:E.
    + destruct (nodes2 h w img0 img1 md2) as [|q r] eqn:E2; [cbn in H; lia|]. assert (X := proj1 (I2 q) (or_introl eq_refl)).
      apply M2 in X. destruct X as (A & p & B & C). exists (snd p), (fst p), (snd q), (fst q). split; [exact B|]. split; [exact A|exact C].
    + assert (X := proj1 (I1 p) (or_introl eq_refl)). apply M1 in X. destruct X as (A & q & B & C).
      exists (snd p), (fst p), (snd q), (fst q). split; [exact A|]. split; [exact B|exact C].
  - intros (y & x & y' & x' & A & B & C). assert (X : matchable1 h w img0 img1 md2 (x, y) = true).
    { apply M1. split; [exact A|]. exists (x', y'). split; [exact B|exact C]. }
    apply I1 in X. unfold n1. destruct (nodes1 h w img0 img1 md2); [destruct X|]. cbn [length]. lia.
Qed.
End Api.

(** C17. The call returns for every input (the solver needs only finitely many steps), and what it
    returns is a correspondence. *)
Theorem correspondence_exists : forall img0 img1 max_dist outlier_cost s,
  wf img0 -> wf img1 -> same_shape img0 img1 -> (0 < max_dist)%Q -> (1 < outlier_cost)%Q ->
  ((0 < ht img0)%nat \/ (0 < wd img0)%nat) -> (forall i, 0 <= s i < 2 ^ 48) ->
  exists F P out s', (forall fuel pfuel, (F <= fuel)%nat -> (P <= pfuel)%nat ->
      correspond_pixels img0 img1 max_dist outlier_cost fuel pfuel s = Ok (Some (out, s'))) /\
    is_correspondence img0 img1 (tolerance2 max_dist img0) (m1 out) (m2 out).
Proof.
  intros img0 img1 md oc s W0 W1 Sh Pd Po Ne V.
  destruct (api_total img0 img1 md oc W0 W1 Sh Pd Po Ne s V) as (F & P & out & s' & T & R). exists F, P, out, s'. split; [exact T|].
  exact (api_correspondence img0 img1 md oc W0 W1 Sh s out s' R).
Qed.
Print Assumptions correspondence_exists.

Theorem correspondence_is_a_matching : forall img0 img1 max_dist outlier_cost fuel pfuel s,
  wf img0 -> wf img1 -> same_shape img0 img1 -> (0 < max_dist)%Q -> (1 < outlier_cost)%Q ->
  ((0 < ht img0)%nat \/ (0 < wd img0)%nat) -> (forall i, 0 <= s i < 2 ^ 48) ->
  exists r, correspond_pixels img0 img1 max_dist outlier_cost fuel pfuel s = Ok r /\
  forall out s', r = Some (out, s') ->
    is_correspondence img0 img1 (tolerance2 max_dist img0) (m1 out) (m2 out) /\
    matched (m1 out) = matched (m2 out) /\
    (forall y x y' x', px 0 (m1 out) y x <> 0 -> px 0 (m1 out) y x = px 0 (m1 out) y' x' -> (y, x) = (y', x')) /\
    (forall y x y' x', px 0 (m2 out) y x <> 0 -> px 0 (m2 out) y x = px 0 (m2 out) y' x' -> (y, x) = (y', x')).
Proof.
  intros img0 img1 md oc fuel pfuel s W0 W1 Sh Pd Po Ne V.
  destruct (api_sound img0 img1 md oc W0 W1 Sh Pd Po Ne fuel pfuel s V) as (r & E & H). exists r. split; [exact E|].
  intros out s' ->. destruct H as [_ R]. assert (K := api_correspondence img0 img1 md oc W0 W1 Sh s out s' R).
  split; [exact K|]. split; [exact (equal_matched _ _ _ _ _ W0 W1 Sh K)|]. split; intros y x y' x' N Eq.
  - destruct (injective_matches _ _ _ W0 W1 Sh _ _ K y x y' x' N Eq) as [-> ->]. reflexivity.
  - assert (Sh' : same_shape img1 img0) by (destruct Sh; split; congruence).
    destruct (injective_matches _ _ _ W1 W0 Sh' _ _ (correspondence_sym _ _ _ _ _ K) y x y' x' N Eq) as [-> ->]. reflexivity.
Qed.
Print Assumptions correspondence_is_a_matching.

(** No more pixels are matched than either map has, so the counts that enter precision and
    recall never exceed the totals. *)
Theorem matched_at_most_edge_pixels : forall b1 b2 tol2 m1 m2,
  wf b1 -> wf b2 -> same_shape b1 b2 -> is_correspondence b1 b2 tol2 m1 m2 ->
  (matched m1 <= count_true b1)%nat /\ (matched m1 <= count_true b2)%nat.
Proof.
  assert (G : forall b1 b2 tol2 m1 m2, wf b1 -> is_correspondence b1 b2 tol2 m1 m2 -> (matched m1 <= count_true b1)%nat).
  { intros b1 b2 tol2 m1 m2 Wb1 ((Wm1 & Sm1) & _ & P & _). unfold matched. apply count_true_le; [apply wf_imap; exact Wm1|exact Wb1|exact Sm1|].
    intros y x H. assert (E := px_imap (fun v => negb (v =? 0)) 0 m1 y x). cbv beta in E. change (negb (0 =? 0)) with false in E. rewrite E in H.
    destruct (Z.eqb_spec (px 0 m1 y x) 0); [discriminate|]. apply P. assumption. }
  intros b1 b2 tol2 m1 m2 Wb1 Wb2 Sh K. split; [exact (G b1 b2 tol2 m1 m2 Wb1 K)|].
  rewrite (equal_matched _ _ _ _ _ Wb1 Wb2 Sh K). exact (G b2 b1 tol2 m2 m1 Wb2 (correspondence_sym _ _ _ _ _ K)).
Qed.
Print Assumptions matched_at_most_edge_pixels.

(** C18. The graph construction never trips an assertion, and its graph is as announced. *)
Theorem graph_construction_succeeds : forall img0 img1 md2 oc2 s,
  wf img0 -> wf img1 -> same_shape img0 img1 -> (0 <= md2)%Q -> (md2 < oc2)%Q -> (forall i, 0 <= s i < 2 ^ 48) ->
  let h := ht img0 in let w := wd img0 in
  let N := (n1 h w img0 img1 md2 + n2 h w img0 img1 md2)%nat in
  exists g s', build_graph h w img0 img1 md2 oc2 s = Ok (g, s') /\
    Z.of_nat (length g) = n_arcs h w img0 img1 md2 /\
    (forall a, In a g -> (a_tail a < N)%nat /\ (a_head a < N)%nat /\ 0 <= a_cost a) /\
    NoDup (map (fun a => (a_tail a, a_head a)) g) /\
    (exists m, perfect_matching N g m) /\
    ((0 < N)%nat -> exists a, In a g /\ a_cost a <> 0).
Proof.
  intros img0 img1 md2 oc2 s W0 W1 [S1 S2] Hmd Hoc V h w N.
  destruct (build_graph_ok h w img0 img1 md2 oc2 W0 W1 eq_refl eq_refl (eq_sym S1) (eq_sym S2) Hmd Hoc s V) as (g & s' & E & _ & B).
  exists g, s'. split; [exact E|]. split; [eapply (built_length h w img0 img1 md2 oc2); try exact B; try reflexivity; symmetry; assumption|]. split.
  - intros a I. eapply (kind_range h w img0 img1 md2 oc2); try assumption; try reflexivity; try (symmetry; assumption).
    eapply (built_kind h w img0 img1 md2 oc2); try exact B; try assumption; try reflexivity; symmetry; assumption.
  - split; [eapply (built_NoDup h w img0 img1 md2 oc2); try exact B; try assumption; try reflexivity; symmetry; assumption|]. split.
    + eexists. eapply (overlay_perfect h w img0 img1 md2 oc2); try exact B; try reflexivity; symmetry; assumption.
    + intros L. assert (M := built_max_cost h w img0 img1 md2 oc2 eq_refl eq_refl (eq_sym S1) (eq_sym S2) Hmd Hoc g B L).
      clear - M. unfold max_cost in M. induction g as [|a g IH]; [cbn in M; lia|]. cbn [fold_right] in M.
      destruct (Z.eq_dec (a_cost a) 0) as [Z|Z]; [|exists a; split; [left; reflexivity|exact Z]].
      rewrite Z in M. destruct IH as (b & Ib & Cb); [lia|]. exists b. split; [right; exact Ib|exact Cb].
Qed.
Print Assumptions graph_construction_succeeds.

(** C46 for the correspondence: the matched pairs are the pixel pairs of a minimum-cost perfect
    matching of the sampled graph. *)
Theorem correspondence_has_minimum_cost : forall img0 img1 max_dist outlier_cost fuel pfuel s out s',
  wf img0 -> wf img1 -> same_shape img0 img1 -> (0 < max_dist)%Q -> (1 < outlier_cost)%Q ->
  ((0 < ht img0)%nat \/ (0 < wd img0)%nat) -> (forall i, 0 <= s i < 2 ^ 48) ->
  correspond_pixels img0 img1 max_dist outlier_cost fuel pfuel s = Ok (Some (out, s')) ->
  (exists y x y' x', matchable_pair img0 img1 (tolerance2 max_dist img0) y x y' x') ->
  let h := ht img0 in let w := wd img0 in
  let md2 := tolerance2 max_dist img0 in
  let oc2 := (outlier_cost * outlier_cost * (max_dist * max_dist) * inject_Z (diag2 h w))%Q in
  let N := (n1 h w img0 img1 md2 + n2 h w img0 img1 md2)%nat in
  exists g l, build_graph h w img0 img1 md2 oc2 s = Ok (g, s') /\ minimum_cost_matching N g l /\
    forall y x y' x',
      (px false img1 y' x' = true /\ px 0 (m1 out) y x = pixel_code h y' x') <->
      exists i j c, nth_error l i = Some (j, c) /\
        nth_error (nodes1 h w img0 img1 md2) i = Some (x, y) /\ nth_error (nodes2 h w img0 img1 md2) j = Some (x', y').
Proof.
  intros img0 img1 md oc fuel pfuel s out s' W0 W1 Sh Pd Po Ne V E Ex h w md2 oc2 N.
  destruct (api_sound img0 img1 md oc W0 W1 Sh Pd Po Ne fuel pfuel s V) as (r & E' & H). rewrite E in E'. injection E' as <-.
  destruct H as [_ R]. apply (api_nodes img0 img1 md W0 W1 Sh Ne) in Ex. unfold api_result in R. fold h w md2 in R, Ex.
  destruct R as [(Z & _)|(_ & g & l & Eg & B & Mn & ->)]; [lia|]. exists g, l. split; [exact Eg|]. split; [exact Mn|].
  intros y x y' x'. cbn [outcome_of m1].
  rewrite <- (m1_pair h w img0 img1 md2 oc2 W0 W1 eq_refl eq_refl (eq_sym (proj1 Sh)) (eq_sym (proj2 Sh)) g l B (proj1 Mn)).
  rewrite in_decode. split.
  - intros (i & j & c & A & L1 & L2 & P1 & P2). exists i, j, c. split; [exact A|].
    rewrite P1, P2. split; apply nth_error_nth'; assumption.
  - intros (i & j & c & A & P1 & P2). exists i, j, c. split; [exact A|].
    split; [apply nth_error_Some; congruence|]. split; [apply nth_error_Some; congruence|].
    split; symmetry; apply nth_error_nth; assumption.
Qed.
Print Assumptions correspondence_has_minimum_cost.

(** The nodes are the edge pixels that have a counterpart within the tolerance. *)
Theorem nodes_are_the_matchable_pixels : forall img0 img1 md2, wf img0 -> wf img1 -> same_shape img0 img1 ->
  let h := ht img0 in let w := wd img0 in
  NoDup (nodes1 h w img0 img1 md2) /\ NoDup (nodes2 h w img0 img1 md2) /\
  (forall y x, In (x, y) (nodes1 h w img0 img1 md2) <-> exists y' x', matchable_pair img0 img1 md2 y x y' x') /\
  (forall y' x', In (x', y') (nodes2 h w img0 img1 md2) <-> exists y x, matchable_pair img0 img1 md2 y x y' x').
Proof.
  intros img0 img1 md2 W0 W1 [S1 S2] h w. split; [apply NoDup_nodes1|]. split; [apply NoDup_nodes2|]. split; intros y x.
  - rewrite (in_nodes1 h w img0 img1 md2 W0 W1 eq_refl eq_refl (eq_sym S1) (eq_sym S2)).
    rewrite (matchable1_spec h w img0 img1 md2 W0 W1 eq_refl eq_refl (eq_sym S1) (eq_sym S2)). split.
    + intros (A & q & B & C). exists (snd q), (fst q). split; [exact A|]. split; [exact B|exact C].
    + intros (y' & x' & A & B & C). split; [exact A|]. exists (x', y'). split; [exact B|exact C].
  - rewrite (in_nodes2 h w img0 img1 md2 W0 W1 eq_refl eq_refl (eq_sym S1) (eq_sym S2)).
    rewrite (matchable2_spec h w img0 img1 md2 W0 W1 eq_refl eq_refl (eq_sym S1) (eq_sym S2)). split.
    + intros (A & q & B & C). exists (snd q), (fst q). split; [exact B|]. split; [exact A|exact C].
    + intros (y' & x' & A & B & C). split; [exact B|]. exists (x', y'). split; [exact A|exact C].
Qed.
Print Assumptions nodes_are_the_matchable_pixels.

(** If one of the maps has at most six edge pixels then the correspondence cannot be enlarged: no
    two pixels within tolerance are both left unmatched. *)
Theorem small_maps_are_matched_maximally : forall img0 img1 max_dist outlier_cost fuel pfuel s out s',
  wf img0 -> wf img1 -> same_shape img0 img1 -> (0 < max_dist)%Q -> (101 # 100 <= outlier_cost)%Q ->
  ((0 < ht img0)%nat \/ (0 < wd img0)%nat) -> (forall i, 0 <= s i < 2 ^ 48) ->
  (count_true img0 <= 6)%nat \/ (count_true img1 <= 6)%nat ->
  correspond_pixels img0 img1 max_dist outlier_cost fuel pfuel s = Ok (Some (out, s')) ->
  forall y x y' x', matchable_pair img0 img1 (tolerance2 max_dist img0) y x y' x' ->
    px 0 (m1 out) y x <> 0 \/ px 0 (m2 out) y' x' <> 0.
Proof.
  intros img0 img1 md oc fuel pfuel s out s' W0 W1 Sh Pd Po Ne V Cnt E y x y' x' Mp.
  assert (Po' : (1 < oc)%Q) by lra.
  destruct (api_sound img0 img1 md oc W0 W1 Sh Pd Po' Ne fuel pfuel s V) as (r & E' & H). rewrite E in E'. injection E' as <-.
  destruct H as [_ R]. assert (Ex : exists y x y' x', matchable_pair img0 img1 (tolerance2 md img0) y x y' x') by (exists y, x, y', x'; exact Mp).
  apply (api_nodes img0 img1 md W0 W1 Sh Ne) in Ex. unfold api_result in R. set (h := ht img0) in *. set (w := wd img0) in *.
  set (md2 := tolerance2 md img0) in *. assert (Pm := api_md img0 md Pd Ne : (0 < md2)%Q).
  set (oc2 := (oc * oc * (md * md) * inject_Z (diag2 h w))%Q) in *. assert (Oc := api_oc img0 md oc Pd Po' Ne : (md2 < oc2)%Q).
  destruct (nodes_are_the_matchable_pixels img0 img1 md2 W0 W1 Sh) as (D1 & D2 & I1 & I2). fold h w in D1, D2, I1, I2.
  destruct R as [(Z & _)|(_ & g & l & Eg & B & Mn & ->)]; [lia|].
  assert (J1 : In (x, y) (nodes1 h w img0 img1 md2)) by (apply I1; exists y', x'; exact Mp).
  assert (J2 : In (x', y') (nodes2 h w img0 img1 md2)) by (apply I2; exists y, x; exact Mp).
  destruct (index_of_in _ _ (-1, -1) J1) as [L1 V1]. destruct (index_of_in _ _ (-1, -1) J2) as [L2 V2].
  set (i := index_of (x, y) (nodes1 h w img0 img1 md2)) in *. set (j := index_of (x', y') (nodes2 h w img0 img1 md2)) in *.
  assert (C1 : (n1 h w img0 img1 md2 <= count_true img0)%nat).
  { unfold n1. rewrite count_true_fg by exact W0. rewrite <- (map_length swap). apply NoDup_incl_length.
    - apply FinFun.Injective_map_NoDup; [|exact D1]. intros [a b] [c d] Eq. unfold swap in Eq. cbn in Eq. congruence.
    - intros q Q. apply in_map_iff in Q. destruct Q as ([a b] & <- & Q). apply I1 in Q. destruct Q as (? & ? & Q & _).
      unfold swap. cbn [fst snd]. apply in_fg_list; assumption. }
  assert (C2 : (n2 h w img0 img1 md2 <= count_true img1)%nat).
  { unfold n2. rewrite count_true_fg by exact W1. rewrite <- (map_length swap). apply NoDup_incl_length.
    - apply FinFun.Injective_map_NoDup; [|exact D2]. intros [a b] [c d] Eq. unfold swap in Eq. cbn in Eq. congruence.
    - intros q Q. apply in_map_iff in Q. destruct Q as ([a b] & <- & Q). apply I2 in Q. destruct Q as (? & ? & _ & Q & _).
      unfold swap. cbn [fst snd]. apply in_fg_list; assumption. }
  assert (OWe : ow oc2 = ow (oc * oc * md2)%Q).
  { unfold ow, ceil_sqrt. f_equal. apply Qceiling_comp. apply Qmult_comp; [|reflexivity]. apply (api_oc_eq img0 md oc). }
  assert (Wt : weight (d2_nodes h w img0 img1 md2 i j) < ow oc2).
  { rewrite OWe. apply weight_lt_ow; [apply Qlt_le_weak; exact Pm|exact Po| |unfold d2_nodes; apply dist2_nonneg|exact Pm].
    unfold d2_nodes. rewrite V1, V2. apply Mp. }
  assert (S1 := proj1 Sh). assert (S2 := proj2 Sh).
  assert (Hn : near_nodes h w img0 img1 md2 i j) by (split; [exact L1|]; split; [exact L2|]; rewrite V1, V2; apply Mp).
  assert (Sm : (nmin h w img0 img1 md2 <= 6)%nat) by (unfold nmin; lia).
  assert (Q := maximal h w img0 img1 md2 oc2 W0 W1 eq_refl eq_refl (eq_sym S1) (eq_sym S2) (Qlt_le_weak _ _ Pm) Oc g l i j B Mn Sm Hn Wt).
  assert (Pos : forall img a b, wf img -> same_shape img0 img -> px false img a b = true -> pixel_code h a b <> 0).
  { intros img a b Wi Si Hp. apply inside in Hp; [|exact Wi]. rewrite inb_spec in Hp. unfold pixel_code. nia. }
  assert (MP := m1_pair h w img0 img1 md2 oc2 W0 W1 eq_refl eq_refl (eq_sym S1) (eq_sym S2) g l B (proj1 Mn)).
  assert (Kc := decoded_correspondence h w img0 img1 md2 oc2 W0 W1 eq_refl eq_refl (eq_sym S1) (eq_sym S2) g l B (proj1 Mn)).
  cbn [outcome_of m1 m2]. destruct Q as [(j' & c & A & L)|(i' & c & A & L)].
  - left. destruct (nth j' (nodes2 h w img0 img1 md2) (-1, -1)) as [u v] eqn:Eq.
    assert (I : In ((x, y), (u, v)) (decode_pairs h w img0 img1 md2 l)).
    { apply in_decode. exists i, j', c. split; [exact A|]. split; [exact L1|]. split; [exact L|]. split; [symmetry; exact V1|symmetry; exact Eq]. }
    apply MP in I. destruct I as [I1' I2']. rewrite I2'. apply (Pos img1); assumption.
  - right. destruct (nth i' (nodes1 h w img0 img1 md2) (-1, -1)) as [u v] eqn:Eq.
    assert (I : In ((u, v), (x', y')) (decode_pairs h w img0 img1 md2 l)).
    { apply in_decode. exists i', j, c. split; [exact A|]. split; [exact L|]. split; [exact L2|]. split; [symmetry; exact Eq|symmetry; exact V2]. }
    apply MP in I. destruct I as [I1' I2']. destruct Kc as (_ & _ & Pb & _).
    assert (Nz : px 0 (code_map h w img0 (lookup1 (decode_pairs h w img0 img1 md2 l))) v u <> 0) by (rewrite I2'; apply (Pos img1); assumption).
    destruct (Pb v u Nz) as (Hb & y2 & x2 & Hc & Hd & _ & He). rewrite Hc in I2'.
    apply inside in Hd; [|exact W1]. apply inside in I1'; [|exact W1]. rewrite inb_spec in Hd, I1'. fold h in I2'.
    apply code_inj in I2'; [|unfold h; lia|unfold h; lia]. destruct I2' as [-> ->]. rewrite He. apply (Pos img0); [exact W0|split; reflexivity|exact Hb].
Qed.
Print Assumptions small_maps_are_matched_maximally.

(** A map with at most six edge pixels compared with itself: every pixel is matched to itself. *)
Theorem identical_small_maps_match_completely : forall img max_dist outlier_cost fuel pfuel s out s',
  wf img -> (0 < max_dist)%Q -> (1 < outlier_cost)%Q -> ((0 < ht img)%nat \/ (0 < wd img)%nat) ->
  (forall i, 0 <= s i < 2 ^ 48) -> (count_true img <= 6)%nat ->
  correspond_pixels img img max_dist outlier_cost fuel pfuel s = Ok (Some (out, s')) ->
  forall y x, px 0 (m1 out) y x = if px false img y x then pixel_code (ht img) y x else 0.
Proof.
  intros img md oc fuel pfuel s out s' W Pd Po Ne V Cnt E.
  assert (Sh : same_shape img img) by (split; reflexivity).
  destruct (api_sound img img md oc W W Sh Pd Po Ne fuel pfuel s V) as (r & E' & H). rewrite E in E'. injection E' as <-.
  destruct H as [_ R]. unfold api_result in R.
  apply (identical_result img _ _ W (Qlt_le_weak _ _ (api_md img md Pd Ne)) (api_oc img md oc Pd Po Ne) s out s' R Cnt).
Qed.
Print Assumptions identical_small_maps_match_completely.

(** This fails from seven pixels on: whether a perfect prediction is matched completely depends on
    the random choices.  The generator is seeded from the clock, and at 1700000000.0768 s one
    pixel of a row of eight stays unmatched, although prediction and ground truth are equal. *)
Definition row (l : list Z) : image bool := mkImage 1 (length l) [map (fun v => v =? 1) l].
Definition row8 : image bool := row [1; 1; 1; 1; 1; 1; 1; 1].
Definition matched_of (r : res (option (outcome * stream))) : option nat :=
  match r with Ok (Some (o, _)) => Some (matched (m1 o)) | _ => None end.
Lemma matched_of_some r k : matched_of r = Some k -> exists o s', r = Ok (Some (o, s')) /\ matched (m1 o) = k.
Proof. intros H. destruct r as [[[o s']|]|]; try discriminate H. exists o, s'. split; [reflexivity|]. injection H. trivial. Qed.
Lemma run_at_76800 : matched_of (correspond_pixels row8 row8 (1 # 10) 100 20 2000 (rnd_stream (rnd_global 1700000000 76800))) = Some 7%nat.
Proof. vm_compute. reflexivity. Qed.
Lemma run_at_76808 : matched_of (correspond_pixels row8 row8 (1 # 10) 100 20 2000 (rnd_stream (rnd_global 1700000000 76808))) = Some 8%nat.
Proof. vm_compute. reflexivity. Qed.
Lemma wf_row8 : wf row8. Proof. split; [reflexivity|repeat constructor]. Qed.
Theorem identical_maps_match_completely_refuted :
  ~ (forall sec usec img max_dist fuel pfuel out s', wf img -> (0 < max_dist)%Q ->
       correspond_pixels img img max_dist 100 fuel pfuel (rnd_stream (rnd_global sec usec)) = Ok (Some (out, s')) ->
       matched (m1 out) = count_true img).
Proof.
  intros H. destruct (matched_of_some _ _ run_at_76800) as (o & s' & E & M).
  assert (X := H _ _ _ _ _ _ _ _ wf_row8 (eq_refl : (0 < 1 # 10)%Q) E). rewrite M in X. vm_compute in X. discriminate X.
Qed.
Print Assumptions identical_maps_match_completely_refuted.

(** C47/C17: hence the result depends on the time at which the process was started. *)
Theorem result_independent_of_clock_refuted :
  ~ (forall sec usec sec' usec' img0 img1 max_dist fuel pfuel out s1 out' s1',
       wf img0 -> wf img1 -> same_shape img0 img1 -> (0 < max_dist)%Q ->
       correspond_pixels img0 img1 max_dist 100 fuel pfuel (rnd_stream (rnd_global sec usec)) = Ok (Some (out, s1)) ->
       correspond_pixels img0 img1 max_dist 100 fuel pfuel (rnd_stream (rnd_global sec' usec')) = Ok (Some (out', s1')) ->
       matched (m1 out) = matched (m1 out')).
Proof.
  intros H. destruct (matched_of_some _ _ run_at_76800) as (o & s' & E & M). destruct (matched_of_some _ _ run_at_76808) as (o' & s'' & E' & M').
  assert (X := H _ _ _ _ _ _ _ _ _ _ _ _ _ wf_row8 wf_row8 (conj eq_refl eq_refl) (eq_refl : (0 < 1 # 10)%Q) E E').
  rewrite M, M' in X. discriminate X.
Qed.
Print Assumptions result_independent_of_clock_refuted.

(** ** C20 *)
Theorem correspondence_rejects : forall img0 img1 max_dist outlier_cost fuel pfuel s,
  ~ same_shape img0 img1 \/ (max_dist <= 0)%Q \/ (outlier_cost <= 1)%Q ->
  correspond_pixels img0 img1 max_dist outlier_cost fuel pfuel s = Err ValueError.
Proof.
  intros img0 img1 md oc fuel pfuel s H. unfold correspond_pixels.
  destruct (Nat.eqb_spec (ht img0) (ht img1)) as [E1|]; [|reflexivity]. destruct (Nat.eqb_spec (wd img0) (wd img1)) as [E2|]; [|reflexivity].
  cbn [andb negb]. destruct (Qle_bool md 0) eqn:E3; [reflexivity|]. destruct (Qle_bool oc 1) eqn:E4; [reflexivity|]. exfalso.
  destruct H as [H|[H|H]]; [apply H; split; assumption| |]; apply Qle_bool_iff in H; congruence.
Qed.
Print Assumptions correspondence_rejects.

(** Two arrays without any row and column pass the checks of the wrapper and abort in C++. *)
Theorem empty_arrays_abort : forall img0 img1 max_dist outlier_cost fuel pfuel s,
  same_shape img0 img1 -> (0 < max_dist)%Q -> (1 < outlier_cost)%Q -> ht img0 = 0%nat -> wd img0 = 0%nat ->
  correspond_pixels img0 img1 max_dist outlier_cost fuel pfuel s = Err AssertionError.
Proof.
  intros img0 img1 md oc fuel pfuel s Sh Pd Po Eh Ew. unfold correspond_pixels. destruct Sh as [S1 S2]. rewrite S1, S2, !Nat.eqb_refl. cbn [andb negb].
  destruct (Qle_bool md 0) eqn:E1; [apply Qle_bool_iff in E1; exfalso; lra|].
  destruct (Qle_bool oc 1) eqn:E2; [apply Qle_bool_iff in E2; exfalso; lra|].
  rewrite <- S1, <- S2, Eh, Ew. unfold match_edge_maps. change (inject_Z (diag2 0 0)) with 0%Q.
  replace (Qltb (md * md * 0) (oc * oc * (md * md) * 0)) with false; [rewrite andb_false_r; reflexivity|].
  symmetry. apply Qltb_false. lra.
Qed.
Print Assumptions empty_arrays_abort.

Theorem nothing_within_tolerance : forall img0 img1 max_dist outlier_cost fuel pfuel s,
  wf img0 -> wf img1 -> same_shape img0 img1 -> (0 < max_dist)%Q -> (1 < outlier_cost)%Q ->
  ((0 < ht img0)%nat \/ (0 < wd img0)%nat) ->
  (forall y x y' x', ~ matchable_pair img0 img1 (tolerance2 max_dist img0) y x y' x') ->
  exists out, correspond_pixels img0 img1 max_dist outlier_cost fuel pfuel s = Ok (Some (out, s)) /\
    (forall y x, px 0 (m1 out) y x = 0 /\ px 0 (m2 out) y x = 0) /\ c_outliers (total out) = 0%nat /\ c_halves (total out) = [].
Proof.
  intros img0 img1 md oc fuel pfuel s W0 W1 Sh Pd Po Ne No. rewrite (api_unfold img0 img1 md oc Sh Pd Po).
  unfold match_edge_maps. rewrite check_ok by (apply guard_ok; [apply Qlt_le_weak, (api_md img0 md Pd Ne)|apply (api_oc img0 md oc Pd Po Ne)]).
  assert (Z : n_arcs (ht img0) (wd img0) img0 img1 (tolerance2 md img0) = 0).
  { apply n_arcs_zero; try assumption; try reflexivity; try (symmetry; apply Sh).
    destruct (Nat.eq_dec (n1 (ht img0) (wd img0) img0 img1 (tolerance2 md img0) + n2 (ht img0) (wd img0) img0 img1 (tolerance2 md img0)) 0) as [E|N]; [exact E|].
    exfalso. destruct (proj1 (api_nodes img0 img1 md W0 W1 Sh Ne) ltac:(lia)) as (y & x & y' & x' & M). exact (No y x y' x' M). }
  rewrite Z. eexists. split; [reflexivity|]. split; [|split; reflexivity]. intros y x. unfold nothing. cbn [m1 m2]. rewrite px_tab.
  destruct (inb _ _ y x); split; reflexivity.
Qed.
Print Assumptions nothing_within_tolerance.

(** The cost as a real number, [oc] being the outlier cost in pixels (match.cc:336-363). *)
Definition rsum (l : list R) : R := fold_right Rplus 0%R l.
Definition cost_value (oc : R) (c : cost) : R :=
  (oc * INR (c_outliers c) + rsum (map (fun d => 1 / 2 * sqrt (IZR d)) (c_halves c)))%R.

Lemma rsum_app a b : (rsum (a ++ b) = rsum a + rsum b)%R.
Proof. induction a as [|x a IH]; cbn [app rsum fold_right] in *; [unfold rsum; ring|]. fold (rsum (a ++ b)). fold (rsum a). rewrite IH. ring. Qed.
Lemma rsum_perm l l' : Permutation l l' -> rsum l = rsum l'.
Proof. unfold rsum. induction 1; cbn [fold_right]; [reflexivity|congruence|ring|congruence]. Qed.
Lemma rsum_half l : (rsum (map (fun d => 1 / 2 * sqrt (IZR d)) l) = / 2 * rsum (map (fun d => sqrt (IZR d)) l))%R.
Proof. induction l as [|d l IH]; [cbn; ring|]. cbn [map rsum fold_right] in *. fold (rsum (map (fun d => 1 / 2 * sqrt (IZR d))%R l)) (rsum (map (fun d => sqrt (IZR d)) l)) in *. rewrite IH. field. Qed.

(** The reported cost: the outlier cost for every edge pixel left over in either map plus the
    distances of the matched pairs. *)
Theorem reported_cost : forall img0 img1 max_dist outlier_cost fuel pfuel s out s' oc,
  wf img0 -> wf img1 -> same_shape img0 img1 -> (0 < max_dist)%Q -> (1 < outlier_cost)%Q ->
  ((0 < ht img0)%nat \/ (0 < wd img0)%nat) -> (forall i, 0 <= s i < 2 ^ 48) ->
  (exists y x y' x', matchable_pair img0 img1 (tolerance2 max_dist img0) y x y' x') ->
  correspond_pixels img0 img1 max_dist outlier_cost fuel pfuel s = Ok (Some (out, s')) ->
  (cost_value oc (total out) = oc * INR (unmatched img0 (m1 out) + unmatched img1 (m2 out)) +
                               rsum (map (fun d => sqrt (IZR d)) (matched_sqdists (m1 out))))%R.
Proof.
  intros img0 img1 md oc fuel pfuel s out s' roc W0 W1 Sh Pd Po Ne V Ex E.
  destruct (api_sound img0 img1 md oc W0 W1 Sh Pd Po Ne fuel pfuel s V) as (r & E' & H). rewrite E in E'. injection E' as <-.
  destruct H as [_ R]. assert (K := api_correspondence img0 img1 md oc W0 W1 Sh s out s' R).
  apply (api_nodes img0 img1 md W0 W1 Sh Ne) in Ex. unfold api_result in R.
  destruct (result_cost _ _ img0 img1 _ _ W0 W1 eq_refl eq_refl (eq_sym (proj1 Sh)) (eq_sym (proj2 Sh)) s out s' R Ex) as [A B].
  unfold cost_value. rewrite A. f_equal. rewrite (rsum_perm _ _ (Permutation_map _ B)), map_app, rsum_app, !rsum_half.
  rewrite <- (rsum_perm _ _ (Permutation_map _ (sqdists_perm _ _ _ _ _ W0 W1 Sh K))). field.
Qed.
Print Assumptions reported_cost.

(** But if nothing can be matched at all the reported cost is 0, not the cost of the outliers. *)
Theorem cost_counts_all_outliers_refuted :
  ~ (forall img0 img1 max_dist outlier_cost fuel pfuel s out s', wf img0 -> wf img1 -> same_shape img0 img1 ->
      (0 < max_dist)%Q -> (1 < outlier_cost)%Q -> (forall i, 0 <= s i < 2 ^ 48) ->
      correspond_pixels img0 img1 max_dist outlier_cost fuel pfuel s = Ok (Some (out, s')) ->
      c_outliers (total out) = (unmatched img0 (m1 out) + unmatched img1 (m2 out))%nat).
Proof.
  intros H. set (a := row [1; 0; 0; 0; 0; 0]). set (b := row [0; 0; 0; 0; 0; 1]).
  assert (Wa : wf a) by (split; [reflexivity|]; unfold a; cbn; constructor; [reflexivity|constructor]).
  assert (Wb : wf b) by (split; [reflexivity|]; unfold b; cbn; constructor; [reflexivity|constructor]).
  specialize (H a b (1 # 10)%Q 100%Q 5%nat 5%nat (fun _ => 0) (nothing 1 6) (fun _ => 0)).
  assert (X : c_outliers (total (nothing 1 6)) = (unmatched a (m1 (nothing 1 6)) + unmatched b (m2 (nothing 1 6)))%nat).
  { apply H; [exact Wa|exact Wb|split; reflexivity|reflexivity|reflexivity|intros _; lia|vm_compute; reflexivity]. }
  vm_compute in X. discriminate.
Qed.
Print Assumptions cost_counts_all_outliers_refuted.

(** Non-trivial instances. *)
Definition ex_a : image bool := row [1; 0; 0; 1; 0; 1].
Definition ex_b : image bool := row [0; 1; 0; 1; 0; 0].
Example ex_correspond : match correspond_pixels ex_a ex_b (1 # 5) 100 20 2000 (rnd_stream (rnd_init 12345)) with
  | Ok (Some (o, _)) => Some (rows (m1 o), rows (m2 o), total o) | _ => None end =
  Some ([[2; 0; 0; 4; 0; 0]], [[0; 1; 0; 4; 0; 0]], mkCost 1 [1; 0; 1; 0]).
Proof. vm_compute. reflexivity. Qed.
Example ex_matchable : matchable_pair ex_a ex_b (tolerance2 (1 # 5) ex_a) 0 0 0 1.
Proof. split; [reflexivity|]. split; [reflexivity|]. apply Qle_bool_iff. vm_compute. reflexivity. Qed.
Example ex_hyp : wf ex_a /\ wf ex_b /\ same_shape ex_a ex_b /\ (count_true ex_a <= 6)%nat.
Proof. split; [split; [reflexivity|repeat constructor]|]. split; [split; [reflexivity|repeat constructor]|]. split; [split; reflexivity|]. vm_compute. lia. Qed.
Example ex_kofn_small : match kofn 2 20 (rnd_stream 7) with Ok (l, _) => l | Err _ => [] end = [5; 6].
Proof. vm_compute. reflexivity. Qed.
Example ex_kofn_large : match kofn 6 9 (rnd_stream 7) with Ok (l, _) => l | Err _ => [] end = [0; 1; 3; 4; 5; 8].
Proof. vm_compute. reflexivity. Qed.
