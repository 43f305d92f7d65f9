(** C57 for the correspondence: matchEdgeMaps with the binary64 solver. *)
From Verif Require Import ProofsMatch5 SpecMatch SpecCorrespond PropertiesMatch PropertiesMatch2 ModelMatch64 PropertiesSolver64 ProofsMatch64.
From Coq Require Import Lqa ZifyBool ZifyNat.
Open Scope Z_scope.
Open Scope list_scope.

Lemma api64_unfold img0 img1 max_dist outlier_cost fuel pfuel s : same_shape img0 img1 -> (0 < max_dist)%Q -> (1 < outlier_cost)%Q ->
  correspond_pixels64 img0 img1 max_dist outlier_cost fuel pfuel s =
  match_edge_maps64 (ht img0) (wd img0) img0 img1 (tolerance2 max_dist img0)
    (outlier_cost * outlier_cost * (max_dist * max_dist) * inject_Z (diag2 (ht img0) (wd img0)))%Q fuel pfuel s.
Proof.
  intros [S1 S2] Pd Po. unfold correspond_pixels64. rewrite <- S1, <- S2, !Nat.eqb_refl. cbn [andb negb].
  destruct (Qle_bool max_dist 0) eqn:E1; [apply Qle_bool_iff in E1; exfalso; lra|].
  destruct (Qle_bool outlier_cost 1) eqn:E2; [apply Qle_bool_iff in E2; exfalso; lra|]. reflexivity.
Qed.

(** *** C57, theorem 3: whatever the rounding in the solver does, what the call returns is a one-to-one
    correspondence of pixels within the tolerance, and it does not fail ([r = None]: still running). *)
Theorem correspondence64_is_a_matching : forall img0 img1 max_dist outlier_cost fuel pfuel s,
  wf img0 -> wf img1 -> same_shape img0 img1 -> (0 < max_dist)%Q -> (1 < outlier_cost)%Q ->
  ((0 < ht img0)%nat \/ (0 < wd img0)%nat) -> (forall i, 0 <= s i < 2 ^ 48) ->
  Z.of_nat (count_true img0 + count_true img1) <= 2 ^ 30 ->
  exists r, correspond_pixels64 img0 img1 max_dist outlier_cost fuel pfuel s = Ok r /\
  forall out s', r = Some (out, s') ->
    is_correspondence img0 img1 (tolerance2 max_dist img0) (m1 out) (m2 out) /\
    matched (m1 out) = matched (m2 out) /\
    (matched (m1 out) <= count_true img0)%nat /\ (matched (m2 out) <= count_true img1)%nat.
Proof.
  intros img0 img1 md oc fuel pfuel s W0 W1 Sh Pd Po Ne V Sz.
  destruct (gen64_matching img0 img1 _ _ W0 W1 Sh (Qlt_le_weak _ _ (api_md img0 md Pd Ne)) (api_oc img0 md oc Pd Po Ne) fuel pfuel s V Sz) as (r & E & H).
  exists r. split; [rewrite api64_unfold by assumption; exact E|]. intros out s' Er. exact (result64_summary img0 img1 _ _ W0 W1 Sh s out s' _ (H out s' Er)).
Qed.
Print Assumptions correspondence64_is_a_matching.

(** *** C57, theorem 4: with [K] edge pixels in the two maps and [W] at least the outlier cost in
    hundredths of a pixel, if K^2 (100 W) <= 2^41 the call returns, and the correspondence is read
    off a perfect matching of the sampled graph whose cost exceeds the smallest possible one by at
    most 1; it does not exceed it if K^3 (100 W) <= 2^40. *)
Theorem correspondence64_is_nearly_optimal : forall img0 img1 max_dist outlier_cost s W,
  wf img0 -> wf img1 -> same_shape img0 img1 -> (0 < max_dist)%Q -> (1 < outlier_cost)%Q ->
  ((0 < ht img0)%nat \/ (0 < wd img0)%nat) -> (forall i, 0 <= s i < 2 ^ 48) ->
  let h := ht img0 in let w := wd img0 in
  let md2 := tolerance2 max_dist img0 in
  let oc2 := (outlier_cost * outlier_cost * (max_dist * max_dist) * inject_Z (diag2 h w))%Q in
  let K := Z.of_nat (count_true img0 + count_true img1) in
  0 <= W -> (10000 * oc2 <= inject_Z (W * W))%Q -> K ^ 2 * (100 * W) <= 2 ^ 41 ->
  exists F P out s', (forall fuel pfuel, (F <= fuel)%nat -> (P <= pfuel)%nat ->
      correspond_pixels64 img0 img1 max_dist outlier_cost fuel pfuel s = Ok (Some (out, s'))) /\
    is_correspondence img0 img1 md2 (m1 out) (m2 out) /\
    ((exists y x y' x', matchable_pair img0 img1 md2 y x y' x') ->
     let N := (n1 h w img0 img1 md2 + n2 h w img0 img1 md2)%nat in
     exists g l, build_graph h w img0 img1 md2 oc2 s = Ok (g, s') /\ perfect_matching N g l /\
       (forall m, perfect_matching N g m -> total_cost l <= total_cost m + 1) /\
       (K ^ 3 * (100 * W) <= 2 ^ 40 -> minimum_cost_matching N g l) /\
       forall y x y' x',
         (px false img1 y' x' = true /\ px 0 (m1 out) y x = pixel_code h y' x') <->
         exists i j c, nth_error l i = Some (j, c) /\
           nth_error (nodes1 h w img0 img1 md2) i = Some (x, y) /\ nth_error (nodes2 h w img0 img1 md2) j = Some (x', y')).
Proof.
  intros img0 img1 md oc s W W0 W1 Sh Pd Po Ne V h w md2 oc2 K HW HO Sz.
  destruct (gen64_nearly_optimal img0 img1 _ _ W0 W1 Sh (Qlt_le_weak _ _ (api_md img0 md Pd Ne)) (api_oc img0 md oc Pd Po Ne) s W V HW HO Sz) as (F & P & out & s' & E & H).
  exists F, P, out, s'. split; [intros fuel pfuel Hf Hp; rewrite api64_unfold by assumption; apply E; assumption|exact H].
Qed.
Print Assumptions correspondence64_is_nearly_optimal.

(** Concrete cases meeting the hypotheses. *)
Example ex_solver64_hypotheses :
  (forall a, In a ex_graph -> (a_tail a < 3)%nat /\ (a_head a < 3)%nat) /\ (exists a, In a ex_graph /\ a_cost a <> 0) /\
  (exists m, perfect_matching 3 ex_graph m) /\ (forall a, In a ex_graph -> Z.abs (a_cost a) <= 5) /\ Z.of_nat 3 ^ 2 * 5 <= 2 ^ 41 /\ Z.of_nat 3 ^ 3 * 5 <= 2 ^ 40.
Proof.
  split; [|split; [|split; [|split]]].
  - assert (F : forallb (fun a => Nat.ltb (a_tail a) 3 && Nat.ltb (a_head a) 3) ex_graph = true) by reflexivity.
    rewrite forallb_forall in F. intros a Ha. specialize (F a Ha). lia.
  - exists (mkArc 0 0 4). split; [left; reflexivity|discriminate].
  - eexists. exact ex_solver_feasible.
  - assert (F : forallb (fun a => Z.abs (a_cost a) <=? 5) ex_graph = true) by reflexivity.
    rewrite forallb_forall in F. intros a Ha. specialize (F a Ha). lia.
  - cbn. lia.
Qed.
(** Hence the binary64 solver finds the optimum 5 (compare [ex_solver]). *)
Example ex_solver64 : exists F P l, csa_solve64 F P 3 ex_graph = Ok (Some l) /\ total_cost l = 5.
Proof.
  destruct ex_solver64_hypotheses as (A & B & (m & C) & D & E & G).
  destruct (solver64_is_nearly_optimal 3 ex_graph m 5 ltac:(lia) A B C D E) as (F & P & l & T & Pm & O). exists F, P, l. split; [apply T; lia|].
  assert (Q : perfect_matching 3 ex_graph [(1%nat, 1); (0%nat, 2); (2%nat, 2)]).
  { split; [reflexivity|]. split; [repeat constructor; cbn; intuition discriminate|].
    intros v w c X. destruct v as [|[|[|v]]]; [| | |destruct v; discriminate]; injection X as <- <-; (split; [lia|]); cbn; tauto. }
  assert (U := proj2 (O _ Q) G). cbn in U. assert (L : 5 <= total_cost l); [|lia].
  destruct Pm as (P1 & P2 & P3). destruct l as [|[w0 c0] [|[w1 c1] [|[w2 c2] [|? ?]]]]; try discriminate P1.
  destruct (P3 0%nat w0 c0 eq_refl) as [_ I0]. destruct (P3 1%nat w1 c1 eq_refl) as [_ I1]. destruct (P3 2%nat w2 c2 eq_refl) as [_ I2].
  unfold ex_graph in I0, I1, I2. cbn [In] in I0, I1, I2. unfold total_cost. cbn [map snd zsum fold_right].
  assert (K0 : w0 = 0%nat /\ c0 = 4 \/ w0 = 1%nat /\ c0 = 1 \/ w0 = 2%nat /\ c0 = 3) by (repeat destruct I0 as [I0|I0]; try discriminate I0; try contradiction; injection I0; auto).
  assert (K1 : w1 = 0%nat /\ c1 = 2 \/ w1 = 1%nat /\ c1 = 0 \/ w1 = 2%nat /\ c1 = 5) by (repeat destruct I1 as [I1|I1]; try discriminate I1; try contradiction; injection I1; auto).
  assert (K2 : w2 = 0%nat /\ c2 = 3 \/ w2 = 1%nat /\ c2 = 2 \/ w2 = 2%nat /\ c2 = 2) by (repeat destruct I2 as [I2|I2]; try discriminate I2; try contradiction; injection I2; auto).
  assert (D01 : w0 <> w1 /\ w0 <> w2 /\ w1 <> w2).
  { cbn [map fst] in P2. apply NoDup_cons_iff in P2. destruct P2 as [N0 P2]. apply NoDup_cons_iff in P2. destruct P2 as [N1 _]. cbn [In] in N0, N1. clear - N0 N1. split; [|split]; intros Eq; subst; tauto. }
  clear - K0 K1 K2 D01. lia.
Qed.
(** Columns {2, 4} of a row of ten against {1, 3}: W = 10050 > 100 * 100 * 0.1 * sqrt(101). *)
Example ex_correspondence64_hypotheses : let K := Z.of_nat (count_true ex_c + count_true ex_d) in let W := 10050 in
  wf ex_c /\ wf ex_d /\ same_shape ex_c ex_d /\ ((0 < ht ex_c)%nat \/ (0 < wd ex_c)%nat) /\ (forall i, 0 <= rnd_stream (rnd_init 12345) i < 2 ^ 48) /\
  (10000 * (100 * 100 * ((1 # 10) * (1 # 10)) * inject_Z (diag2 (ht ex_c) (wd ex_c))) <= inject_Z (W * W))%Q /\
  K ^ 2 * (100 * W) <= 2 ^ 41 /\ K ^ 3 * (100 * W) <= 2 ^ 40 /\ matchable_pair ex_c ex_d (tolerance2 (1 # 10) ex_c) 0 2 0 1.
Proof.
  split; [split; [reflexivity|repeat constructor]|]. split; [split; [reflexivity|repeat constructor]|].
  split; [split; reflexivity|]. split; [left; cbn; lia|]. split; [exact (rnd_stream_valid (rnd_init 12345))|]. split; [discriminate|]. split; [discriminate|]. split; [discriminate|].
  split; [reflexivity|]. split; [reflexivity|]. discriminate.
Qed.
