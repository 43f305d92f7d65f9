(** C57: the assignment solver with binary64 numbers. *)
From Verif Require Import SpecMatch ModelCSA64 ProofsFloat ProofsCSA ProofsCSA3 ProofsCSA64 ProofsCSA64b ProofsCSA64c ProofsCSA64d.
From Coq Require Import Lra Psatz ZifyBool ZifyNat.
Open Scope R_scope.

(** The smallest epsilon. *)
Lemma min_epsilon_spec (N : Z) : (0 < N <= 2 ^ 30)%Z -> let mn := fdiv 2 (IZR (2 * N + 1)) in
  fmt mn /\ 10 * tiny <= mn /\ 0 < mn < 1 /\ Rabs (mn - 2 / (2 * IZR N + 1)) <= 2 * u / (2 * IZR N + 1).
Proof.
  intros HN mn. split; [apply rnd_fmt|]. assert (A : 1 <= IZR N) by (apply IZR_le; lia). assert (B : IZR N <= 1073741824) by (apply IZR_le; lia).
  unfold mn, fdiv. rewrite plus_IZR, mult_IZR. set (q := 2 / (2 * IZR N + 1)).
  assert (Q0 : bpow radix2 (-31) <= q) by (unfold q; apply Rmult_le_reg_r with (2 * IZR N + 1); [lra|]; unfold Rdiv; rewrite Rmult_assoc, Rinv_l by lra; simpl; lra).
  assert (Q1 : q <= 3 / 4) by (unfold q; apply Rmult_le_reg_r with (2 * IZR N + 1); [lra|]; unfold Rdiv at 1; rewrite Rmult_assoc, Rinv_l by lra; lra).
  assert (T : tiny <= bpow radix2 (-40)) by (apply bpow_le; lia). assert (T1 : 256 * bpow radix2 (-40) <= bpow radix2 (-31)) by (simpl; lra). assert (T0 := tiny_pos).
  destruct (rnd_rel q) as (x & X1 & X2). { rewrite Rabs_pos_eq by lra. lra. }
  rewrite X2. apply Rabs_le_inv in X1. assert (U := u_small). assert (U0 := u_pos). split; [nra|]. split; [nra|].
  replace (q * (1 + x) - q) with (q * x) by ring. replace (2 * u / (2 * IZR N + 1)) with (q * u) by (unfold q; field; lra). rewrite Rabs_mult, (Rabs_pos_eq q) by lra. apply Rmult_le_compat_l; [lra|apply Rabs_le; lra].
Qed.

(** The made-up second-best arc of a node with a single arc. *)
Lemma jump_bound (N : Z) e : (0 < N <= 2 ^ 30)%Z -> tiny <= e ->
  0 <= fmul e (fadd (dpo_cost_thresh (IZR (2 * N))) 1) <= 46 * IZR N * e.
Proof.
  intros HN He. assert (T0 := tiny_pos). assert (A : 1 <= IZR N) by (apply IZR_le; lia).
  assert (E : fadd (dpo_cost_thresh (IZR (2 * N))) 1 = 44 * IZR N + 1).
  { unfold dpo_cost_thresh, fmul, fadd. rewrite <- mult_IZR, <- !plus_IZR. rewrite !rnd_int by lia. rewrite <- mult_IZR. rewrite rnd_int by lia. rewrite <- plus_IZR, rnd_int by lia.
    rewrite <- mult_IZR, <- plus_IZR. f_equal. lia. }
  rewrite E. unfold fmul. destruct (rnd_rel (e * (44 * IZR N + 1))) as (x & X1 & X2). { rewrite Rabs_pos_eq by nra. nra. }
  rewrite X2. apply Rabs_le_inv in X1. assert (U := u_small). assert (U0 := u_pos). assert (Q : 0 < e * (44 * IZR N + 1) <= 45 * (e * IZR N)) by nra. set (q := e * (44 * IZR N + 1)) in *. nra.
Qed.

(** *** C57, theorem 1: whatever the rounding does, a result of the solver is a perfect matching, and it never
    follows a null pointer ([None]: still running after [fuel] phases or [pfuel] pushes in a phase). *)
Theorem solver64_returns_a_matching : forall N g m fuel pfuel, (0 < N)%nat -> (Z.of_nat N <= 2 ^ 30)%Z ->
  (forall a, In a g -> (a_tail a < N)%nat /\ (a_head a < N)%nat) -> (exists a, In a g /\ a_cost a <> 0%Z) -> perfect_matching N g m ->
  exists r, csa_solve64 fuel pfuel N g = Ok r /\ match r with None => True | Some l => perfect_matching N g l end.
Proof.
  intros N g m fuel pfuel HN HN2 V (a & Ia & Ca) P. assert (MC : (1 <= max_cost g)%Z) by (assert (X := max_cost_bound g a Ia); lia).
  unfold csa_solve64. rewrite valid_no_error by exact V. destruct (min_epsilon_spec (Z.of_nat N) ltac:(lia)) as (Fm & _ & Pm & _). set (mn := fdiv 2 _) in *.
  assert (M1 : 1 <= IZR (max_cost g)) by (apply IZR_le; lia).
  destruct (dmain_loop_ok g N (IZR (2 * Z.of_nat N)) mn pfuel (proj1 Pm) Fm ltac:(apply IZR_le; lia) (fun v => perfect_degree N g m v P) fuel (IZR (max_cost g)) (dinit g)) as (r & E & H).
  - left. lra.
  - split; [split; [intros v k H; discriminate|intros w v H; discriminate]|]. split; [intros x; apply fmt_0|]. split; [|reflexivity].
    intros v Hv. unfold dinit. cbn [dprice dbest]. destruct (few_arcs g v) eqn:F; [left; exact F|]. apply dbuilt_best_ok, dbest_build_built, F.
  - rewrite E. cbn [bind]. destruct r as [s|]; [|exists None; split; [reflexivity|exact I]].
    rewrite dstore_results_ok by (intros v Hv; apply in_seq in Hv; apply H; lia). cbn [bind].
    eexists. split; [reflexivity|]. apply dsolved_perfect; [intros b Hb; apply V, Hb|exact H].
Qed.
Print Assumptions solver64_returns_a_matching.

(** *** C57, theorem 2: with [N] nodes on each side and costs up to [C], if
    N^2 C <= 2^41 the solver terminates and the cost of its matching is the smallest possible one or that
    plus 1 (a hundredth of a pixel); if N^3 C <= 2^40 it is the smallest possible one. *)
Theorem solver64_is_nearly_optimal : forall N g m C, (0 < N)%nat ->
  (forall a, In a g -> (a_tail a < N)%nat /\ (a_head a < N)%nat) -> (exists a, In a g /\ a_cost a <> 0%Z) -> perfect_matching N g m ->
  (forall a, In a g -> (Z.abs (a_cost a) <= C)%Z) -> (Z.of_nat N ^ 2 * C <= 2 ^ 41)%Z ->
  exists F P l, (forall fuel pfuel, (F <= fuel)%nat -> (P <= pfuel)%nat -> csa_solve64 fuel pfuel N g = Ok (Some l)) /\
    perfect_matching N g l /\
    forall m', perfect_matching N g m' -> (total_cost l <= total_cost m' + 1)%Z /\ ((Z.of_nat N ^ 3 * C <= 2 ^ 40)%Z -> (total_cost l <= total_cost m')%Z).
Proof.
  intros N g m Cz HN V (a0 & Ia & Ca) Pm Cb Sz. assert (MC : (1 <= max_cost g)%Z) by (assert (X := max_cost_bound g a0 Ia); lia).
  assert (MB : (max_cost g <= Cz)%Z). { clear - Cb Ia Ca. assert (0 <= Cz)%Z by (specialize (Cb a0 Ia); lia). clear Ia Ca a0. induction g as [|a l IH]; cbn [max_cost fold_right]; [assumption|]. apply Z.max_lub; [apply Cb; left; reflexivity|]. apply IH. intros b Hb. apply Cb. right. exact Hb. }
  assert (Sz' : (Z.of_nat N ^ 2 * max_cost g <= 2 ^ 41)%Z) by nia. assert (Sz3 : (Z.of_nat N ^ 3 * Cz <= 2 ^ 40 -> Z.of_nat N ^ 3 * max_cost g <= 2 ^ 40)%Z) by nia.
  clear Cb Sz MB. revert Sz3. set (Q3 := (Z.of_nat N ^ 3 * Cz <= 2 ^ 40)%Z). clearbody Q3. clear Cz. intros Sz3.
  assert (NN : (Z.of_nat N <= 2 ^ 30)%Z) by nia.
  destruct (min_epsilon_spec (Z.of_nat N) ltac:(lia)) as (Fm & Tm & Pmn & Em). set (mn := fdiv 2 _) in *.
  set (n := IZR (Z.of_nat N)) in *. set (C := IZR (max_cost g)).
  assert (N1 : 1 <= n) by (apply IZR_le; lia). assert (C1 : 1 <= C) by (apply IZR_le; lia).
  assert (S2 : n * n * C <= 2199023255552) by (unfold n, C; rewrite <- !mult_IZR; apply IZR_le; lia).
  assert (U := u_pos). assert (Ueq : u * 9007199254740992 = 1) by (unfold u; lra). set (d := u * (512 * (n * C))).
  assert (NC : 1 <= n * C) by nra.
  assert (dn : d * n * 8 <= 1) by (unfold d; replace (u * (512 * (n * C)) * n * 8) with (u * (4096 * (n * n * C))) by ring; nra).
  assert (d0 : 0 < d) by (unfold d; nra).
  assert (Mlow : 3 / 5 <= mn * n).
  { apply Rabs_le_inv in Em. assert (X : 2 * (1 - u) / (2 * n + 1) <= mn) by (replace (2 * (1 - u) / (2 * n + 1)) with (2 / (2 * n + 1) - 2 * u / (2 * n + 1)) by (field; lra); lra).
    apply Rle_trans with (2 * (1 - u) / (2 * n + 1) * n); [|nra]. replace (2 * (1 - u) / (2 * n + 1) * n) with ((2 * (1 - u) * n) / (2 * n + 1)) by (field; lra).
    apply Rmult_le_reg_r with (2 * n + 1); [lra|]. unfold Rdiv. rewrite (Rmult_assoc (2 * (1 - u) * n)), Rinv_l by lra. assert (V0 := u_small). nra. }
  assert (Mup : mn * (2 * n + 1) <= 2 * (1 + u)).
  { apply Rabs_le_inv in Em. assert (X : mn <= 2 * (1 + u) / (2 * n + 1)) by (replace (2 * (1 + u) / (2 * n + 1)) with (2 / (2 * n + 1) + 2 * u / (2 * n + 1)) by (field; lra); lra).
    apply Rle_trans with (2 * (1 + u) / (2 * n + 1) * (2 * n + 1)); [apply Rmult_le_compat_r; lra|]. right. field. lra. }
  assert (d2 : 2 * d <= mn) by nra. assert (dC : 50 * d <= C).
  { assert (Hn : n <= 2199023255552) by (assert (n * n <= n * n * C) by nra; nra). assert (Hu : u * (25600 * n) <= 1).
    { destruct (Rle_lt_dec n 67108864) as [H|H]; [nra|]. exfalso. assert (67108864 * n <= n * n * C) by (clear - H C1; assert (67108864 * n <= n * n) by nra; nra). lra. }
    unfold d. replace (50 * (u * (512 * (n * C)))) with (u * (25600 * n) * C) by ring. nra. }
  assert (K14 : C <= mn * 8 ^ 14). { assert (n * C <= 2199023255552) by nra. assert (8 ^ 14 = 4398046511104) by (simpl; lra). nra. }
  assert (nm : n * mn <= 101 / 100). { assert (V0 := u_small). assert (n * mn * 2 <= mn * (2 * n + 1)) by nra. lra. }
  assert (D14 : mn < C -> 0 + INR 14 * (2 * n * (2 * C + 5 * d)) + 52 * n * (C / 7 + mn) <= 120 * (n * C)).
  { intros _. replace (INR 14) with 14 by (simpl; lra). assert (n * (50 * d) <= n * C) by (apply Rmult_le_compat_l; lra). lra. }
  assert (heads : forall a, In a g -> (a_head a < N)%nat) by (intros a Ha; apply V, Ha).
  assert (costs : forall a, In a g -> - C <= IZR (a_cost a) <= C).
  { intros a Ha. assert (X := max_cost_bound g a Ha). unfold C. rewrite <- opp_IZR. split; apply IZR_le; lia. }
  assert (acc : forall x, Rabs x <= 4 * (C + 120 * (n * C)) -> Rabs (rnd x - x) <= d) by (intros x Hx; unfold d; apply rnd_abs; [assert (C <= n * C) by (clear - N1 C1; nra); lra|lra]).
  assert (Bt : dbetween g N (dinit g)).
  { split; [split; [intros v k H; discriminate|intros w v H; discriminate]|]. split; [intros x; apply fmt_0|]. split; [|reflexivity].
    intros v Hv. unfold dinit. cbn [dprice dbest]. destruct (few_arcs g v) eqn:F; [left; exact F|]. apply dbuilt_best_ok, dbest_build_built, F. }
  destruct (phases g N heads C (120 * (n * C)) d costs acc ltac:(lra) ltac:(nra) ltac:(lra) dC m Pm (fun v => perfect_degree N g m v Pm) (IZR (2 * Z.of_nat N)) mn ltac:(lia) ltac:(lra) Fm Tm ltac:(apply IZR_le; lia) d2
    (fun e He => jump_bound (Z.of_nat N) e ltac:(lia) ltac:(assert (T0 := tiny_pos); lra))
    14 C (dinit g) 0 K14 ltac:(lra) ltac:(left; lra) Bt ltac:(intros x _; cbn [dinit dprice]; lra) D14) as (F & P & s & R & S & O).
  exists F, P, (map (dentry g s) (seq 0 N)). split; [|split].
  - intros fuel pfuel Hf Hp. unfold csa_solve64. rewrite valid_no_error by exact V. fold mn. fold C. rewrite (R fuel pfuel Hf Hp). cbn [bind].
    rewrite dstore_results_ok by (intros v Hv; apply in_seq in Hv; apply S; lia). reflexivity.
  - apply dsolved_perfect; assumption.
  - intros m' P'. assert (X := dsolved_cost g N heads _ s m' S O P'). fold n in X. assert (U1 := u_small). split.
    + assert (Y : IZR (total_cost (map (dentry g s) (seq 0 N))) < IZR (total_cost m' + 2)) by (rewrite plus_IZR; nra). apply lt_IZR in Y. lia.
    + intros H3. assert (S3 : n * n * n * C <= 1099511627776) by (unfold n, C; rewrite <- !mult_IZR; apply IZR_le; specialize (Sz3 H3); lia).
      assert (d3 : d * n * n * 16 <= 1) by (unfold d; replace (u * (512 * (n * C)) * n * n * 16) with (u * (8192 * (n * n * n * C))) by ring; clear - S3 U Ueq; nra).
      assert (Z : n * (mn + 5 * d) < 1).
      { apply Rmult_lt_reg_r with (2 * n + 1); [lra|]. replace (n * (mn + 5 * d) * (2 * n + 1)) with (n * (mn * (2 * n + 1)) + 5 * (d * n) * (2 * n + 1)) by ring.
        assert (n * (mn * (2 * n + 1)) <= n * (2 * (1 + u))) by (apply Rmult_le_compat_l; lra). assert (5 * (d * n) * (2 * n + 1) <= 15 / 16) by (clear - d3 N1 d0; replace (5 * (d * n) * (2 * n + 1)) with (10 * (d * n * n) + 5 * (d * n)) by ring; assert (d * n <= d * n * n) by (assert (0 < d * n) by nra; nra); lra). assert (n * u <= / 1024); [|lra].
        assert (n <= 1099511627776) by (clear - S3 N1 C1; assert (1 <= n * n) by nra; assert (1 <= n * n * C) by nra; assert (n * 1 <= n * (n * n * C)) by (apply Rmult_le_compat_l; lra); lra). unfold u in *. lra. }
      assert (Y : IZR (total_cost (map (dentry g s) (seq 0 N))) < IZR (total_cost m' + 1)) by (rewrite plus_IZR; lra). apply lt_IZR in Y. lia.
Qed.
Print Assumptions solver64_is_nearly_optimal.
