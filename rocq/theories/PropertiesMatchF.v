(** C58: the correspondence with every number a double. *)
From Verif Require Import ProofsMatch5 SpecMatch SpecCorrespond PropertiesMatch ModelMatchF ProofsFloat ProofsCSA64 ProofsMatch64 PropertiesMatch64 ProofsMatchF ProofsMatchF2 ProofsMatchF3 SpecMatchF.
From Coq Require Import Lia Lra Psatz Qreals ZifyBool ZifyNat Permutation.
Open Scope R_scope.
Open Scope list_scope.

Lemma bpow50 : bpow radix2 (-50) = 8 * u. Proof. unfold u. simpl. lra. Qed.
Lemma bpow49 : bpow radix2 (-49) = 16 * u. Proof. unfold u. simpl. lra. Qed.
Lemma rel_nearly k x y : 0 <= y -> k <= 8 -> rel k x y -> nearly x y.
Proof.
  intros Y K R. apply (rel_weaken k 8) in R; [|exact Y|exact K]. destruct R as [A B]. unfold nearly. rewrite bpow50. apply Rabs_le. lra.
Qed.
Lemma nearly_rel x y : nearly x y -> rel 8 x y.
Proof. unfold nearly, rel. rewrite bpow50. intros H. apply Rabs_le_inv in H. lra. Qed.

Section Run.
Variable img0 img1 : image bool.
Variable D O : R.
Hypothesis W0 : wf img0.
Hypothesis W1 : wf img1.
Hypothesis Sh : same_shape img0 img1.
Hypothesis Sane : sane img0 D O.
Let h := ht img0.
Let w := wd img0.
Let T := D * sqrt (IZR (diag2 h w)).
Let md := fmax_dist D h w.
Let oc := foutlier_cost D O h w.
Let K := Z.of_nat (count_true img0 + count_true img1).

Lemma run_d1 : (1 <= diag2 h w)%Z. Proof. destruct Sane as (A & B & _). fold h w in A, B. unfold diag2. nia. Qed.
Lemma run_d2 : (diag2 h w <= 2 ^ 33)%Z. Proof. destruct Sane as (A & B & _). fold h w in A, B. unfold diag2. change (2 ^ 16)%Z with 65536%Z in *. change (2 ^ 33)%Z with 8589934592%Z. nia. Qed.
Lemma run_D : bpow radix2 (-90) <= D. Proof. apply Sane. Qed.
Lemma run_D' : D <= 512. Proof. apply Sane. Qed.
Lemma run_O : 1 + 16 * u <= O. Proof. rewrite <- bpow49. apply Sane. Qed.
Lemma run_T : T = tolerance D img0. Proof. reflexivity. Qed.
Lemma run_T_pos : 0 < T. Proof. exact (T_pos h w D run_d1 run_D). Qed.
Lemma run_oc : tiny <= oc.
Proof. assert (A := oc_lower h w D O run_d1 run_D run_O). destruct (T_tiny h w D run_d1 run_D) as (_ & B & _ & P). assert (U := u_pos). assert (TP := tiny_pos). fold T in A, B, P. fold oc in A. assert (T <= (1 + 12 * u) * T) by (rewrite <- (Rmult_1_l T) at 1; apply Rmult_le_compat_r; lra). lra. Qed.
Lemma run_oc_near : nearly oc (O * T).
Proof. apply (rel_nearly (7 / 2)); [|lra|exact (oc_rel h w D O run_d1 run_D run_O)]. assert (A := O_pos O run_O). assert (B := run_T_pos). apply Rmult_le_pos; lra. Qed.
Lemma run_api fuel pfuel s : fcorrespond_pixels img0 img1 D O fuel pfuel s =
  bind (fmatch_edge_maps h w img0 img1 md oc fuel pfuel s) (fun r => match r with None => Ok None | Some (out, s) => Ok (Some (out, oc, s)) end).
Proof.
  unfold fcorrespond_pixels. destruct Sh as [S1 S2]. rewrite <- S1, <- S2, !Nat.eqb_refl. cbn [andb negb].
  assert (D0 := bpow_gt_0 radix2 (-90)). assert (D1 := run_D). assert (O1 := O_pos O run_O).
  destruct (Rleb D 0) eqn:E1; [apply Rleb_true in E1; lra|]. destruct (Rleb O 1) eqn:E2; [apply Rleb_true in E2; lra|]. reflexivity.
Qed.

Section Agree.
Variable md2 oc2 : Q.
Hypothesis Ag : agrees h w md oc md2 oc2.
Hypothesis Sz : (K <= 2 ^ 30)%Z.
Definition cost_close (c : R) (C : R) : Prop := Rabs (c - C) <= 2 * IZR (K + 1) * u * C.
Lemma n_small : IZR (Z.of_nat (S (count_true img0 + count_true img1))) * u <= / 4.
Proof. assert (A : IZR (Z.of_nat (S (count_true img0 + count_true img1))) <= 1073741825) by (apply IZR_le; change (2 ^ 30)%Z with 1073741824%Z in Sz; unfold K in Sz; lia). assert (U := u_pos). apply Rle_trans with (1073741825 * u); [apply Rmult_le_compat_r; lra|unfold u; lra]. Qed.
Lemma K_S : IZR (Z.of_nat (S (count_true img0 + count_true img1))) = IZR (K + 1). Proof. f_equal. unfold K. lia. Qed.
(** Everything but the cost is as with the squares [md2] and [oc2]. *)
Lemma run_step fuel pfuel s r : match_edge_maps64 h w img0 img1 md2 oc2 fuel pfuel s = Ok r ->
  match r with
  | None => fcorrespond_pixels img0 img1 D O fuel pfuel s = Ok None
  | Some (out, s') => exists c, fcorrespond_pixels img0 img1 D O fuel pfuel s = Ok (Some (mkOutF (m1 out) (m2 out) c, oc, s')) /\ cost_close c (cost_value oc (ModelMatch.total out)) /\ 0 <= cost_value oc (ModelMatch.total out)
  end.
Proof.
  intros E. rewrite run_api. destruct Ag as [A1 A2 A3 A4 A5 A6 A7 A8 A9]. rewrite (fmatch_eq h w img0 img1 md oc md2 oc2 W0 W1 eq_refl eq_refl (eq_sym (proj1 Sh)) (eq_sym (proj2 Sh)) A2 A3 A4 A5 A6 A7 A8 A9).
  unfold match_edge_maps64 in E. rewrite check_ok in E by (exact (guard_ok md2 oc2 A1 A2)).
  destruct (n_arcs h w img0 img1 md2 =? 0)%Z.
  - injection E as <-. cbn [bind]. exists 0. split; [reflexivity|]. unfold cost_close, cost_value, nothing. cbn [ModelMatch.total c_outliers c_halves map INR]. unfold rsum. cbn [fold_right]. rewrite Rmult_0_r, Rplus_0_r, Rmult_0_r, Rminus_0_r, Rabs_R0. lra.
  - destruct (build_graph h w img0 img1 md2 oc2 s) as [[g s1]|e]; [|discriminate E]. cbn [bind] in *.
    destruct (csa_solve64 fuel pfuel _ g) as [[l|]|e]; [| |discriminate E]; cbn [bind] in *.
    + unfold check in *. destruct (_ && _)%bool; [|discriminate E]. injection E as <-. cbn [bind]. eexists. split; [reflexivity|].
      destruct (fcost_error oc run_oc img0 img1 (lookup1 (decode_pairs h w img0 img1 md2 l)) (lookup2 (decode_pairs h w img0 img1 md2 l)) W0 W1 Sh n_small) as [X Y].
      rewrite K_S in X. cbn [ModelMatch.total]. split; [exact X|exact Y].
    + injection E as <-. reflexivity.
Qed.
(** A pair within the tolerance: the cost is that of the correspondence. *)
Lemma run_cost s out s' Good : result64 img0 img1 md2 oc2 s out s' Good ->
  ((exists y x y' x', matchable_pair img0 img1 md2 y x y' x') -> cost_value oc (ModelMatch.total out) = true_cost img0 img1 oc (m1 out) (m2 out)) /\
  (~ (exists y x y' x', matchable_pair img0 img1 md2 y x y' x') -> cost_value oc (ModelMatch.total out) = 0).
Proof.
  intros R. assert (Kc := result64_correspondence img0 img1 md2 oc2 W0 W1 Sh s out s' Good R). assert (G := gen_nodes img0 img1 md2 W0 W1 Sh).
  destruct R as [(Z & -> & _)|(L & g & l & _ & B & Pm & _ & ->)]; split; intros Ex.
  - apply G in Ex. exfalso. clear - Ex Z. lia.
  - unfold cost_value, nothing. cbn [ModelMatch.total c_outliers c_halves map INR]. unfold rsum. cbn [fold_right]. ring.
  - destruct (outcome_cost _ _ img0 img1 _ _ W0 W1 eq_refl eq_refl (eq_sym (proj1 Sh)) (eq_sym (proj2 Sh)) g l _ B Pm eq_refl) as [X Y].
    unfold cost_value, true_cost. rewrite X. f_equal. rewrite (rsum_perm _ _ (Permutation_map _ Y)), map_app, rsum_app, !rsum_half.
    rewrite <- (rsum_perm _ _ (Permutation_map _ (sqdists_perm _ _ _ _ _ W0 W1 Sh Kc))). unfold rsum. field.
  - exfalso. apply Ex, G, L.
Qed.
End Agree.
End Run.

(** What the call yields, given the squares it is equivalent to. *)
Definition good_result (img0 img1 : image bool) (D O : R) (tol2 : Q) (out : foutcome) (oc : R) : Prop :=
  is_correspondence img0 img1 tol2 (fm1 out) (fm2 out) /\
  matched (fm1 out) = matched (fm2 out) /\ (matched (fm1 out) <= count_true img0)%nat /\ (matched (fm2 out) <= count_true img1)%nat /\
  nearly oc (O * tolerance D img0) /\
  ((exists y x y' x', matchable_pair img0 img1 tol2 y x y' x') ->
     let C := true_cost img0 img1 oc (fm1 out) (fm2 out) in
     Rabs (ftotal out - C) <= IZR (Z.of_nat (count_true img0 + count_true img1) + 1) * bpow radix2 (-52) * C) /\
  (~ (exists y x y' x', matchable_pair img0 img1 tol2 y x y' x') -> ftotal out = 0).
Lemma bpow52 : bpow radix2 (-52) = 2 * u. Proof. unfold u. simpl. lra. Qed.
Lemma run_good img0 img1 D O md2 oc2 (W0 : wf img0) (W1 : wf img1) (Sh : same_shape img0 img1) (Sane : sane img0 D O)
  (Ag : agrees (ht img0) (wd img0) (fmax_dist D (ht img0) (wd img0)) (foutlier_cost D O (ht img0) (wd img0)) md2 oc2)
  (Sz : (Z.of_nat (count_true img0 + count_true img1) <= 2 ^ 30)%Z) fuel pfuel s : (forall i, 0 <= s i < 2 ^ 48)%Z ->
  exists r, fcorrespond_pixels img0 img1 D O fuel pfuel s = Ok r /\ forall out oc s', r = Some (out, oc, s') -> good_result img0 img1 D O md2 out oc.
Proof.
  intros V. destruct (gen64_matching img0 img1 md2 oc2 W0 W1 Sh (ag_md _ _ _ _ _ _ Ag) (ag_oc _ _ _ _ _ _ Ag) fuel pfuel s V Sz) as (r & E & H).
  assert (St := run_step img0 img1 D O W0 W1 Sh Sane md2 oc2 Ag Sz fuel pfuel s r E). destruct r as [[out s']|]; [|eexists; split; [exact St|discriminate]].
  destruct St as (c & Ef & Cc & Cn). eexists. split; [exact Ef|]. intros out' oc' s1 [= <- <- <-]. specialize (H out s' eq_refl). cbn [fm1 fm2 ftotal].
  destruct (result64_summary img0 img1 md2 oc2 W0 W1 Sh s out s' _ H) as (A1 & A2 & A3 & A4). unfold good_result. cbn [fm1 fm2 ftotal].
  split; [exact A1|]. split; [exact A2|]. split; [exact A3|]. split; [exact A4|]. split; [exact (run_oc_near img0 img1 D O Sane)|].
  destruct (run_cost img0 img1 D O W0 W1 Sh md2 oc2 s out s' _ H) as [C1 C2]. unfold cost_close in Cc. split; intros Ex.
  - rewrite (C1 Ex) in Cc. cbn zeta. rewrite bpow52. eapply Rle_trans; [exact Cc|]. right. ring.
  - rewrite (C2 Ex) in Cc. rewrite Rmult_0_r, Rminus_0_r in Cc. apply Rabs_le_inv in Cc. lra.
Qed.

(** *** C58, theorem 1: with every number a double the call does not fail ([r = None]: still running),
    and returns a one-to-one correspondence for a squared tolerance within 2^-50 of the exact one, which
    depends on neither the random numbers nor the outlier cost; the reported outlier cost and cost are
    those of the correspondence up to rounding. *)
Theorem rounded_correspondence : forall img0 img1 max_dist,
  wf img0 -> wf img1 -> same_shape img0 img1 ->
  (Z.of_nat (count_true img0 + count_true img1) <= 2 ^ 30)%Z -> (exists outlier_cost, sane img0 max_dist outlier_cost) ->
  exists tol2 : Q, nearly (Q2R tol2) (tolerance max_dist img0 * tolerance max_dist img0) /\
  forall outlier_cost fuel pfuel s, sane img0 max_dist outlier_cost -> (forall i, 0 <= s i < 2 ^ 48)%Z ->
  exists r, fcorrespond_pixels img0 img1 max_dist outlier_cost fuel pfuel s = Ok r /\
  forall out oc s', r = Some (out, oc, s') -> good_result img0 img1 max_dist outlier_cost tol2 out oc.
Proof.
  intros img0 img1 D W0 W1 Sh Sz (O0 & S0). destruct (own_params (ht img0) (wd img0) D (run_d1 img0 img1 D O0 S0) (run_D img0 D O0 S0)) as (q & Eq & R6 & Dec).
  assert (P := run_T_pos img0 img1 D O0 S0). exists q. split; [apply (rel_nearly 6); [apply Rmult_le_pos; apply Rlt_le, P|lra|exact R6]|].
  intros O fuel pfuel s Sane V.
  destruct (rounded_params (ht img0) (wd img0) D O (run_d1 img0 img1 D O Sane) (run_d2 img0 img1 D O Sane) (run_D img0 D O Sane) (run_D' img0 D O Sane) (run_O img0 D O Sane) q) as (oc2 & Ag & _).
  - apply (rel_weaken 6); [apply Rmult_le_pos; apply Rlt_le, P|lra|exact R6].
  - exact Dec.
  - exact (run_good img0 img1 D O q oc2 W0 W1 Sh Sane Ag Sz fuel pfuel s V).
Qed.
Print Assumptions rounded_correspondence.

(** *** C58, theorem 2: it returns, and the correspondence is read off a perfect matching of the graph
    the code built whose cost is within 1 of the smallest (equal to it for smaller maps). *)
Theorem rounded_correspondence_is_nearly_optimal : forall img0 img1 max_dist outlier_cost s W,
  wf img0 -> wf img1 -> same_shape img0 img1 -> sane img0 max_dist outlier_cost -> (forall i, 0 <= s i < 2 ^ 48)%Z ->
  let h := ht img0 in let w := wd img0 in let K := Z.of_nat (count_true img0 + count_true img1) in
  let md := fmax_dist max_dist h w in let oc := foutlier_cost max_dist outlier_cost h w in
  (1 + bpow radix2 (-50)) * (100 * (outlier_cost * tolerance max_dist img0)) <= IZR W -> (K ^ 2 * (100 * W) <= 2 ^ 41)%Z ->
  exists F P out s', (forall fuel pfuel, (F <= fuel)%nat -> (P <= pfuel)%nat ->
      fcorrespond_pixels img0 img1 max_dist outlier_cost fuel pfuel s = Ok (Some (out, oc, s'))) /\
    ((0 < fn1 h w img0 img1 md + fn2 h w img0 img1 md)%nat ->
     let N := (fn1 h w img0 img1 md + fn2 h w img0 img1 md)%nat in
     exists g l, fbuild_graph h w img0 img1 md oc s = Ok (g, s') /\ perfect_matching N g l /\
       (forall m, perfect_matching N g m -> (total_cost l <= total_cost m + 1)%Z) /\
       ((K ^ 3 * (100 * W) <= 2 ^ 40)%Z -> minimum_cost_matching N g l) /\
       forall y x y' x',
         (px false img1 y' x' = true /\ px 0%Z (fm1 out) y x = pixel_code h y' x') <->
         exists i j c, nth_error l i = Some (j, c) /\
           nth_error (fnodes1 h w img0 img1 md) i = Some (x, y) /\ nth_error (fnodes2 h w img0 img1 md) j = Some (x', y')).
Proof.
  intros img0 img1 D O s W W0 W1 Sh Sane V h w K md oc HW Sz.
  assert (d1 := run_d1 img0 img1 D O Sane). assert (d2 := run_d2 img0 img1 D O Sane). assert (P := run_T_pos img0 img1 D O Sane). assert (O1 := O_pos O (run_O img0 D O Sane)).
  destruct (own_params h w D d1 (run_D img0 D O Sane)) as (q & Eq & R6 & Dec).
  destruct (rounded_params h w D O d1 d2 (run_D img0 D O Sane) (run_D' img0 D O Sane) (run_O img0 D O Sane) q) as (oc2 & Ag & R11); [apply (rel_weaken 6); [apply Rmult_le_pos; apply Rlt_le, P|lra|exact R6]|exact Dec|].
  change (D * sqrt (IZR (diag2 h w))) with (tolerance D img0) in R11. change (D * sqrt _) with (tolerance D img0) in P. set (X := O * tolerance D img0) in *.
  assert (Xp : 0 < X) by (apply Rmult_lt_0_compat; lra). clearbody X. rewrite bpow50 in HW. assert (U := u_pos).
  assert (WX : 100 * X <= IZR W) by (eapply Rle_trans; [|exact HW]; rewrite <- (Rmult_1_l (100 * X)) at 1; apply Rmult_le_compat_r; lra).
  assert (Wp : (1 <= W)%Z) by (assert (0 < IZR W) by lra; assert (0 < W)%Z by (apply lt_IZR; assumption); lia).
  assert (HO : (10000 * oc2 <= inject_Z (W * W))%Q).
  { apply Rle_Qle. rewrite Q2R_mult, Q2R_IZR, mult_IZR. replace (Q2R 10000) with 10000 by (symmetry; apply (Q2R_IZR 10000)). destruct R11 as [_ B].
    apply Rle_trans with ((1 + 8 * u) * (100 * X) * ((1 + 8 * u) * (100 * X))); [|apply Rmult_le_compat; try exact HW; apply Rmult_le_pos; lra].
    apply Rle_trans with (10000 * ((1 + 11 * u) * (X * X))); [lra|]. replace ((1 + 8 * u) * (100 * X) * ((1 + 8 * u) * (100 * X))) with (10000 * ((1 + 16 * u + 64 * (u * u)) * (X * X))) by ring.
    apply Rmult_le_compat_l; [lra|]. apply Rmult_le_compat_r; [apply Rmult_le_pos; lra|]. assert (0 <= u * u) by (apply Rmult_le_pos; lra). lra. }
  assert (Kz : (K <= 2 ^ 30)%Z).
  { assert (0 <= K)%Z by (unfold K; lia). clearbody K. change (2 ^ 41)%Z with 2199023255552%Z in Sz. change (2 ^ 30)%Z with 1073741824%Z. rewrite Z.pow_2_r in Sz. nia. }
  assert (A := run_api img0 img1 D O Sh Sane). destruct Ag as [A1 A2 A3 A4 A5 A6 A7 A8 A9].
  assert (Q := fmatch_eq h w img0 img1 md oc q oc2 W0 W1 eq_refl eq_refl (eq_sym (proj1 Sh)) (eq_sym (proj2 Sh)) A2 A3 A4 A5 A6 A7 A8 A9).
  assert (N1 := fn1_eq h w img0 img1 md oc q eq_refl eq_refl (eq_sym (proj1 Sh)) (eq_sym (proj2 Sh)) A3 A5 A6 A8 A9). assert (N2 := fn2_eq h w img0 img1 md oc q eq_refl eq_refl (eq_sym (proj1 Sh)) (eq_sym (proj2 Sh)) A3 A5 A6 A8 A9).
  assert (M1 := fnodes1_eq h w img0 img1 md oc q eq_refl eq_refl (eq_sym (proj1 Sh)) (eq_sym (proj2 Sh)) A3 A5 A6 A8 A9). assert (M2 := fnodes2_eq h w img0 img1 md oc q eq_refl eq_refl (eq_sym (proj1 Sh)) (eq_sym (proj2 Sh)) A3 A5 A6 A8 A9).
  assert (Bg := fbuild_graph_eq h w img0 img1 md oc q oc2 W0 W1 eq_refl eq_refl (eq_sym (proj1 Sh)) (eq_sym (proj2 Sh)) A2 A3 A5 A6 A7 A8 A9 s).
  fold h w md oc in A. rewrite N1, N2, M1, M2, Bg.
  assert (NZ := n_arcs_zero h w img0 img1 q W0 W1 eq_refl eq_refl (eq_sym (proj1 Sh)) (eq_sym (proj2 Sh))).
  destruct (Z.eqb_spec (n_arcs h w img0 img1 q) 0) as [E|Nz].
  - exists 0%nat, 0%nat, (round_outcome (nothing h w) 0), s. split; [intros fuel pfuel _ _; rewrite A, Q; reflexivity|]. apply NZ in E. intros L. exfalso. clear - E L. lia.
  - assert (L : (0 < n1 h w img0 img1 q + n2 h w img0 img1 q)%nat) by (clear - NZ Nz; destruct (Nat.eq_dec (n1 h w img0 img1 q + n2 h w img0 img1 q) 0) as [Z|Z]; [apply NZ in Z; contradiction|lia]).
    destruct (gen64_solution img0 img1 q oc2 W0 W1 Sh A1 A2 s W V ltac:(lia) HO Sz L) as (F & Pf & g & l & s' & Eg & B & Pl & T & Opt & Min & Dc). fold h w in Eg, B, Pl, T, Opt, Min, Dc.
    assert (Ck : (Nat.eqb (List.length l) (n1 h w img0 img1 q + n2 h w img0 img1 q) && check_solution h w img0 img1 q l)%bool = true).
    { apply andb_true_iff. split; [apply Nat.eqb_eq, Pl|]. eapply (check_solution_ok h w img0 img1 q oc2); try eassumption; try reflexivity; symmetry; apply Sh. }
    exists F, Pf, (round_outcome (outcome_of h w img0 img1 q l) (fcost h w img0 img1 oc (lookup1 (decode_pairs h w img0 img1 q l)) (lookup2 (decode_pairs h w img0 img1 q l)))), s'. split.
    + intros fuel pfuel Hf Hp. rewrite A, Q, Eg. cbn [bind]. rewrite (T fuel pfuel Hf Hp). cbn [bind]. rewrite check_ok by exact Ck. reflexivity.
    + intros _. exists g, l. split; [exact Eg|]. split; [exact Pl|]. split; [exact Opt|]. split; [exact Min|]. exact Dc.
Qed.
Print Assumptions rounded_correspondence_is_nearly_optimal.
