(** C58, continued: when rounding makes no difference, and when it does. *)
From Verif Require Import ProofsMatch5 SpecMatch SpecCorrespond PropertiesMatch ModelMatchF ProofsFloat ProofsCSA64 ProofsMatch64 PropertiesMatch64 ProofsMatchF ProofsMatchF2 ProofsMatchF3 SpecMatchF PropertiesMatchF.
From Coq Require Import Lia Lra Psatz Qreals ZifyBool ZifyNat Permutation.
Open Scope R_scope.
Open Scope list_scope.

(** *** C58, theorem 3: if no integer lies within 2^-50 (relative) of the squared tolerance, nor of the
    outlier cost in hundredths, rounding changes nothing but the reported cost: the doubles version returns
    what the version with exact geometry returns, so C17 to C20 and C57 apply to it literally. *)
Theorem rounding_is_harmless : forall img0 img1 (max_dist outlier_cost : Q) fuel pfuel s,
  wf img0 -> wf img1 -> same_shape img0 img1 -> sane img0 (Q2R max_dist) (Q2R outlier_cost) -> (forall i, 0 <= s i < 2 ^ 48)%Z ->
  let K := Z.of_nat (count_true img0 + count_true img1) in (K <= 2 ^ 30)%Z ->
  let tol := tolerance (Q2R max_dist) img0 in away_from_integers (tol * tol) -> away_from_integers (100 * (Q2R outlier_cost * tol)) ->
  exists r, correspond_pixels64 img0 img1 max_dist outlier_cost fuel pfuel s = Ok r /\
  match r with
  | None => fcorrespond_pixels img0 img1 (Q2R max_dist) (Q2R outlier_cost) fuel pfuel s = Ok None
  | Some (out, s') => exists c oc,
      fcorrespond_pixels img0 img1 (Q2R max_dist) (Q2R outlier_cost) fuel pfuel s = Ok (Some (mkOutF (m1 out) (m2 out) c, oc, s')) /\
      nearly oc (Q2R outlier_cost * tol) /\
      let C := cost_value oc (ModelMatch.total out) in Rabs (c - C) <= IZR (K + 1) * bpow radix2 (-52) * C
  end.
Proof.
  intros img0 img1 qD qO fuel pfuel s W0 W1 Sh Sane V K Sz tol B1 B2.
  assert (d1 := run_d1 img0 img1 _ _ Sane). assert (d2 := run_d2 img0 img1 _ _ Sane).
  assert (Ag : agrees (ht img0) (wd img0) (fmax_dist (Q2R qD) (ht img0) (wd img0)) (foutlier_cost (Q2R qD) (Q2R qO) (ht img0) (wd img0))
    (qD * qD * inject_Z (diag2 (ht img0) (wd img0))) (qO * qO * (qD * qD) * inject_Z (diag2 (ht img0) (wd img0)))).
  { apply exact_params; [exact d1|exact d2|exact (run_D img0 _ _ Sane)|exact (run_D' img0 _ _ Sane)|exact (run_O img0 _ _ Sane)|reflexivity|reflexivity| |].
    - intros n. rewrite <- bpow50. exact (B1 n).
    - intros n. rewrite <- bpow50. exact (B2 n). }
  assert (Pd : (0 < qD)%Q) by (apply Rlt_Qlt; rewrite ProofsFloat.Q2R_0; eapply Rlt_le_trans; [apply (bpow_gt_0 radix2 (-90))|exact (run_D img0 _ _ Sane)]).
  assert (Po : (1 < qO)%Q) by (apply Rlt_Qlt; replace (Q2R 1) with 1 by (symmetry; apply (Q2R_IZR 1)); exact (O_pos _ (run_O img0 _ _ Sane))).
  destruct (gen64_matching img0 img1 _ _ W0 W1 Sh (ag_md _ _ _ _ _ _ Ag) (ag_oc _ _ _ _ _ _ Ag) fuel pfuel s V Sz) as (r & E & _).
  exists r. split; [rewrite api64_unfold by assumption; exact E|].
  assert (St := run_step img0 img1 _ _ W0 W1 Sh Sane _ _ Ag Sz fuel pfuel s r E). destruct r as [[out s']|]; [|exact St].
  destruct St as (c & Ef & Cc & _). eexists. eexists. split; [exact Ef|]. split; [exact (run_oc_near img0 img1 _ _ Sane)|]. cbn zeta. rewrite bpow52. unfold cost_close in Cc. eapply Rle_trans; [exact Cc|]. right. unfold K. ring.
Qed.
Print Assumptions rounding_is_harmless.

(** ** Decimal tolerances *)
(** The nominal squared tolerance [A/B] decides like the one computed unless it is an integer. *)
Lemma nominal_decides (A B : Z) (q m : R) : (0 < A <= 2 ^ 49)%Z -> (0 < B)%Z -> q * IZR B = IZR A -> (forall n, n * B <> A)%Z -> rel 9 m q ->
  forall n, IZR n <= m <-> IZR n <= q.
Proof.
  intros HA HB E Nd [L H] n. assert (Bp : 0 < IZR B) by (apply IZR_lt; lia). assert (Ap : 0 < IZR A) by (apply IZR_lt; lia).
  assert (Qp : 0 < q) by (apply (Rmult_lt_reg_r (IZR B)); lra). assert (Ab : IZR A <= 562949953421312) by (apply IZR_le; change (2 ^ 49)%Z with 562949953421312%Z in HA; lia).
  assert (Small : 9 * u * IZR A < 1) by (unfold u; lra). assert (Es : 9 * u * (q * IZR B) < 1) by (rewrite E; exact Small). clear Small.
  assert (D : (n * B <= A - 1 \/ A + 1 <= n * B)%Z) by (specialize (Nd n); lia).
  assert (DR : IZR n * IZR B <= q * IZR B - 1 \/ q * IZR B + 1 <= IZR n * IZR B).
  { rewrite E, <- mult_IZR. destruct D as [D|D]; [left; apply IZR_le in D; rewrite minus_IZR in D; exact D|right; apply IZR_le in D; rewrite plus_IZR in D; exact D]. }
  set (x := IZR n) in *. clearbody x. set (b := IZR B) in *. clearbody b. clear - L H Bp Qp Es DR. split; intros C; destruct DR as [DR|DR].
  - apply (Rmult_le_reg_r b); lra.
  - exfalso. assert (x * b <= (1 + 9 * u) * q * b) by (apply Rmult_le_compat_r; lra). lra.
  - apply Rmult_le_reg_r with b; [exact Bp|]. assert ((1 - 9 * u) * q * b <= m * b) by (apply Rmult_le_compat_r; lra). lra.
  - exfalso. assert (x * b <= q * b) by (apply Rmult_le_compat_r; lra). lra.
Qed.
(** *** C58, theorem 4: for a tolerance given as a decimal fraction k/N (rounded to a double when the
    program reads it) the correspondence is one for exactly the nominal tolerance k/N, unless the square of
    the nominal tolerance is an integer. *)
Theorem decimal_tolerances_are_exact : forall img0 img1 (k N : positive) outlier_cost fuel pfuel s,
  let max_dist := rnd (IZR (Zpos k) / IZR (Zpos N)) in
  wf img0 -> wf img1 -> same_shape img0 img1 -> sane img0 max_dist outlier_cost -> (forall i, 0 <= s i < 2 ^ 48)%Z ->
  (Z.of_nat (count_true img0 + count_true img1) <= 2 ^ 30)%Z ->
  (Zpos k * Zpos k * (Z.of_nat (ht img0) * Z.of_nat (ht img0) + Z.of_nat (wd img0) * Z.of_nat (wd img0)) <= 2 ^ 49)%Z ->
  (forall n, ~ inject_Z n == tolerance2 (Zpos k # N) img0)%Q ->
  exists r, fcorrespond_pixels img0 img1 max_dist outlier_cost fuel pfuel s = Ok r /\
  forall out oc s', r = Some (out, oc, s') -> good_result img0 img1 max_dist outlier_cost (tolerance2 (Zpos k # N) img0) out oc.
Proof.
  intros img0 img1 k N O fuel pfuel s D W0 W1 Sh Sane V Sz Kz Nd.
  assert (d1 := run_d1 img0 img1 _ _ Sane). assert (d2 := run_d2 img0 img1 _ _ Sane). assert (HD := run_D img0 _ _ Sane).
  set (h := ht img0) in *. set (w := wd img0) in *. set (q := tolerance2 (Zpos k # N) img0) in *.
  fold (diag2 h w) in Kz. set (x := IZR (Zpos k) / IZR (Zpos N)) in *.
  assert (Np : 0 < IZR (Zpos N)) by (apply IZR_lt; lia). assert (kp : 0 < IZR (Zpos k)) by (apply IZR_lt; lia). assert (xp : 0 < x) by (apply Rdiv_lt_0_compat; assumption).
  assert (Eq : Q2R q = x * x * IZR (diag2 h w)).
  { unfold q, tolerance2. fold h w. fold (diag2 h w). rewrite !Q2R_mult, Q2R_IZR. unfold Q2R. cbn [Qnum Qden]. reflexivity. }
  assert (xt : tiny <= x).
  { apply Rnot_lt_le. intros C. assert (X : D <= bpow radix2 (-200)) by (apply rnd_le_fmt; [apply fmt_bpow; lia|apply Rlt_le, C]). assert (Y : bpow radix2 (-200) < bpow radix2 (-90)) by (apply bpow_lt; lia). lra. }
  destruct (rnd_rel x) as (e & He & Ee); [rewrite Rabs_pos_eq by lra; exact xt|]. fold D in Ee. apply Rabs_le_inv in He.
  assert (Tq : D * sqrt (IZR (diag2 h w)) * (D * sqrt (IZR (diag2 h w))) = (1 + e) * (1 + e) * Q2R q) by (rewrite (T_square h w D d1), Eq, Ee; ring).
  assert (Qp : 0 < Q2R q) by (rewrite Eq; apply Rmult_lt_0_compat; [apply Rmult_lt_0_compat; assumption|apply IZR_lt; lia]).
  assert (U := u_pos). assert (U2 := u_small). assert (E2 : 1 - 2 * u <= (1 + e) * (1 + e) <= 1 + 2 * u + u * u) by (clear - He U U2; nra).
  assert (UU : 0 <= u * u <= u / 1000) by (clear - U U2; nra).
  assert (R8 : rel 8 (Q2R q) (D * sqrt (IZR (diag2 h w)) * (D * sqrt (IZR (diag2 h w))))).
  { rewrite Tq. set (t := (1 + e) * (1 + e)) in *. clearbody t. unfold rel. split.
    - rewrite <- Rmult_assoc. rewrite <- (Rmult_1_l (Q2R q)) at 2. apply Rmult_le_compat_r; [lra|]. clear - E2 U U2 UU. nra.
    - rewrite <- Rmult_assoc. rewrite <- (Rmult_1_l (Q2R q)) at 1. apply Rmult_le_compat_r; [lra|]. clear - E2 U U2 UU. nra. }
  assert (R9 : rel 9 (fmul (fmax_dist D h w) (fmax_dist D h w)) (Q2R q)).
  { destruct (md2_rel h w D d1 HD) as [A B]. rewrite Tq in A, B. set (t := (1 + e) * (1 + e)) in *. clearbody t. unfold rel. split.
    - eapply Rle_trans; [|exact A]. rewrite <- Rmult_assoc. apply Rmult_le_compat_r; [lra|]. clear - E2 U U2 UU. nra.
    - eapply Rle_trans; [exact B|]. rewrite <- Rmult_assoc. apply Rmult_le_compat_r; [lra|]. clear - E2 U U2 UU. nra. }
  destruct (rounded_params h w D O d1 d2 HD (run_D' img0 _ _ Sane) (run_O img0 _ _ Sane) q R8) as (oc2 & Ag & _).
  - intros n. rewrite (nominal_decides (Zpos k * Zpos k * diag2 h w) (Zpos N * Zpos N) (Q2R q) _ ltac:(split; [nia|exact Kz]) ltac:(lia)).
    + rewrite <- (Q2R_IZR n). split; [apply Rle_Qle|apply Qle_Rle].
    + rewrite Eq, !mult_IZR. unfold x. field. lra.
    + intros m C. apply (Nd m). unfold q, tolerance2. fold h w. fold (diag2 h w). unfold Qeq. cbn [Qnum Qden inject_Z Qmult]. rewrite !Pos2Z.inj_mul, Z.mul_1_r. rewrite <- C. ring.
    + exact R9.
  - exact (run_good img0 img1 D O q oc2 W0 W1 Sh Sane Ag Sz fuel pfuel s V).
Qed.
Print Assumptions decimal_tolerances_are_exact.

(** ** A tolerance whose square is an integer *)
Lemma sqrt_between a b x : 0 <= a -> 0 <= b -> a * a < x < b * b -> a < sqrt x < b.
Proof.
  intros A B [L H]. split.
  - rewrite <- (sqrt_square a A). apply sqrt_lt_1_alt. split; [apply Rmult_le_pos; exact A|exact L].
  - rewrite <- (sqrt_square b B). apply sqrt_lt_1_alt. split; [|exact H]. assert (0 <= a * a) by (apply Rmult_le_pos; exact A). lra.
Qed.
Ltac by_hand := try lia; simpl; rewrite ?Rabs_pos_eq by lra; try lra; unfold Rabs; destruct (Rcase_abs _); lra.
Lemma rnd_002 : rnd (2 / 100) = 5764607523034235 / 288230376151711744.
Proof. rewrite (rnd_value (2 / 100) (-5) 5764607523034235) by by_hand. simpl. lra. Qed.
Lemma sqrt_340000 : fsqrt 340000 = 5128959527507926 / 8796093022208.
Proof.
  unfold fsqrt. assert (B : (5128959527507926 - 49 / 100) / 8796093022208 < sqrt 340000 < (5128959527507926 + 49 / 100) / 8796093022208) by (apply sqrt_between; lra).
  set (x := sqrt 340000) in *. clearbody x. rewrite (rnd_value x 10 5128959527507926) by by_hand. simpl. lra.
Qed.
Lemma md_340000 : fmul (rnd (2 / 100)) (fsqrt 340000) = 6565068195210145 / 562949953421312.
Proof. rewrite rnd_002, sqrt_340000. unfold fmul. rewrite (rnd_value _ 4 6565068195210145) by by_hand. simpl. lra. Qed.
Lemma md2_340000 : fmul (fmul (rnd (2 / 100)) (fsqrt 340000)) (fmul (rnd (2 / 100)) (fsqrt 340000)) < 136.
Proof. rewrite md_340000. unfold fmul. rewrite (rnd_value _ 8 4785074604081151) by by_hand. simpl. lra. Qed.
(** Two 300x500 maps with one edge pixel each, 6 rows and 10 columns apart: at the SBD setting 0.02 the
    tolerance is sqrt 136, exactly their distance. *)
Definition ex_far0 : image bool := tab 300 500 (fun y x => (y =? 0)%Z && (x =? 0)%Z).
Definition ex_far1 : image bool := tab 300 500 (fun y x => (y =? 6)%Z && (x =? 10)%Z).
Lemma ex_far_sane : sane ex_far0 (rnd (2 / 100)) 100.
Proof.
  unfold sane. cbn [ht wd tab ex_far0]. split; [lia|]. split; [lia|]. rewrite rnd_002. split; [split|].
  - apply Rle_trans with (bpow radix2 (-10)); [apply bpow_le; lia|simpl; lra].
  - lra.
  - apply Rle_trans with (1 + bpow radix2 1); [apply Rplus_le_compat_l, bpow_le; lia|simpl; lra].
Qed.
Lemma ex_far_counts : (count_true ex_far0 + count_true ex_far1)%nat = 2%nat.
Proof. vm_compute. reflexivity. Qed.
Lemma ex_far_pair : matchable_pair ex_far0 ex_far1 (tolerance2 (2 # 100) ex_far0) 0 0 6 10.
Proof. split; [|split]; [unfold ex_far0; rewrite px_tab; reflexivity|unfold ex_far1; rewrite px_tab; reflexivity|discriminate]. Qed.
Lemma ex_far_nothing fuel pfuel s : fcorrespond_pixels ex_far0 ex_far1 (rnd (2 / 100)) 100 fuel pfuel s =
  Ok (Some (mkOutF (tab 300 500 (fun _ _ => 0%Z)) (tab 300 500 (fun _ _ => 0%Z)) 0, foutlier_cost (rnd (2 / 100)) 100 300 500, s)).
Proof.
  assert (Sane := ex_far_sane). assert (W0 : wf ex_far0) by apply wf_tab. assert (W1 : wf ex_far1) by apply wf_tab. assert (Sh : same_shape ex_far0 ex_far1) by (split; reflexivity).
  assert (d1 := run_d1 ex_far0 ex_far1 _ _ Sane). assert (HD := run_D ex_far0 _ _ Sane).
  destruct (own_params 300 500 (rnd (2 / 100)) d1 HD) as (q & Eq & R6 & Dec).
  destruct (rounded_params 300 500 (rnd (2 / 100)) 100 d1 (run_d2 ex_far0 ex_far1 _ _ Sane) HD (run_D' ex_far0 _ _ Sane) (run_O ex_far0 _ _ Sane) q) as (oc2 & Ag & _).
  { apply (rel_weaken 6); [apply Rmult_le_pos; apply Rlt_le, (run_T_pos ex_far0 ex_far1 _ _ Sane)|lra|exact R6]. }
  { exact Dec. }
  assert (Q136 : ~ (136 <= q)%Q).
  { intros C. apply Dec in C. assert (L := md2_340000). unfold fmax_dist, fidiag, diag2 in C. change (Z.of_nat 300 * Z.of_nat 300 + Z.of_nat 500 * Z.of_nat 500)%Z with 340000%Z in C. lra. }
  rewrite (run_api ex_far0 ex_far1 _ _ Sh Sane). destruct Ag as [A1 A2 A3 A4 A5 A6 A7 A8 A9].
  assert (F := fmatch_eq 300 500 ex_far0 ex_far1 _ _ q oc2 W0 W1 eq_refl eq_refl eq_refl eq_refl A2 A3 A4 A5 A6 A7 A8 A9 fuel pfuel s). change (ht ex_far0) with 300%nat. change (wd ex_far0) with 500%nat. rewrite F. clear F.
  assert (NZ := n_arcs_zero 300 500 ex_far0 ex_far1 q W0 W1 eq_refl eq_refl eq_refl eq_refl).
  assert (G := gen_nodes ex_far0 ex_far1 q W0 W1 Sh). change (ht ex_far0) with 300%nat in G. change (wd ex_far0) with 500%nat in G.
  destruct (Nat.eq_dec (n1 300 500 ex_far0 ex_far1 q + n2 300 500 ex_far0 ex_far1 q) 0) as [Z|Z].
  - apply NZ in Z. rewrite Z, Z.eqb_refl. reflexivity.
  - exfalso. assert (P : (0 < n1 300 500 ex_far0 ex_far1 q + n2 300 500 ex_far0 ex_far1 q)%nat) by (clear - Z; lia). apply G in P. destruct P as (y & x & y' & x' & B1 & B2 & B3).
    unfold ex_far0 in B1. unfold ex_far1 in B2. rewrite px_tab in B1, B2.
    destruct (inb 300 500 y x); [|discriminate B1]. destruct (inb 300 500 y' x'); [|discriminate B2].
    apply andb_true_iff in B1, B2. destruct B1 as [Y X], B2 as [Y' X']. apply Z.eqb_eq in X, Y, X', Y'. subst. exact (Q136 B3).
Qed.
(** *** C58, theorem 5: without the proviso theorem 4 is false. *)
Theorem nominal_tolerance_is_inclusive_refuted :
  ~ (forall img0 img1 (k N : positive) outlier_cost fuel pfuel s,
      let max_dist := rnd (IZR (Zpos k) / IZR (Zpos N)) in
      wf img0 -> wf img1 -> same_shape img0 img1 -> sane img0 max_dist outlier_cost -> (forall i, 0 <= s i < 2 ^ 48)%Z ->
      (Z.of_nat (count_true img0 + count_true img1) <= 2 ^ 30)%Z ->
      (Zpos k * Zpos k * (Z.of_nat (ht img0) * Z.of_nat (ht img0) + Z.of_nat (wd img0) * Z.of_nat (wd img0)) <= 2 ^ 49)%Z ->
      exists r, fcorrespond_pixels img0 img1 max_dist outlier_cost fuel pfuel s = Ok r /\
      forall out oc s', r = Some (out, oc, s') -> good_result img0 img1 max_dist outlier_cost (tolerance2 (Zpos k # N) img0) out oc).
Proof.
  intros H. specialize (H ex_far0 ex_far1 2%positive 100%positive 100 0%nat 0%nat (fun _ => 0%Z) (wf_tab _ _ _) (wf_tab _ _ _) (conj eq_refl eq_refl) ex_far_sane).
  destruct H as (r & E & G); [intros _; lia|rewrite ex_far_counts; lia|cbn [ht wd tab ex_far0]; lia|].
  rewrite (ex_far_nothing 0 0 _) in E. injection E as <-. specialize (G _ _ _ eq_refl). destruct G as (_ & _ & _ & _ & N & C & _).
  assert (Ex : exists y x y' x', matchable_pair ex_far0 ex_far1 (tolerance2 (2 # 100) ex_far0) y x y' x') by (exists 0%Z, 0%Z, 6%Z, 10%Z; exact ex_far_pair).
  specialize (C Ex). cbn zeta in C. cbn [fm1 fm2 ftotal] in C. rewrite ex_far_counts in C.
  set (oc := foutlier_cost (rnd (2 / 100)) 100 300 500) in *. set (z := tab 300 500 (fun _ _ => 0%Z)) in *.
  set (c := true_cost ex_far0 ex_far1 oc z z) in *.
  assert (P : 0 < c).
  { assert (Op : 0 < oc) by (eapply Rlt_le_trans; [apply tiny_pos|exact (run_oc ex_far0 ex_far1 _ _ ex_far_sane)]). unfold c, true_cost. assert (U : (0 < unmatched ex_far0 z)%nat).
    { unfold unmatched. assert (I : In (0, 0)%Z (filter (fun p => px false ex_far0 (fst p) (snd p) && (px 0 z (fst p) (snd p) =? 0))%Z (coords (ht ex_far0) (wd ex_far0)))).
      { apply filter_In. split; [apply in_coords; reflexivity|]. cbn [fst snd]. unfold ex_far0, z. rewrite !px_tab. reflexivity. }
      destruct (filter _ _); [destruct I|cbn; lia]. }
    assert (S0 : 0 <= fold_right Rplus 0 (map (fun d => sqrt (IZR d)) (matched_sqdists z))).
    { induction (matched_sqdists z) as [|d l IH]; [cbn; lra|]. cbn [map fold_right]. assert (0 <= sqrt (IZR d)) by apply sqrt_pos. lra. }
    assert (I : 1 <= INR (unmatched ex_far0 z + unmatched ex_far1 z)) by (change 1 with (INR 1); apply le_INR; lia).
    assert (oc * 1 <= oc * INR (unmatched ex_far0 z + unmatched ex_far1 z)) by (apply Rmult_le_compat_l; lra). lra. }
  rewrite Rminus_0_l, Rabs_Ropp, Rabs_pos_eq in C by lra. rewrite bpow52 in C. change (IZR (Z.of_nat 2 + 1)) with 3 in C.
  assert (c * (1 - 3 * (2 * u)) <= 0) by lra. assert (0 < c * (1 - 3 * (2 * u))) by (apply Rmult_lt_0_compat; [exact P|unfold u; lra]). lra.
Qed.
Print Assumptions nominal_tolerance_is_inclusive_refuted.

(** ** The default settings *)
(** A sufficient check, by rational arithmetic, that no integer is near. *)
Definition clear_of_integers (t : Q) : bool :=
  let m := Qfloor t in
  Qle_bool (inject_Z m + (1 # 1048576)) t && Qle_bool (t + (1 # 1048576)) (inject_Z (m + 1)) && Qle_bool t (1048576 # 1).
Definition root_clear_of_integers (x2 : Q) : bool :=
  let k := Z.sqrt (Qfloor x2) in
  let lo := (inject_Z k + (1 # 1048576))%Q in let hi := (inject_Z (k + 1) - (1 # 1048576))%Q in
  Qle_bool (lo * lo) x2 && Qle_bool x2 (hi * hi) && Z.leb k 1048575.
Lemma gap_away x m : 0 <= x <= 1048576 -> IZR m + / 1048576 <= x <= IZR (m + 1) - / 1048576 -> away_from_integers x.
Proof.
  intros X [L H] n. rewrite bpow50. assert (8 * u * x < / 1048576) by (unfold u; lra). rewrite plus_IZR in H.
  destruct (Z_le_gt_dec n m) as [C|C].
  - apply IZR_le in C. rewrite Rabs_left; lra.
  - assert (C' : (m + 1 <= n)%Z) by lia. apply IZR_le in C'. rewrite plus_IZR in C'. rewrite Rabs_pos_eq; lra.
Qed.
Lemma Q2R_2_20 : Q2R (1 # 1048576) = / 1048576. Proof. unfold Q2R. cbn. lra. Qed.
Lemma clear_sound t : (0 <= t)%Q -> clear_of_integers t = true -> away_from_integers (Q2R t).
Proof.
  unfold clear_of_integers. cbn zeta. intros P H. apply andb_true_iff in H. destruct H as [H C]. apply andb_true_iff in H. destruct H as [A B]. apply Qle_bool_iff in A, B, C. apply Qle_Rle in A, B, C, P.
  rewrite Q2R_plus, Q2R_IZR, Q2R_2_20 in A. rewrite Q2R_plus, Q2R_IZR, Q2R_2_20 in B. rewrite ProofsFloat.Q2R_0 in P. change (Q2R (1048576 # 1)) with (Q2R (inject_Z 1048576)) in C. rewrite Q2R_IZR in C. apply (gap_away _ (Qfloor t)); lra.
Qed.
Lemma root_clear_sound x2 X : 0 <= X -> Q2R x2 = X * X -> root_clear_of_integers x2 = true -> away_from_integers X.
Proof.
  unfold root_clear_of_integers. cbn zeta. intros P E H. apply andb_true_iff in H. destruct H as [H C]. apply andb_true_iff in H. destruct H as [A B]. apply Qle_bool_iff in A, B. apply Z.leb_le in C. apply Qle_Rle in A, B.
  set (k := Z.sqrt (Qfloor x2)) in *. assert (k0 : (0 <= k)%Z) by apply Z.sqrt_nonneg. clearbody k. rewrite Q2R_mult, Q2R_plus, Q2R_IZR, Q2R_2_20, E in A. rewrite Q2R_mult, Q2R_minus, Q2R_IZR, Q2R_2_20, E in B.
  apply IZR_le in k0. apply IZR_le in C. rewrite plus_IZR in B. assert (L : IZR k + / 1048576 <= X) by (apply Rnot_lt_le; intros N; assert (X * X < (IZR k + / 1048576) * (IZR k + / 1048576)) by (apply Rmult_le_0_lt_compat; lra); lra).
  assert (U : X <= IZR k + 1 - / 1048576) by (apply Rnot_lt_le; intros N; assert ((IZR k + 1 - / 1048576) * (IZR k + 1 - / 1048576) < X * X) by (apply Rmult_le_0_lt_compat; lra); lra).
  apply (gap_away _ k); [lra|]. rewrite plus_IZR. lra.
Qed.
(** The doubles written 0.0075, 0.0035 and 0.02. *)
Definition d_bsds : Q := 1080863910568919 # 144115188075855872.
Definition d_city : Q := 8070450532247929 # 2305843009213693952.
Definition d_sbd : Q := 5764607523034235 # 288230376151711744.
Definition default_settings : list (nat * nat * Q) :=
  [(321, 481, d_bsds); (481, 321, d_bsds); (1024, 2048, d_city); (512, 1024, d_city); (333, 500, d_sbd); (500, 333, d_sbd)]%nat.
Lemma default_doubles : Q2R d_bsds = rnd (75 / 10000) /\ Q2R d_city = rnd (35 / 10000) /\ Q2R d_sbd = rnd (2 / 100).
Proof.
  split; [|split].
  - rewrite (rnd_value (75 / 10000) (-7) 8646911284551352) by by_hand. unfold Q2R. cbn [Qnum Qden d_bsds]. simpl. lra.
  - rewrite (rnd_value (35 / 10000) (-8) 8070450532247929) by by_hand. unfold Q2R. cbn [Qnum Qden d_city]. simpl. lra.
  - rewrite rnd_002. unfold Q2R. cbn [Qnum Qden d_sbd]. lra.
Qed.
(** *** C58, theorem 6: the hypotheses of theorem 3 hold at the default settings of the programs (outlier
    cost 100) for the image sizes of BSDS500 (321x481), Cityscapes (1024x2048, halved) and
    for the sizes 333x500 and 500x333 of SBD.  (At 375x500 the diagonal is 625 and the outlier cost is 125000 hundredths exactly,
    so theorem 3 does not apply there, but theorems 1, 2 and 4 do.) *)
Theorem default_settings_are_harmless : forall img h w max_dist, In (h, w, max_dist) default_settings -> ht img = h -> wd img = w ->
  let tol := tolerance (Q2R max_dist) img in
  sane img (Q2R max_dist) (Q2R 100) /\ away_from_integers (tol * tol) /\ away_from_integers (100 * (Q2R 100 * tol)).
Proof.
  intros img h w D I Eh Ew tol. assert (E100 : Q2R 100 = 100) by apply (Q2R_IZR 100).
  set (d2 := inject_Z (Z.of_nat h * Z.of_nat h + Z.of_nat w * Z.of_nat w)). set (t := (D * D * d2)%Q).
  assert (Ck : clear_of_integers t = true /\ root_clear_of_integers (100000000 * t) = true /\ Qle_bool (1 # 1024) D = true /\ Qle_bool D 1 = true /\ (0 < Z.of_nat h <= 2 ^ 16)%Z /\ (0 < Z.of_nat w <= 2 ^ 16)%Z).
  { unfold t, d2. clear - I. cbn [In default_settings] in I. repeat (destruct I as [I|I]; [injection I as <- <- <-; (split; [vm_compute; reflexivity|]; split; [vm_compute; reflexivity|]; split; [vm_compute; reflexivity|]; split; [vm_compute; reflexivity|]; lia)|]). destruct I. }
  destruct Ck as (C1 & C2 & C3 & C4 & C5 & C6). apply Qle_bool_iff in C3, C4. assert (D1 := Qle_Rle _ _ C3). assert (D2 := Qle_Rle _ _ C4).
  assert (X1 : Q2R (1 # 1024) = / 1024) by (unfold Q2R; cbn; lra). rewrite X1 in D1. replace (Q2R 1) with 1 in D2 by (symmetry; apply (Q2R_IZR 1)).
  assert (Et : Q2R t = tol * tol).
  { unfold t, tol, tolerance, d2. rewrite Eh, Ew, !Q2R_mult, Q2R_IZR. set (z := (Z.of_nat h * Z.of_nat h + Z.of_nat w * Z.of_nat w)%Z). assert (0 <= IZR z) by (apply IZR_le; unfold z; lia).
    replace (Q2R D * sqrt (IZR z) * (Q2R D * sqrt (IZR z))) with (Q2R D * Q2R D * (sqrt (IZR z) * sqrt (IZR z))) by ring. rewrite sqrt_sqrt by assumption. reflexivity. }
  assert (T0 : 0 <= tol) by (unfold tol, tolerance; apply Rmult_le_pos; [lra|apply sqrt_pos]).
  split; [|split].
  - unfold sane. rewrite Eh, Ew, E100. split; [exact C5|]. split; [exact C6|]. split; [split; [|lra]|].
    + apply Rle_trans with (bpow radix2 (-10)); [apply bpow_le; lia|simpl; lra].
    + apply Rle_trans with (1 + bpow radix2 1); [apply Rplus_le_compat_l, bpow_le; lia|simpl; lra].
  - rewrite <- Et. apply clear_sound; [|exact C1]. apply Rle_Qle. rewrite ProofsFloat.Q2R_0, Et. apply Rmult_le_pos; exact T0.
  - apply (root_clear_sound (100000000 * t)); [rewrite E100; lra| |exact C2]. rewrite Q2R_mult, Et, E100. replace (Q2R 100000000) with 100000000 by (symmetry; apply (Q2R_IZR 100000000)). ring.
Qed.
Print Assumptions default_settings_are_harmless.
(** The nominal tolerances at these sizes are not integers (hypothesis of theorem 4). *)
Example ex_decimal_hypotheses : forall img, ht img = 321%nat -> wd img = 481%nat -> forall n, ~ (inject_Z n == tolerance2 (75 # 10000) img)%Q.
Proof. intros img Eh Ew n C. unfold tolerance2 in C. rewrite Eh, Ew in C. unfold Qeq in C. cbn -[Z.mul] in C. lia. Qed.
Example ex_nearly_optimal_hypotheses : (1 + bpow radix2 (-50)) * (100 * (100 * tolerance (Q2R d_bsds) (tab 321 481 (fun _ _ => true)))) <= IZR 45000 /\ (690 ^ 2 * (100 * 45000) <= 2 ^ 41)%Z.
Proof.
  split; [|lia]. assert (D : Q2R d_bsds <= 76 / 10000) by (unfold Q2R; cbn [Qnum Qden d_bsds]; lra). unfold tolerance. cbn [ht wd tab].
  assert (S0 : 0 <= sqrt (IZR (Z.of_nat 321 * Z.of_nat 321 + Z.of_nat 481 * Z.of_nat 481))) by apply sqrt_pos.
  assert (S : sqrt (IZR (Z.of_nat 321 * Z.of_nat 321 + Z.of_nat 481 * Z.of_nat 481)) <= 579) by (rewrite <- (sqrt_square 579) by lra; apply sqrt_le_1_alt; rewrite <- mult_IZR; apply IZR_le; lia).
  set (x := sqrt _) in *. clearbody x. rewrite bpow50. assert (0 <= Q2R d_bsds) by (unfold Q2R; cbn [Qnum Qden d_bsds]; lra). assert (T : Q2R d_bsds * x <= 76 / 10000 * 579) by (apply Rmult_le_compat; lra). set (t := Q2R d_bsds * x) in *. clearbody t. unfold u. lra.
Qed.
