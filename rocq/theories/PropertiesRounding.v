(** C56: the metrics with binary64 numbers. *)
From Verif Require Import SpecRounding ProofsFloat2.
From Coq Require Import Lia Lra Psatz.
Open Scope R_scope.
Open Scope list_scope.

Lemma map_repeat_R : forall (x : Z) n, map IZR (repeat x n) = repeat (IZR x) n.
Proof. intros x n. induction n as [|n IH]; [reflexivity|]. cbn [repeat map]. rewrite IH. reflexivity. Qed.

(** *** C56, theorem 1: recall and precision are the exact ratio rounded once, the F1 computed from them is off by
    at most 8 eps from the exact one, and everything stays in [0,1]. *)
Theorem rounded_scores : forall cr sr cp sp : Z, (0 <= cr <= sr)%Z -> (0 <= cp <= sp)%Z -> (sr <= 2 ^ 53)%Z -> (sp <= 2 ^ 53)%Z ->
  let r := fratio (IZR cr) (IZR sr) in let p := fratio (IZR cp) (IZR sp) in
  near 1 r (recall cr sr) /\ near 1 p (precision cp sp) /\ near 8 (ff1 p r) (f1 (precision cp sp) (recall cr sr)) /\
  in_unit r /\ in_unit p /\ in_unit (ff1 p r).
Proof.
  intros cr sr cp sp H1 H2 B1 B2 r p. destruct (fratio_spec cr sr H1 B1) as [F1 E1]. destruct (fratio_spec cp sp H2 B2) as [F2 E2]. fold r in F1, E1. fold p in F2, E2.
  unfold near, in_unit. rewrite eps_u, Rmult_1_l. change precision with recall. rewrite <- Q2R_recall in E1, E2 by assumption.
  assert (X1 := fraction_range cr sr H1). assert (X2 := fraction_range cp sp H2). rewrite <- Q2R_recall in X1, X2 by assumption.
  split; [exact E1|]. split; [exact E2|]. split; [rewrite Q2R_f1 by lra; assert (X := ff1_close _ _ _ _ u (ratio_like_score _ F2) (ratio_like_score _ F1) (proj1 X2) (proj1 X1) E2 E1); lra|].
  split; [apply ratio_like_range, F1|]. split; [apply ratio_like_range, F2|apply ff1_range; apply ratio_like_score; assumption].
Qed.
Print Assumptions rounded_scores.

(** *** C56, theorem 2: all scores of an evaluation.  Whenever the exact computation delivers a result, so does the
    one with binary64 numbers; the rows of the images and of the thresholds, the ODS F1 and the AP are the
    exact ones up to the stated multiples of eps = 2^-53, and all scores lie in [0,1].  The OIS scores are
    those of the thresholds chosen in the rows (with nearly equal F1 values the choice can differ from the
    exact one). *)
Theorem rounding_is_harmless : forall thr th thf samples rows trs ov,
  check_thresholds thr = Ok th -> List.length thf = List.length th -> summarise thr samples = Ok (rows, trs, ov) ->
  (forall s, In s samples -> sane (snd s)) -> countable samples ->
  exists frows ftrs fov choice, fsummarise thf samples = Ok (frows, ftrs, fov) /\
    rows_near thf samples rows frows choice /\
    Forall2 threshold_near trs ftrs /\ map fs_t ftrs = thf /\
    near 52 (fs_f (fODS fov)) (ODS_f1 ov) /\ in_unit (fs_f (fODS fov)) /\ in_unit (fs_r (fODS fov)) /\ in_unit (fs_p (fODS fov)) /\
    Rabs (fs_f (fODS fov) - harmonic (fs_p (fODS fov)) (fs_r (fODS fov))) <= 4 * eps /\
    (exists i k, (i < List.length th)%nat /\ (0 <= k <= 100)%Z /\ on_segment thf trs (fODS fov) i k) /\
    (let r := recall (chosen count_r samples choice) (chosen sum_r samples choice) in
     let p := precision (chosen count_p samples choice) (chosen sum_p samples choice) in
     near 1 (fOIS_recall fov) r /\ near 1 (fOIS_precision fov) p /\ near 8 (fOIS_f1 fov) (f1 p r)) /\
    in_unit (fOIS_recall fov) /\ in_unit (fOIS_precision fov) /\ in_unit (fOIS_f1 fov) /\
    in_unit (fAP fov) /\ (off_grid samples (List.length th) -> near 300 (fAP fov) (AP ov)).
Proof.
  intros thr th thf samples rows trs ov Eth Lth Es Sa Cn. destruct (summarise_ok_inv thr samples th rows trs ov Eth Es) as (N & Sh & ods & Ei & Ef). unfold finish in Ef. injection Ef as -> -> ->.
  set (n := List.length th) in *. assert (Hn : (0 < n)%nat) by (unfold n; destruct th; [congruence|cbn; lia]). set (T := totals n samples) in *.
  assert (ST : shaped n T) by (apply totals_shaped, Sh). assert (SaT : sane T) by (apply totals_sane; assumption).
  assert (Tot : forall i, (total sum_r i samples <= 2 ^ 53 /\ total sum_p i samples <= 2 ^ 53)%Z) by (intros i; rewrite !total_chosen; apply Cn, repeat_length).
  assert (BT : bounded T). { intros i. destruct (SaT i) as [X Y]. destruct (totals_at n samples i Sh) as (_ & E2 & _ & E4). fold T in E2, E4. specialize (Tot i). lia. }
  assert (Zn : forall i, nth i (repeat 0%Z n) 0%Z = 0%Z) by (intros i; apply nth_repeat).
  destruct (floop_ok thf ltac:(lia) samples th (zero_counts n) (mkBest 0 0 0 0) [] ltac:(lia)) as (choice & frows & Lc & E & R).
  { rewrite Lth. exact Sh. } { exact Sa. } { rewrite Lth. apply zero_shaped. } { split; cbn; lia. }
  { intros i. cbn [zero_counts count_r sum_r count_p sum_p]. rewrite !Zn. lia. } { intros i. cbn [zero_counts count_r sum_r count_p sum_p]. rewrite !Zn. apply Tot. } { intros ch L. cbn [b_sr b_sp]. apply Cn, L. }
  cbn [b_cr b_sr b_cp b_sp] in E. rewrite !Z.add_0_l in E. change (fold_left add_counts (map snd samples) (zero_counts n)) with T in E. cbn [app] in E.
  assert (E0 : freal (zero_counts n) = fzeros (List.length thf)) by (unfold freal, zero_counts, fzeros; cbn [count_r sum_r count_p sum_p]; rewrite Lth; fold n; rewrite !map_repeat_R; reflexivity).
  rewrite E0 in E. unfold real_best at 1 in E. cbn [b_cr b_sr b_cp b_sp] in E. unfold fsummarise. rewrite E. cbn [bind]. destruct thf as [|t0 thf0] eqn:Et; [cbn in Lth; lia|]. rewrite <- Et in *. clear Et t0 thf0.
  assert (Hr : forall i, (i < n)%nat -> ratio_like (nth i (frecs (freal T)) 0) /\ Rabs (nth i (frecs (freal T)) 0 - Q2R (nth i (recs T) 0%Q)) <= u /\ 0 <= Q2R (nth i (recs T) 0%Q) <= 1) by (intros i I; rewrite (nth_recs n T i ST I); apply (frec_spec n T ST BT i I)).
  assert (Hp : forall i, (i < n)%nat -> ratio_like (nth i (fprecs (freal T)) 0) /\ Rabs (nth i (fprecs (freal T)) 0 - Q2R (nth i (precs T) 0%Q)) <= u /\ 0 <= Q2R (nth i (precs T) 0%Q) <= 1) by (intros i I; rewrite (nth_precs n T i ST I); apply (fprec_spec n T ST BT i I)).
  eexists frows, _, _, choice. split; [reflexivity|]. split; [exact R|]. cbn [fODS fOIS_recall fOIS_precision fOIS_f1 fAP ODS_f1 AP sc_f].
  assert (U := u_pos).
  assert (G0 : ratio_like (nth 0 (frecs (freal T)) 0) -> Rabs (nth 0 (frecs (freal T)) 0 - Q2R (nth 0 (recs T) 0%Q)) <= u -> ratio_like (nth 0 (fprecs (freal T)) 0) -> Rabs (nth 0 (fprecs (freal T)) 0 - Q2R (nth 0 (precs T) 0%Q)) <= u ->
    good n thf (recs T) (precs T) (mkFS (nth 0 thf 0) (nth 0 (frecs (freal T)) 0) (nth 0 (fprecs (freal T)) 0) (ff1 (nth 0 (fprecs (freal T)) 0) (nth 0 (frecs (freal T)) 0)))).
  { intros A1 A2 B1 B2. split; [apply ratio_like_score, A1|]. split; [apply ratio_like_score, B1|]. split; [reflexivity|]. exists 0%nat, 0%Z. split; [exact Hn|]. split; [lia|]. unfold point. cbn [fs_r fs_p fs_t Nat.sub].
    assert (X : forall a, a * (0 / 100) + a * (1 - 0 / 100) = a) by (intros a; field). rewrite !X. split; [lra|]. split; [lra|]. intros _. rewrite Rminus_eq_0, Rabs_R0. lra. }
  split; [|split; [|split]].
  - rewrite Lth. fold n. apply Forall2_map_map. intros i I. apply in_seq in I. assert (Ii : (i < n)%nat) by lia. unfold threshold_near, near, in_unit, sc_r, sc_p, sc_f. cbn [fs_r fs_p fs_f fst snd]. rewrite eps_u, Rmult_1_l.
    destruct (Hr i Ii) as (A1 & A2 & _). destruct (Hp i Ii) as (B1 & B2 & _). destruct (ff1_spec n T ST BT i Ii) as (_ & C2 & C3).
    split; [exact A2|]. split; [exact B2|]. split; [rewrite (nth_f1s n T i ST Ii); exact C2|]. split; [apply ratio_like_range, A1|]. split; [apply ratio_like_range, B1|exact C3].
  - rewrite map_map. cbn [fs_t]. rewrite Lth. fold n. clear - Lth. fold n in Lth. revert Lth. generalize n. clear n. induction thf as [|x l IH]; intros [|m] L; try discriminate; [reflexivity|]. cbn [seq map nth]. f_equal. rewrite <- seq_shift, map_map. cbn [nth]. apply IH. cbn in L. lia.
  - (* ODS *) unfold interpolated_max_scores in Ei.
    assert (Eo : ods = fold_left (ims_step th (recs T) (precs T)) (ims_points n) (nth 0 th 0%Q, nth 0 (recs T) 0%Q, nth 0 (precs T) 0%Q, f1 (nth 0 (precs T) 0%Q) (nth 0 (recs T) 0%Q))).
    { destruct th as [|t0 th0] eqn:Q1; [congruence|]. destruct (recs T) as [|r0 l0] eqn:Q2; [discriminate|]. destruct (precs T) as [|p0 l1] eqn:Q3; [discriminate|]. destruct (_ || _)%bool; [discriminate|]. injection Ei as <-. reflexivity. }
    destruct (Hr 0%nat Hn) as (A1 & A2 & A3). destruct (Hp 0%nat Hn) as (B1 & B2 & B3).
    destruct (ims_fold_close n th thf (recs T) (precs T) (frecs (freal T)) (fprecs (freal T)) Hr Hp (ims_points n)
      (fun i k H => ims_points_in n i k H) (mkFS (nth 0 thf 0) (nth 0 (frecs (freal T)) 0) (nth 0 (fprecs (freal T)) 0) (ff1 (nth 0 (fprecs (freal T)) 0) (nth 0 (frecs (freal T)) 0)))
      (nth 0 th 0%Q, nth 0 (recs T) 0%Q, nth 0 (precs T) 0%Q, f1 (nth 0 (precs T) 0%Q) (nth 0 (recs T) 0%Q))) as [G D].
    + apply G0; [exact A1|exact A2|exact B1|exact B2].
    + cbn [fs_f]. unfold sc_f. cbn [snd]. rewrite Q2R_f1 by lra. assert (X := ff1_close _ _ _ _ u (ratio_like_score _ B1) (ratio_like_score _ A1) (proj1 B3) (proj1 A3) B2 A2). lra.
    + rewrite <- Eo in D. unfold finterpolated_max_scores in *. rewrite Lth. fold n. set (b := fold_left (fims_step _ _ _) _ _) in *. unfold near, in_unit. rewrite eps_u. exact D.
  - assert (GO : good n thf (recs T) (precs T) (finterpolated_max_scores thf (frecs (freal T)) (fprecs (freal T)))).
    { destruct (Hr 0%nat Hn) as (A1 & A2 & A3). destruct (Hp 0%nat Hn) as (B1 & B2 & B3).
      destruct (ims_fold_close n th thf (recs T) (precs T) (frecs (freal T)) (fprecs (freal T)) Hr Hp (ims_points n)
      (fun i k H => ims_points_in n i k H) (mkFS (nth 0 thf 0) (nth 0 (frecs (freal T)) 0) (nth 0 (fprecs (freal T)) 0) (ff1 (nth 0 (fprecs (freal T)) 0) (nth 0 (frecs (freal T)) 0)))
      (nth 0 th 0%Q, nth 0 (recs T) 0%Q, nth 0 (precs T) 0%Q, f1 (nth 0 (precs T) 0%Q) (nth 0 (recs T) 0%Q))) as [G D].
      + apply G0; [exact A1|exact A2|exact B1|exact B2].
      + cbn [fs_f]. unfold sc_f. cbn [snd]. rewrite Q2R_f1 by lra. assert (X := ff1_close _ _ _ _ u (ratio_like_score _ B1) (ratio_like_score _ A1) (proj1 B3) (proj1 A3) B2 A2). lra.
      + unfold finterpolated_max_scores. rewrite Lth. exact G. }
    set (b := finterpolated_max_scores thf (frecs (freal T)) (fprecs (freal T))) in *. clearbody b. destruct GO as (G1 & G2 & G3 & G4).
    split; [rewrite G3; apply ff1_range; assumption|]. split; [apply score_like_range, G1|]. split; [apply score_like_range, G2|]. split; [rewrite G3, eps_u; apply ff1_error; assumption|].
    split.
    { destruct G4 as (i & k & I & K & P1 & P2 & P3). exists i, k. split; [exact I|]. split; [exact K|]. assert (J : (i - 1 < n)%nat) by lia. unfold on_segment. rewrite eps_u.
      assert (NT : forall j, (j < n)%nat -> nth j (map (fun i => (nth i th 0%Q, nth i (recs T) 0%Q, nth i (precs T) 0%Q, nth i (f1s T) 0%Q)) (seq 0 n)) (0, 0, 0, 0)%Q = (nth j th 0%Q, nth j (recs T) 0%Q, nth j (precs T) 0%Q, nth j (f1s T) 0%Q)) by (intros j Hj; erewrite nth_indep by (rewrite map_length, seq_length; exact Hj); rewrite (map_nth (fun i => (nth i th 0%Q, nth i (recs T) 0%Q, nth i (precs T) 0%Q, nth i (f1s T) 0%Q)) (seq 0 n) 0%nat j), seq_nth by exact Hj; reflexivity).
      rewrite !NT by assumption. unfold sc_r, sc_p. cbn [fst snd].
      assert (X : forall a c, along a c k = c * (IZR k / 100) + a * (1 - IZR k / 100)) by (intros a c; unfold along; field). rewrite !X. split; [exact P1|]. split; [exact P2|].
      intros F. apply P3. intros j. destruct (Nat.lt_ge_cases j (List.length thf)) as [Q|Q]; [exact (proj1 (Forall_forall _ _) F _ (nth_In thf 0 Q))|]. rewrite nth_overflow by exact Q. lra. }
    assert (Cs : (0 <= chosen count_r samples choice <= chosen sum_r samples choice /\ 0 <= chosen count_p samples choice <= chosen sum_p samples choice)%Z).
    { clear - Sa. revert choice. induction samples as [|s l IH]; intros [|i choice]; cbn [chosen]; try lia. specialize (IH ltac:(intros; apply Sa; right; assumption) choice). destruct (Sa s (or_introl eq_refl) i). lia. }
    destruct (Cn choice Lc) as [C1 C2]. destruct (rounded_scores _ _ _ _ (proj1 Cs) (proj2 Cs) C1 C2) as (O1 & O2 & O3 & O4 & O5 & O6). unfold real_best. cbn [fb_cr fb_sr fb_cp fb_sp b_cr b_sr b_cp b_sp].
    split; [split; [exact O1|]; split; [exact O2|exact O3]|]. split; [exact O4|]. split; [exact O5|]. split; [exact O6|].
    assert (Fp : Forall (fun x => 0 <= x <= 1) (fprecs (freal T))). { apply Forall_forall. intros x I. apply (In_nth _ _ 0) in I. destruct I as (i & I & <-). rewrite (fprecs_length n T ST) in I. apply ratio_like_range, Hp, I. }
    split; [unfold in_unit; assert (X := fap_range (frecs (freal T)) (fprecs (freal T)) Fp); lra|].
    intros Off. unfold near. rewrite eps_u. unfold faverage_precision, average_precision.
    assert (Gc : Forall2 (fun t t0 => Rabs (fap_at t (frecs (freal T)) (fprecs (freal T)) - Q2R (ap_at t0 (recs T) (precs T))) <= u) fgrid grid).
    { unfold fgrid, grid. apply Forall2_map_map. intros k I. assert (K : (0 <= k <= 99)%Z) by (unfold zseq in I; apply in_map_iff in I; destruct I as (m & <- & I); apply in_seq in I; lia). apply ap_filter.
      - apply (Forall2_nth _ 0 0%Q _ _ n); [apply frecs_length, ST|apply recs_length, ST|]. intros i Ii. destruct (Hr i Ii) as (A1 & A2 & A3).
        replace (Q2R (inject_Z k / 100)) with (IZR k / 100) by (rewrite Q2R_div by discriminate; rewrite Q2R_IZR; f_equal; unfold Q2R; cbn; lra).
        apply level_sides; [exact K|apply ratio_like_range, A1|lra|exact A2|]. intros K1. rewrite <- eps_u. rewrite (nth_recs n T i ST Ii). unfold rec_at. destruct (totals_at n samples i Sh) as (X1 & X2 & _). fold T in X1, X2. rewrite X1, X2. apply Off; [exact Ii|lia].
      - apply (Forall2_nth _ 0 0%Q _ _ n); [apply fprecs_length, ST|apply precs_length, ST|]. intros i Ii. destruct (Hp i Ii) as (A1 & A2 & A3). split; [apply ratio_like_range, A1|exact A2]. }
    assert (X := ap_fold_close (fun t => fap_at t (frecs (freal T)) (fprecs (freal T))) (fun t0 => ap_at t0 (recs T) (precs T)) fgrid grid (fun t => fap_at_range t _ _ Fp) Gc 0 0%Q 0%Z ltac:(lra) ltac:(lia) ltac:(rewrite fgrid_length; lia) ltac:(rewrite Q2R_0, Rminus_0_r, Rabs_R0; lra)).
    rewrite fgrid_length in X. replace (300 * u) with (IZR (0 + Z.of_nat 100) * (3 * u)); [exact X|]. change (0 + Z.of_nat 100)%Z with 100%Z. lra.
Qed.
Print Assumptions rounding_is_harmless.

(** *** C56, theorem 3: the condition on the recalls in theorem 2 is needed.  [np.arange(0, 1, 0.01)[35]] is larger
    than the binary64 number 35 / 100, so a recall of exactly 0.35 does not reach the level 0.35 and the AP
    loses one of its 101 terms. *)
Definition ex_level := ("a"%string, mkCounts [35]%Z [100]%Z [35]%Z [35]%Z).
Lemma ex_level_sane : forall s, In s [ex_level] -> sane (snd s).
Proof. intros s [<-|[]] i; destruct i as [|[|i]]; simpl; lia. Qed.
Lemma ex_level_countable : countable [ex_level].
Proof. intros [|i [|j l]] H; try discriminate. destruct i as [|[|i]]; cbn; lia. Qed.
Lemma level_35 : rnd (35 / 100) < fstep 35.
Proof.
  unfold fstep, fmul, hundredth. cbn [Z.eqb Pos.eqb].
  rewrite (rnd_value (1 / 100) (-6) 5764607523034235) by (try lia; simpl; rewrite ?Rabs_pos_eq by lra; try lra; unfold Rabs; destruct (Rcase_abs _); lra).
  rewrite (rnd_value (35 / 100) (-1) 6305039478318694) by (try lia; simpl; rewrite ?Rabs_pos_eq by lra; try lra; unfold Rabs; destruct (Rcase_abs _); lra).
  rewrite (rnd_value (35 * _) (-1) 6305039478318695) by (try lia; simpl; rewrite ?Rabs_pos_eq by lra; try lra; unfold Rabs; destruct (Rcase_abs _); lra).
  simpl. lra.
Qed.
Lemma fadd_0_int k : (Z.abs k <= 2 ^ 53)%Z -> fadd 0 (IZR k) = IZR k.
Proof. intros H. unfold fadd. rewrite Rplus_0_l. apply rnd_int, H. Qed.
Lemma fstep_le_35 k : (0 <= k <= 99)%Z -> fstep k <= rnd (35 / 100) <-> IZR k / 100 <= 345 / 1000.
Proof.
  intros K. assert (U := u_pos). assert (V := u_small). destruct (fstep_spec k ltac:(lia)) as (_ & _ & E & _). apply Rabs_le_inv in E. assert (D := rnd_abs1 (35 / 100) ltac:(lra)). apply Rabs_le_inv in D.
  destruct (Z_lt_le_dec k 35) as [H|H]; [assert (IZR k <= 34) by (apply IZR_le; lia); lra|]. destruct (Z.eq_dec k 35) as [->|N]; [assert (X := level_35); lra|]. assert (36 <= IZR k) by (apply IZR_le; lia). lra.
Qed.
Theorem rounding_can_lose_a_level : forall t : R, exists rows trs ov frows ftrs fov,
  summarise (AFloat (1#2)) [ex_level] = Ok (rows, trs, ov) /\ fsummarise [t] [ex_level] = Ok (frows, ftrs, fov) /\
  (AP ov == 36 # 101)%Q /\ Rabs (fAP fov - 35 / 101) <= 300 * eps.
Proof.
  intros t. do 3 eexists. do 3 eexists. split; [reflexivity|]. split; [reflexivity|]. cbn [AP fAP]. split; [vm_compute; reflexivity|].
  assert (A35 : fadd 0 35 = 35) by (apply (fadd_0_int 35); lia). assert (A100 : fadd 0 100 = 100) by (apply (fadd_0_int 100); lia).
  match goal with |- Rabs (?x - _) <= _ => change x with (faverage_precision [fratio (fadd 0 35) (fadd 0 100)] [fratio (fadd 0 35) (fadd 0 35)]) end. rewrite A35, A100.
  assert (R1 : fratio 35 100 = rnd (35 / 100)).
  { unfold fratio, fdiv, fzero. destruct (Req_EM_T 100 0) as [X|_]; [lra|]. unfold fadd. rewrite Rplus_0_r, (rnd_int 100) by lia. reflexivity. }
  assert (P1 : fratio 35 35 = 1).
  { unfold fratio, fdiv, fzero. destruct (Req_EM_T 35 0) as [X|_]; [lra|]. unfold fadd. rewrite Rplus_0_r, (rnd_int 35) by lia. replace (35 / 35) with 1 by field. apply rnd_1. }
  rewrite R1, P1. rewrite eps_u. unfold faverage_precision.
  assert (Gc : Forall2 (fun t t0 => Rabs (fap_at t [rnd (35 / 100)] [1] - Q2R (ap_at t0 [345 # 1000]%Q [1]%Q)) <= u) fgrid grid).
  { unfold fgrid, grid. apply Forall2_map_map. intros k I. assert (K : (0 <= k <= 99)%Z) by (unfold zseq in I; apply in_map_iff in I; destruct I as (m & <- & I); apply in_seq in I; lia). apply ap_filter.
    - constructor; [|constructor]. replace (Q2R (inject_Z k / 100)) with (IZR k / 100) by (rewrite Q2R_div by discriminate; rewrite Q2R_IZR; f_equal; unfold Q2R; cbn; lra).
      replace (Q2R (345 # 1000)) with (345 / 1000) by (unfold Q2R; cbn; lra). apply fstep_le_35, K.
    - constructor; [|constructor]. split; [lra|]. replace (Q2R 1) with 1 by (unfold Q2R; cbn; lra). rewrite Rminus_eq_0, Rabs_R0. apply Rlt_le, u_pos. }
  assert (Fp : Forall (fun x => 0 <= x <= 1) [1]) by (constructor; [lra|constructor]).
  assert (X := ap_fold_close (fun t => fap_at t [rnd (35 / 100)] [1]) (fun t0 => ap_at t0 [345 # 1000]%Q [1]%Q) fgrid grid (fun t => fap_at_range t _ _ Fp) Gc 0 0%Q 0%Z ltac:(lra) ltac:(lia) ltac:(rewrite fgrid_length; lia) ltac:(rewrite Q2R_0, Rminus_0_r, Rabs_R0; lra)).
  rewrite fgrid_length in X. change (0 + Z.of_nat 100)%Z with 100%Z in X.
  assert (V : Q2R (fold_left (fun a t0 => (a + ap_at t0 [345 # 1000] [1] / 101)%Q) grid 0%Q) = 35 / 101).
  { transitivity (Q2R (35 # 101)); [apply Qeq_eqR; vm_compute; reflexivity|unfold Q2R; cbn; lra]. }
  rewrite V in X. lra.
Qed.
Print Assumptions rounding_can_lose_a_level.

(** ** Concrete case meeting the hypotheses of theorem 2, the condition on the recalls included *)
Definition ex_ra := ("a"%string, mkCounts [3;2;1]%Z [4;4;4]%Z [3;2;1]%Z [6;3;1]%Z).
Definition ex_rb := ("b"%string, mkCounts [1;1;0]%Z [3;3;3]%Z [1;1;0]%Z [5;1;0]%Z).
Example ex_rounding : exists rows trs ov, summarise (AInt 3) [ex_ra; ex_rb] = Ok (rows, trs, ov) /\
  (forall s, In s [ex_ra; ex_rb] -> sane (snd s)) /\ countable [ex_ra; ex_rb] /\ off_grid [ex_ra; ex_rb] 3.
Proof.
  do 3 eexists. split; [reflexivity|]. split; [|split].
  - intros s [<-|[<-|[]]] i; destruct i as [|[|[|[|i]]]]; simpl; lia.
  - intros [|i [|j [|k l]]] H; try discriminate. destruct i as [|[|[|[|i]]]], j as [|[|[|[|j]]]]; cbn; lia.
  - intros i k I K. assert (U := u_small). rewrite eps_u. assert (D : forall a, (a = 4 \/ a = 3 \/ a = 1)%Z -> 3 * u < Rabs (IZR a / 7 - IZR k / 100)).
    { intros a A. replace (IZR a / 7 - IZR k / 100) with (IZR (100 * a - 7 * k) / 700) by (rewrite minus_IZR, !mult_IZR; field).
      assert (X : (100 * a - 7 * k <= -1 \/ 1 <= 100 * a - 7 * k)%Z) by lia. destruct X as [X|X]; apply IZR_le in X; unfold Rabs; destruct (Rcase_abs _); lra. }
    destruct i as [|[|[|i]]]; [| | |lia]; cbn [total ex_ra ex_rb map snd count_r sum_r nth zsum fold_right Z.add]; unfold recall; rewrite Q2R_div by discriminate; rewrite !Q2R_IZR; apply D; auto.
Qed.
