(** Proofs about the evaluation in doubles: one threshold, all thresholds. *)
From Verif Require Import ProofsEval2 PropertiesEval PropertiesEval3 SpecEvalF ModelEvalF ProofsFloat ProofsCSA64 ProofsMatchF ProofsMatchF2 ProofsMatchF3 SpecMatchF PropertiesMatchF PropertiesMatchF2 PropertiesThreshF ProofsEvalF.
From Verif Require Import ProofsMetrics2.
From Coq Require Import Lia Lra Psatz Qreals ZifyBool ZifyNat.
Open Scope Z_scope.
Open Scope list_scope.
Notation nonzero := ModelThin.nonzero.

Lemma few_mono k N h w K K' : few k N h w K' -> (K <= K')%nat -> few k N h w K.
Proof.
  intros (W & W1 & Wd & Sz) L. exists W. split; [exact W1|]. split; [exact Wd|]. eapply Z.le_trans; [|exact Sz]. apply Z.mul_le_mono_nonneg_r; [lia|]. apply Z.pow_le_mono_l. lia.
Qed.
Lemma thin_count thin b : wf b -> (count_true (maybe_thin thin b) <= count_true b)%nat.
Proof.
  intros W. unfold maybe_thin. destruct thin; [|apply le_n]. destruct (binary_thin None (Bin b)) as [r|] eqn:E; [|apply le_n].
  destruct (binary_thin_shrinks None (Bin b) r W E) as (Wr & [S1 S2] & H). cbn [as_bool] in S1, S2, H. apply count_true_le; try assumption. split; congruence.
Qed.
Lemma killed_count p g seg tol p' : wf p -> killed p g seg tol p' -> (count_true p' <= count_true p)%nat.
Proof. intros Wp (W & S & H). apply count_true_le; try assumption. intros y x E. apply H in E. apply E. Qed.

Section Tol2.
Variables (k N : positive) (small : Prop).
Let max_dist : Q := (Zpos k # N).
Let D := rnd (IZR (Zpos k) / IZR (Zpos N)).
Lemma md_pos : (0 < max_dist)%Q. Proof. reflexivity. Qed.

(** ** kill_internal *)
Lemma ffar_eq gt h w y x : usable k N h w -> ffar_from gt D h w y x = far_from gt max_dist h w y x.
Proof.
  intros Us. unfold ffar_from, far_from. destruct (edt2 _ y x) as [d|] eqn:E; [|reflexivity].
  apply edt2_some in E. destruct E as [(y' & x' & _ & ->) _]. unfold D. rewrite (tol_buffer k N h w Us) by apply sqd_nonneg. fold max_dist.
  replace (qlt max_dist 0) with false; [reflexivity|]. symmetry. destruct (qlt max_dist 0) eqn:Q; [|reflexivity]. apply qlt_spec in Q. assert (P := md_pos). exfalso. exact (Qlt_irrefl _ (Qlt_trans _ _ _ Q P)).
Qed.
Lemma fkill_eq p gt seg : usable k N (ht p) (wd p) -> fkill_internal_prediction p gt seg D = kill_internal_prediction p gt seg max_dist.
Proof.
  intros Us. unfold fkill_internal_prediction, kill_internal_prediction. destruct (negb _); [reflexivity|]. destruct (negb _); [reflexivity|]. f_equal.
  apply tab_ext. intros y x _. cbv beta zeta. rewrite (ffar_eq gt _ _ y x Us). reflexivity.
Qed.

(** ** Matching *)
Lemma fcorrespond_safe p g : wf (nonzero p) -> wf (nonzero g) -> same_shape p g -> usable k N (ht p) (wd p) ->
  (small -> few k N (ht p) (wd p) (count_true (nonzero p) + count_true (nonzero g))) -> forall s, raw_values s ->
  evaluates small (fun F P => fcorrespond F P p g D) s (fun o => is_correspondence (nonzero p) (nonzero g) (tolerance2 max_dist (nonzero p)) (fm1 o) (fm2 o)).
Proof.
  intros Wp Wg [S1 S2] Us Fw s V. unfold fcorrespond. split; cycle 1.
  { intros Sm. destruct (tol_few k N _ _ Us (nonzero p) _ eq_refl eq_refl (Fw Sm)) as (W & HW & Sz & W0).
    destruct (rounded_correspondence_is_nearly_optimal (nonzero p) (nonzero g) D 100 s W Wp Wg (conj S1 S2) (tol_sane k N _ _ Us (nonzero p) eq_refl eq_refl) V HW Sz) as (F & P & out & s' & E & _).
    exists F, P, out, s'. intros fuel pfuel Hf Hp. rewrite (E fuel pfuel Hf Hp). reflexivity. }
  intros fuel pfuel.
  assert (C1 := tol_count k N _ _ Us (nonzero p) Wp eq_refl eq_refl). assert (C2 := tol_count k N _ _ Us (nonzero g) Wg (eq_sym S1) (eq_sym S2)).
  assert (Us' := Us). destruct Us' as (_ & _ & _ & _ & _ & Kz & Nd).
  destruct (decimal_tolerances_are_exact (nonzero p) (nonzero g) k N 100 fuel pfuel s Wp Wg (conj S1 S2) (tol_sane k N _ _ Us (nonzero p) eq_refl eq_refl) V ltac:(lia) Kz) as (r & E & H).
  { intros n C. apply (Nd n). unfold tolerance2, Qeq in C. cbn [Qnum Qden inject_Z Qmult nonzero imap ht wd] in C. rewrite !Pos2Z.inj_mul, Z.mul_1_r in C. lia. }
  fold D in E. rewrite E. cbn [bind]. destruct r as [[[o c] s']|].
  - exists (Some (o, s')). split; [reflexivity|]. intros a s1 X. injection X as <- <-. split; [exact (fcorrespond_raw _ _ _ _ _ _ _ _ _ _ E V)|]. exact (proj1 (H o c s' eq_refl)).
  - exists None. split; [reflexivity|]. discriminate.
Qed.
Lemma fscore_safe p gt : wf p -> wf gt -> binary gt -> same_shape p gt -> usable k N (ht p) (wd p) ->
  (small -> few k N (ht p) (wd p) (count_true p + count_true (nonzero gt))) -> forall s, raw_values s ->
  evaluates small (fun F P => fscore_against F P (imap b2z p) gt D) s (row_ok p (nonzero gt) (tolerance2 max_dist p)).
Proof.
  intros Wp Wg Bg Sh Us Fw s V. unfold fscore_against.
  assert (Wg' : wf (nonzero gt)) by apply wf_imap, Wg.
  apply (safe_then small (fun F P => fcorrespond F P (imap b2z p) gt D) _ s
     (fun o => is_correspondence p (nonzero gt) (tolerance2 max_dist p) (fm1 o) (fm2 o))).
  - assert (X := fcorrespond_safe (imap b2z p) gt). rewrite nonzero_b2z in X. apply X; auto.
  - intros o s' V' K. apply safe_ret; [exact V'|]. exists (fm1 o), (fm2 o). cbn [cr sr cp sp]. split; [exact K|].
    assert (Sh' : same_shape p (nonzero gt)) by exact Sh.
    split; [f_equal; apply (positives_count (nonzero gt) p (tolerance2 max_dist p) (fm2 o) (fm1 o)); [exact Wg'|exact Wp|split; symmetry; apply Sh'|exact (correspondence_sym _ _ _ _ _ K)]|].
    split; [rewrite (binary_is_b2z gt Wg Bg) at 1; apply img_sum_binary|].
    split; [f_equal; exact (positives_count p (nonzero gt) _ (fm1 o) (fm2 o) Wp Wg' Sh' K)|apply img_sum_binary].
Qed.

Lemma fgts_safe p : wf p -> usable k N (ht p) (wd p) ->
  forall gts done acc s, raw_values s -> Forall (fun gt => wf gt /\ binary gt /\ same_shape p gt) gts ->
  (small -> Forall (fun gt => few k N (ht p) (wd p) (count_true p + count_true (nonzero gt))) gts) ->
  acc_ok p (tolerance2 max_dist p) done acc ->
  evaluates small (fun F P => fgts_loop F P (imap b2z p) D gts acc) s (acc_ok p (tolerance2 max_dist p) (done ++ map nonzero gts)).
Proof.
  intros Wp Us. induction gts as [|gt gts IH]; intros done acc s V G Fw A.
  - cbn [map]. rewrite app_nil_r. apply safe_ret; assumption.
  - inversion G as [|? ? (Wg & Bg & Sh) G']. subst. cbn [fgts_loop].
    assert (Wg' : wf (nonzero gt)) by apply wf_imap, Wg. assert (Fw1 : small -> few k N (ht p) (wd p) (count_true p + count_true (nonzero gt))) by (intros Sm; specialize (Fw Sm); inversion Fw; assumption).
    assert (Fw2 : small -> Forall (fun gt => few k N (ht p) (wd p) (count_true p + count_true (nonzero gt))) gts) by (intros Sm; specialize (Fw Sm); inversion Fw; assumption).
    apply (safe_then small (fun F P => fcorrespond F P (imap b2z p) gt D) _ s
       (fun o => is_correspondence p (nonzero gt) (tolerance2 max_dist p) (fm1 o) (fm2 o))).
    + assert (X := fcorrespond_safe (imap b2z p) gt). rewrite nonzero_b2z in X. apply X; auto.
    + intros o s' V' K. cbn [map]. replace (done ++ nonzero gt :: map nonzero gts) with ((done ++ [nonzero gt]) ++ map nonzero gts) by (rewrite <- app_assoc; reflexivity).
      destruct acc as [[u sr] cr]. apply IH; [exact V'|exact G'|exact Fw2|]. destruct A as (ms & F2 & Wu & [U1 U2] & Um & -> & ->).
      exists (ms ++ [(fm1 o, fm2 o)]). split; [apply Forall2_app; [exact F2|constructor; [exact K|constructor]]|].
      split; [apply wf_tab|]. split; [split; reflexivity|]. assert (Sh' : same_shape p (nonzero gt)) by exact Sh.
      split; [|rewrite !map_app, !zsum_app; cbn [map zsum fold_right fst snd]; split].
      * intros y x. rewrite px_tab. cbn [imap ht wd]. rewrite (positives_eq p (nonzero gt) _ (fm1 o) (fm2 o) Wp Wg' Sh' K).
        assert (X := px_imap (fun v => negb (v =? 0)) 0 (fm1 o) y x). cbv beta in X. change (negb (0 =? 0)) with false in X. rewrite X.
        assert (Split : (exists m, In m (map fst (ms ++ [(fm1 o, fm2 o)])) /\ px 0 m y x <> 0) <->
                   (px false u y x = true \/ px 0 (fm1 o) y x <> 0)).
        { rewrite (Um y x), map_app. cbn [map fst]. split.
          - intros (m & I & Nm). apply in_app_iff in I. destruct I as [I|[<-|[]]]; [left; exists m; auto|right; exact Nm].
          - intros [(m & I & Nm)|Nm]; [exists m|exists (fm1 o)]; rewrite in_app_iff; cbn [In]; auto. }
        rewrite Split. destruct (inb (ht p) (wd p) y x) eqn:I.
        -- rewrite orb_true_iff, negb_true_iff, Z.eqb_neq. reflexivity.
        -- split; [discriminate|]. intros [C|C]; [rewrite px_out in C by (solve [exact Wu|rewrite U1, U2; exact I]); discriminate|].
           destruct K as (_ & _ & Kp & _). destruct (Kp y x C) as [C' _]. rewrite px_out in C' by assumption. discriminate.
      * rewrite (binary_is_b2z gt Wg Bg) at 1. rewrite img_sum_binary. lia.
      * rewrite (positives_count (nonzero gt) p (tolerance2 max_dist p) (fm2 o) (fm1 o) Wg' Wp (conj (eq_sym (proj1 Sh')) (eq_sym (proj2 Sh'))) (correspondence_sym _ _ _ _ _ K)). lia.
Qed.

(** ** One threshold: [ft] decides the pixels of [fp] as [t] decides those of [p] *)
Definition agree (M : nat) (fpred : image R) (pred : image Q) (t : Q) (ft : R) : Prop := fthresholded fpred ft = thresholded pred t /\ (count_true (thresholded pred t) <= M)%nat.

Lemma fstep_safe M fpred pred gt thin t ft s : agree M fpred pred t ft -> (small -> few k N (ht pred) (wd pred) (M + count_true (nonzero gt))) -> wf pred -> wf gt -> same_shape pred gt -> binary gt -> usable k N (ht pred) (wd pred) -> raw_values s ->
  evaluates small (fun F P => fbinary_step F P fpred gt D thin ft) s
    (fun a => exists p, predicted thin pred t p /\ counted p (nonzero gt) (tolerance2 max_dist (nonzero gt)) (cr a) (sr a) (cp a) (sp a)).
Proof.
  intros [Ag Ct] Fw Wp Wg [S1 S2] Bg Us V. unfold fbinary_step. rewrite Ag. set (p := maybe_thin thin (thresholded pred t)).
  assert (Hp : predicted thin pred t p) by (apply maybe_thin_predicted; exact Wp). destruct (predicted_wf _ _ _ _ Hp) as [Wq [Q1 Q2]].
  assert (Cp : (count_true p <= M)%nat) by (eapply Nat.le_trans; [apply thin_count, wf_imap, Wp|exact Ct]).
  assert (Fp : small -> few k N (ht p) (wd p) (count_true p + count_true (nonzero gt))) by (intros Sm; rewrite Q1, Q2; apply (few_mono _ _ _ _ _ _ (Fw Sm)); lia).
  assert (Sh : same_shape p gt) by (split; congruence).
  assert (T : tolerance2 max_dist (nonzero gt) = tolerance2 max_dist p) by (unfold tolerance2; cbn [nonzero imap ht wd]; rewrite Q1, Q2, S1, S2; reflexivity).
  assert (X : evaluates small (fun F P => if any_nonzero gt then fscore_against F P (imap b2z p) gt D else ret (mkR4 0 0 0 (img_sum (imap b2z p)))) s
                (row_ok p (nonzero gt) (tolerance2 max_dist p))).
  { destruct (any_nonzero gt) eqn:A.
    - apply fscore_safe; try assumption. rewrite Q1, Q2. exact Us.
    - apply safe_ret; [exact V|]. apply empty_row; assumption. }
  eapply safe_weaken; [exact X|]. intros a K. exists p. split; [exact Hp|]. rewrite T. exact K.
Qed.
Lemma fmulti_step_safe M fpred pred gt seg thin kill t ft s : agree M fpred pred t ft -> (small -> few k N (ht pred) (wd pred) (M + count_true (nonzero gt))) -> wf pred -> wf gt -> wf seg -> same_shape pred gt -> same_shape gt seg -> binary gt -> usable k N (ht pred) (wd pred) -> raw_values s ->
  evaluates small (fun F P => fmulti_label_step F P fpred gt (Some (SegBool seg)) D thin kill ft) s
    (fun a => exists p, counted_pixels thin kill pred t (nonzero gt) seg (tolerance2 max_dist (nonzero gt)) p /\
                counted p (nonzero gt) (tolerance2 max_dist (nonzero gt)) (cr a) (sr a) (cp a) (sp a)).
Proof.
  intros [Ag Ct] Fw Wp Wg Ws [S1 S2] Sg Bg Us V. unfold fmulti_label_step. rewrite Ag. set (p := maybe_thin thin (thresholded pred t)).
  assert (Hp : predicted thin pred t p) by (apply maybe_thin_predicted; exact Wp). destruct (predicted_wf _ _ _ _ Hp) as [Wq [Q1 Q2]].
  assert (Cp : (count_true p <= M)%nat) by (eapply Nat.le_trans; [apply thin_count, wf_imap, Wp|exact Ct]).
  assert (Fp : small -> few k N (ht p) (wd p) (count_true p + count_true (nonzero gt))) by (intros Sm; rewrite Q1, Q2; apply (few_mono _ _ _ _ _ _ (Fw Sm)); lia).
  assert (Sh : same_shape p gt) by (split; congruence).
  assert (T : tolerance2 max_dist (nonzero gt) = tolerance2 max_dist p) by (unfold tolerance2; cbn [nonzero imap ht wd]; rewrite Q1, Q2, S1, S2; reflexivity).
  assert (Up : usable k N (ht p) (wd p)) by (rewrite Q1, Q2; exact Us).
  rewrite T. destruct (any_nonzero gt) eqn:A.
  - destruct kill.
    + destruct (kill_spec p gt seg max_dist Wq Wg Ws Bg Sg (conj (eq_sym (proj1 Sh)) (eq_sym (proj2 Sh))) md_pos) as (p' & Ek & K). rewrite <- fkill_eq in Ek by exact Up. rewrite Ek. cbn [bind].
      assert (K' := K). destruct K' as (Wk & [K1 K2] & _).
      eapply (safe_ext small (fun F P => fscore_against F P (imap b2z p') gt D)); [reflexivity|].
      eapply safe_weaken; [apply fscore_safe; try assumption; [split; destruct Sh; congruence|rewrite K1, K2; exact Up|intros Sm; rewrite K1, K2; apply (few_mono _ _ _ _ _ _ (Fp Sm)); assert (Kc := killed_count _ _ _ _ _ Wq K); lia]|].
      intros a R. exists p'. split.
      * exists p. split; [exact Hp|]. left. split; [|exact K]. destruct (any_true (nonzero gt)) eqn:X; [apply any_true_spec; [apply wf_imap, Wg|exact X]|].
        exfalso. rewrite any_true_nonzero in X by exact Wg. congruence.
      * unfold row_ok in R. replace (tolerance2 max_dist p') with (tolerance2 max_dist p) in R by (unfold tolerance2; rewrite K1, K2; reflexivity). exact R.
    + cbn [bind]. eapply (safe_ext small (fun F P => fscore_against F P (imap b2z p) gt D)); [reflexivity|].
      eapply safe_weaken; [apply fscore_safe; assumption|]. intros a R. exists p. split; [|exact R].
      exists p. split; [exact Hp|reflexivity].
  - eapply (safe_ext small (fun F P => ret (mkR4 0 0 0 (img_sum (imap b2z p))))); [reflexivity|]. apply safe_ret; [exact V|]. exists p. split; [|apply empty_row; assumption].
    exists p. split; [exact Hp|]. destruct kill; [|reflexivity]. right. split; [|reflexivity]. intros y x. assert (Z0 := proj1 (any_nonzero_spec gt Wg) A y x).
    destruct (px false (nonzero gt) y x) eqn:C; [|reflexivity]. exfalso. apply (edge_pixels_nonzero gt Wg) in C. contradiction.
Qed.

(** ** All thresholds *)
Lemma fbinary_safe M ths fths fpred pred gt g thin s : Forall2 (agree M fpred pred) ths fths -> (small -> few k N (ht pred) (wd pred) (M + count_true (nonzero gt))) -> wf pred -> wf gt -> same_shape pred gt -> binary gt -> edge_pixels gt g -> usable k N (ht pred) (wd pred) -> raw_values s ->
  evaluates small (fun F P => fevaluate_binary F P fths fpred gt D thin) s
    (fun c => per_threshold ths c (fun t cr sr cp sp => exists p, predicted thin pred t p /\ counted p g (tolerance2 max_dist g) cr sr cp sp)).
Proof.
  intros Ag Fw Wp Wg Sh Bg Hg Us V. rewrite (edge_pixels_unique gt g Wg Hg). unfold fevaluate_binary.
  apply (safe_then small (fun F P => forM (fbinary_step F P fpred gt D thin) fths) _ s
    (fun l => Forall2 (fun t a => exists p, predicted thin pred t p /\ counted p (nonzero gt) (tolerance2 max_dist (nonzero gt)) (cr a) (sr a) (cp a) (sp a)) ths l)).
  - apply (safe_forM small _ (agree M fpred pred)); [exact Ag|exact V|]. intros t ft s' At V'. apply (fstep_safe M); assumption.
  - intros l s' V' K. apply safe_ret; [exact V'|]. apply per_threshold_intro. exact K.
Qed.
Lemma fmultiple_safe M ths fths fpred pred gts gs thin s : Forall2 (agree M fpred pred) ths fths -> (small -> Forall (fun gt => few k N (ht pred) (wd pred) (M + count_true (nonzero gt))) gts) -> wf pred ->
  Forall (fun gt => wf gt /\ binary gt /\ same_shape pred gt) gts -> Forall2 edge_pixels gts gs -> usable k N (ht pred) (wd pred) -> raw_values s ->
  evaluates small (fun F P => fevaluate_multiple_gts F P fths fpred gts D thin) s
    (fun c => per_threshold ths c (fun t cr sr cp sp => exists p, predicted thin pred t p /\ counted_all p gs (tolerance2 max_dist p) cr sr cp sp)).
Proof.
  intros Ag Fw Wp G Hg Us V. unfold fevaluate_multiple_gts.
  assert (Eg : gs = map nonzero gts).
  { clear - G Hg. induction Hg as [|gt g gts gs H Hg IH]; [reflexivity|]. inversion G as [|? ? (Wg & _) G']. subst. cbn [map]. f_equal; [apply edge_pixels_unique; assumption|apply IH, G']. }
  subst gs.
  apply (safe_then small (fun F P => forM (fmulti_gt_step F P fpred gts D thin) fths) _ s
    (fun l => Forall2 (fun t a => exists p, predicted thin pred t p /\ counted_all p (map nonzero gts) (tolerance2 max_dist p) (cr a) (sr a) (cp a) (sp a)) ths l)).
  2: { intros l s' V' K. apply safe_ret; [exact V'|]. apply per_threshold_intro. exact K. }
  apply (safe_forM small _ (agree M fpred pred)); [exact Ag|exact V|]. intros t ft s' [At Ct] V'. unfold fmulti_gt_step. rewrite At. set (p := maybe_thin thin (thresholded pred t)).
  assert (Hp : predicted thin pred t p) by (apply maybe_thin_predicted; exact Wp). destruct (predicted_wf _ _ _ _ Hp) as [Wq [Q1 Q2]].
  apply (safe_then small (fun F P => fgts_loop F P (imap b2z p) D gts (tab (ht (imap b2z p)) (wd (imap b2z p)) (fun _ _ => false), 0, 0))
     (fun F P '(acc_prec, sum_r, count_r) => ret (mkR4 count_r sum_r (Z.of_nat (count_true acc_prec)) (img_sum (imap b2z p)))) s' (acc_ok p (tolerance2 max_dist p) (map nonzero gts))).
  - change (map nonzero gts) with ([] ++ map nonzero gts).
    apply (fgts_safe p Wq ltac:(rewrite Q1, Q2; exact Us) gts [] _ s' V').
    + eapply Forall_impl; [|exact G]. intros gt (A & B & [C1 C2]). split; [exact A|]. split; [exact B|split; congruence].
    + intros Sm. rewrite Q1, Q2. eapply Forall_impl; [|exact (Fw Sm)]. intros gt X. apply (few_mono _ _ _ _ _ _ X). assert (Cp : (count_true p <= M)%nat) by (eapply Nat.le_trans; [apply thin_count, wf_imap, Wp|exact Ct]). lia.
    + exists []. split; [constructor|]. split; [apply wf_tab|]. split; [split; reflexivity|]. split; [|split; reflexivity].
      intros y x. rewrite px_tab. split; [destruct (inb _ _ y x); discriminate|intros (m & [] & _)].
  - intros [[u sr] cr] s'' V'' (ms & F2 & Wu & Su & Um & -> & ->). apply safe_ret; [exact V''|]. cbn [ModelEval.cr ModelEval.sr cp sp]. exists p. split; [exact Hp|].
    exists ms. split; [exact F2|]. split; [reflexivity|]. split; [reflexivity|]. split; [exists u; auto|]. apply img_sum_binary.
Qed.
Lemma fclass_safe M ths fths fpred q gt g seg thin (kill : bool) skip s : Forall2 (agree M fpred q) ths fths -> (small -> few k N (ht q) (wd q) (M + count_true (nonzero gt))) ->
  wf q -> wf gt -> wf seg -> same_shape q gt -> same_shape gt seg -> binary gt -> edge_pixels gt g -> usable k N (ht q) (wd q) -> raw_values s ->
  evaluates small (fun F P => fevaluate_multi_label F P fths fpred gt (if kill then Some (SegBool seg) else None) D thin kill skip) s
    (fun c => per_threshold ths c (class_counts thin kill skip q g seg (tolerance2 max_dist g))).
Proof.
  intros Ag Fw Wq Wg Ws Sq Sg Bg Hg Us V. assert (Eg := edge_pixels_unique gt g Wg Hg).
  destruct (skip && negb (any_true g)) eqn:K.
  - apply andb_true_iff in K. destruct K as [-> K]. assert (A : any_nonzero gt = false) by (rewrite <- any_true_nonzero, <- Eg by exact Wg; destruct (any_true g); [discriminate|reflexivity]).
    unfold fevaluate_multi_label. rewrite A. cbn [andb negb].
    apply (safe_ext small (fun _ _ => ret (to_counts (map (fun _ => mkR4 0 0 0 0) fths)))); [reflexivity|].
    apply safe_ret; [exact V|]. apply per_threshold_intro. clear - K Ag. induction Ag as [|t ft l fl _ _ IH]; constructor; [|exact IH].
    unfold class_counts. cbn [andb]. rewrite K. cbn [cr sr cp sp]. auto.
  - apply (safe_ext small (fun F P => then_ (forM (fmulti_label_step F P fpred gt (Some (SegBool seg)) D thin kill) fths) (fun l => ret (to_counts l)))).
    { intros F P. unfold fevaluate_multi_label. replace (skip && negb (any_nonzero gt)) with false by (rewrite <- any_true_nonzero, <- Eg by exact Wg; symmetry; exact K).
      destruct kill; reflexivity. }
    apply (safe_then small (fun F P => forM (fmulti_label_step F P fpred gt (Some (SegBool seg)) D thin kill) fths) (fun _ _ l => ret (to_counts l)) s
      (fun l => Forall2 (fun t a => exists p, counted_pixels thin kill q t (nonzero gt) seg (tolerance2 max_dist (nonzero gt)) p /\
                counted p (nonzero gt) (tolerance2 max_dist (nonzero gt)) (cr a) (sr a) (cp a) (sp a)) ths l)).
    + apply (safe_forM small _ (agree M fpred q)); [exact Ag|exact V|]. intros t ft s' At V'. apply (fmulti_step_safe M); assumption.
    + intros l s' V' X. apply safe_ret; [exact V'|]. apply per_threshold_intro. rewrite <- Eg in X. clear - X K. induction X as [|t a l1 l2 Y _ IH]; constructor; [|exact IH]. unfold class_counts. rewrite K. exact Y.
Qed.
End Tol2.

(** ** Thresholds *)
Lemma in_rows_px (im : image Z) v : wf im -> In v (List.concat (rows im)) -> exists y x, inb (ht im) (wd im) y x = true /\ px 0 im y x = v.
Proof.
  intros [L R] I. apply in_concat in I. destruct I as (r & Ir & Iv). destruct (In_nth _ _ [] Ir) as (i & Hi & Ei). destruct (In_nth _ _ 0 Iv) as (j & Hj & Ej).
  exists (Z.of_nat i), (Z.of_nat j). rewrite Forall_forall in R. assert (Lr := R r Ir).
  assert (I : inb (ht im) (wd im) (Z.of_nat i) (Z.of_nat j) = true) by (apply inb_spec; lia). split; [exact I|].
  unfold px. rewrite !Nat2Z.id. replace ((0 <=? Z.of_nat i) && (0 <=? Z.of_nat j)) with true by lia. rewrite Ei. exact Ej.
Qed.
Lemma thresholds_agree l n im : wf im -> clear_thresholds n im ->
  exists th fth, check_thresholds (AInt n) = Ok th /\ fthresholds_of_int n = Ok fth /\ Forall2 (agree (edge_count im) (fprediction l im) (unit_range im)) th fth.
Proof.
  intros W (Hn & B & C). destruct (ProofsMetrics2.thresholds_int n ltac:(lia)) as (th & E & L & Vt). destruct (fthr_values n Hn) as (fth & Ef & Lf & _).
  exists th, fth. split; [exact E|]. split; [exact Ef|].
  assert (R : forall v, In v (List.concat (rows im)) -> 0 <= v <= 255) by (intros v I; destruct (in_rows_px im v W I) as (y & x & _ & <-); apply B).
  assert (H : forall i, (i < Z.to_nat n)%nat -> agree (edge_count im) (fprediction l im) (unit_range im) (nth i th 0%Q) (nth i fth 0%R)).
  { intros i Hi. unfold agree. split; cycle 1.
    { unfold edge_count. apply count_true_le; [apply wf_imap, wf_imap, W|apply wf_imap, W|split; reflexivity|]. intros y x Hy. apply (thresholded_strong (unit_range im) _ (wf_imap _ _ W)) in Hy. destruct Hy as [Iy Hy]. cbn [unit_range imap ht wd] in Iy.
      assert (Eu : px 0%Q (unit_range im) y x = (inject_Z (px 0%Z im y x) / inject_Z 255)%Q) by exact (px_imap_in (fun v => inject_Z v / inject_Z 255)%Q 0 0%Q im y x W Iy).
      rewrite (px_imap_in (fun v => negb (v =? 0)) 0 false im y x W Iy). destruct (Z.eqb_spec (px 0 im y x) 0) as [Z0|]; [exfalso|reflexivity]. rewrite Eu, Z0, (Vt i Hi) in Hy.
      clear - Hy Hn. assert (Q0 : (inject_Z 0 / inject_Z 255 == 0)%Q) by reflexivity. rewrite Q0 in Hy. apply (Qlt_not_le 0 (inject_Z (Z.of_nat i + 1) / inject_Z (n + 1))); [|exact Hy].
      apply Qlt_shift_div_l; [change 0%Q with (inject_Z 0); rewrite <- Zlt_Qlt; lia|]. rewrite Qmult_0_l. change 0%Q with (inject_Z 0). rewrite <- Zlt_Qlt. lia. }
    destruct C as [->|C].
    - apply default_thresholds_are_exact; [lia|exact E|exact Ef|exact R].
    - apply (thresholding_is_exact l n); [exact Hn|exact Hi|exact E|exact Ef|exact R|]. intros v I. destruct (in_rows_px im v W I) as (y & x & Iy & <-). apply C; [exact Iy|lia]. }
  clear - L Lf H. assert (Ll : List.length th = List.length fth) by congruence. rewrite <- L in H. clear L Lf n. revert fth Ll H. induction th as [|t th IH]; intros [|ft fth] Ll H; try discriminate; constructor.
  - apply (H 0%nat). cbn [List.length]. lia.
  - apply IH; [cbn [List.length] in Ll; lia|]. intros i Hi. apply (H (S i)). cbn [List.length]. lia.
Qed.
