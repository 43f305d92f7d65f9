(** Evaluation of one image: theorems. *)
From Verif Require Export ProofsEval2 PropertiesThin PropertiesNMS.
From Coq Require Import Lia ZifyBool ZifyNat Lqa.
From Coq Require Import Permutation.
Open Scope Z_scope.
Open Scope list_scope.

(** ** C11: one ground truth *)
Lemma step_delivers pred gt max_dist thin t s : wf pred -> wf gt -> same_shape pred gt -> binary gt -> (0 < max_dist)%Q ->
  ((0 < ht pred)%nat \/ (0 < wd pred)%nat) -> raw_values s ->
  delivers (fun F P => binary_step F P pred gt max_dist thin t) s
    (fun a => forall g, edge_pixels gt g -> exists p, predicted thin pred t p /\ counted p g (tolerance2 max_dist g) (cr a) (sr a) (cp a) (sp a)).
Proof.
  intros Wp Wg [S1 S2] Bg Pd Ne V. unfold binary_step. set (p := maybe_thin thin (thresholded pred t)).
  assert (Hp : predicted thin pred t p) by (apply maybe_thin_predicted; exact Wp). destruct (predicted_wf _ _ _ _ Hp) as [Wq [Q1 Q2]].
  assert (Sh : same_shape p gt) by (split; congruence).
  assert (T : tolerance2 max_dist (nonzero gt) = tolerance2 max_dist p) by (unfold tolerance2; cbn [nonzero imap ht wd]; rewrite Q1, Q2, S1, S2; reflexivity).
  assert (D : delivers (fun F P => if any_nonzero gt then score_against F P (imap b2z p) gt max_dist else ret (mkR4 0 0 0 (img_sum (imap b2z p)))) s
                (row_ok p (nonzero gt) (tolerance2 max_dist p))).
  { destruct (any_nonzero gt) eqn:A.
    - apply score_delivers; try assumption. rewrite Q1, Q2. exact Ne.
    - apply delivers_ret; [exact V|]. apply empty_row; assumption. }
  eapply delivers_weaken; [exact D|]. intros a K g Hg. exists p. split; [exact Hp|]. rewrite (edge_pixels_unique gt g Wg Hg), T. exact K.
Qed.

Theorem single_gt_counts : forall lib thresholds pred pred' gt g max_dist thin nms s,
  maybe_nms lib nms pred = Ok pred' -> wf pred' -> wf gt -> same_shape pred' gt -> binary gt -> edge_pixels gt g ->
  (0 < max_dist)%Q -> ((0 < ht pred')%nat \/ (0 < wd pred')%nat) -> raw_values s ->
  delivers (fun F P => evaluate_binary F P lib thresholds pred gt max_dist thin nms) s
    (fun c => per_threshold thresholds c (fun t cr sr cp sp =>
       exists p, predicted thin pred' t p /\ counted p g (tolerance2 max_dist g) cr sr cp sp)).
Proof.
  intros lib ths pred pred' gt g md thin nms s En Wp Wg Sh Bg Hg Pd Ne V. unfold evaluate_binary. rewrite En. cbn [bind].
  apply (delivers_then (fun F P => forM (binary_step F P pred' gt md thin) ths) _ s
    (fun l => Forall2 (fun t a => exists p, predicted thin pred' t p /\ counted p g (tolerance2 md g) (cr a) (sr a) (cp a) (sp a)) ths l)).
  - apply delivers_forM; [exact V|]. intros t s' _ V'. eapply delivers_weaken; [apply step_delivers; assumption|]. intros a K. exact (K g Hg).
  - intros l s' V' K. apply delivers_ret; [exact V'|]. apply per_threshold_intro. exact K.
Qed.
Print Assumptions single_gt_counts.

(** The multi-label variant, with and without [kill_internal]. *)
Definition counted_pixels (thin kill : bool) (pred : image Q) (t : Q) (g seg : image bool) (tol2 : Q) (p' : image bool) : Prop :=
  exists p, predicted thin pred t p /\ if kill then (exists y x, px false g y x = true) /\ killed p g seg tol2 p' \/ (forall y x, px false g y x = false) /\ p' = p else p' = p.
Lemma multi_step_delivers pred gt seg max_dist thin kill t s : wf pred -> wf gt -> wf seg -> same_shape pred gt -> same_shape gt seg -> binary gt -> (0 < max_dist)%Q ->
  ((0 < ht pred)%nat \/ (0 < wd pred)%nat) -> raw_values s ->
  delivers (fun F P => multi_label_step F P pred gt (Some (SegBool seg)) max_dist thin kill t) s
    (fun a => exists p, counted_pixels thin kill pred t (nonzero gt) seg (tolerance2 max_dist (nonzero gt)) p /\
                counted p (nonzero gt) (tolerance2 max_dist (nonzero gt)) (cr a) (sr a) (cp a) (sp a)).
Proof.
  intros Wp Wg Ws [S1 S2] Sg Bg Pd Ne V. unfold multi_label_step. set (p := maybe_thin thin (thresholded pred t)).
  assert (Hp : predicted thin pred t p) by (apply maybe_thin_predicted; exact Wp). destruct (predicted_wf _ _ _ _ Hp) as [Wq [Q1 Q2]].
  assert (Sh : same_shape p gt) by (split; congruence).
  assert (T : tolerance2 max_dist (nonzero gt) = tolerance2 max_dist p) by (unfold tolerance2; cbn [nonzero imap ht wd]; rewrite Q1, Q2, S1, S2; reflexivity).
  rewrite T. destruct (any_nonzero gt) eqn:A.
  - destruct kill.
    + destruct (kill_spec p gt seg max_dist Wq Wg Ws Bg Sg (conj (eq_sym (proj1 Sh)) (eq_sym (proj2 Sh))) Pd) as (p' & Ek & K). rewrite Ek. cbn [bind].
      assert (K' := K). destruct K' as (Wk & [K1 K2] & _).
      eapply (delivers_ext (fun F P => score_against F P (imap b2z p') gt max_dist)); [reflexivity|].
      eapply delivers_weaken; [apply score_delivers; try assumption; [split; destruct Sh; congruence|rewrite K1, K2, Q1, Q2; exact Ne]|].
      intros a R. exists p'. split.
      * exists p. split; [exact Hp|]. left. split; [|exact K]. destruct (any_true (nonzero gt)) eqn:X; [apply any_true_spec; [apply wf_imap, Wg|exact X]|].
        exfalso. assert (C : any_nonzero gt = false); [|congruence]. apply any_nonzero_spec; [exact Wg|]. intros y x. destruct (Z.eq_dec (px 0 gt y x) 0) as [|N]; [assumption|].
        exfalso. assert (Y : any_true (nonzero gt) = true); [|congruence]. apply any_true_spec; [apply wf_imap, Wg|]. exists y, x. apply (edge_pixels_nonzero gt Wg). exact N.
      * unfold row_ok in R. replace (tolerance2 max_dist p') with (tolerance2 max_dist p) in R by (unfold tolerance2; rewrite K1, K2; reflexivity). exact R.
    + cbn [bind]. eapply (delivers_ext (fun F P => score_against F P (imap b2z p) gt max_dist)); [reflexivity|].
      eapply delivers_weaken; [apply score_delivers; try assumption; rewrite Q1, Q2; exact Ne|]. intros a R. exists p. split; [|exact R].
      exists p. split; [exact Hp|reflexivity].
  - eapply (delivers_ext (fun F P => ret (mkR4 0 0 0 (img_sum (imap b2z p))))); [reflexivity|]. apply delivers_ret; [exact V|]. exists p. split; [|apply empty_row; assumption].
    exists p. split; [exact Hp|]. destruct kill; [|reflexivity]. right. split; [|reflexivity]. intros y x. assert (Z0 := proj1 (any_nonzero_spec gt Wg) A y x).
    destruct (px false (nonzero gt) y x) eqn:C; [|reflexivity]. exfalso. apply (edge_pixels_nonzero gt Wg) in C. contradiction.
Qed.

Theorem multi_label_counts : forall lib thresholds pred pred' gt g seg max_dist thin kill nms s,
  maybe_nms lib nms pred = Ok pred' -> wf pred' -> wf gt -> wf seg -> same_shape pred' gt -> same_shape gt seg -> binary gt -> edge_pixels gt g ->
  (0 < max_dist)%Q -> ((0 < ht pred')%nat \/ (0 < wd pred')%nat) -> raw_values s ->
  delivers (fun F P => evaluate_multi_label F P lib thresholds pred gt (Some (SegBool seg)) max_dist thin kill false nms) s
    (fun c => per_threshold thresholds c (fun t cr sr cp sp =>
       exists p, counted_pixels thin kill pred' t g seg (tolerance2 max_dist g) p /\ counted p g (tolerance2 max_dist g) cr sr cp sp)).
Proof.
  intros lib ths pred pred' gt g seg md thin kill nms s En Wp Wg Ws Sh Sg Bg Hg Pd Ne V. unfold evaluate_multi_label. cbn [andb]. rewrite En. cbn [bind].
  rewrite (edge_pixels_unique gt g Wg Hg).
  apply (delivers_then (fun F P => forM (multi_label_step F P pred' gt (Some (SegBool seg)) md thin kill) ths) _ s
    (fun l => Forall2 (fun t a => exists p, counted_pixels thin kill pred' t (nonzero gt) seg (tolerance2 md (nonzero gt)) p /\
                counted p (nonzero gt) (tolerance2 md (nonzero gt)) (cr a) (sr a) (cp a) (sp a)) ths l)).
  - apply delivers_forM; [exact V|]. intros t s' _ V'. apply multi_step_delivers; assumption.
  - intros l s' V' K. apply delivers_ret; [exact V'|]. apply per_threshold_intro. exact K.
Qed.
Print Assumptions multi_label_counts.

(** What [counted] implies: the inequalities users rely on. *)
Theorem counts_are_consistent : forall p g tol2 cr sr cp sp, wf p -> wf g -> same_shape p g -> counted p g tol2 cr sr cp sp ->
  0 <= cr <= sr /\ 0 <= cp <= sp /\ cr = cp /\ sr = Z.of_nat (count_true g) /\ sp = Z.of_nat (count_true p).
Proof.
  intros p g tol2 a b c d Wp Wg Sh (m1 & m2 & K & -> & -> & -> & ->). assert (E := equal_matched _ _ _ _ _ Wp Wg Sh K).
  destruct (matched_at_most_edge_pixels _ _ _ _ _ Wp Wg Sh K) as [A B]. rewrite <- E. repeat split; lia.
Qed.
Print Assumptions counts_are_consistent.

(** With NMS the prediction keeps its shape (images of at least 2x2 pixels), so the two theorems
    above apply. *)
Theorem nms_prediction : forall lib pred, (2 <= ht pred)%nat -> (2 <= wd pred)%nat ->
  exists pred', maybe_nms lib true pred = Ok pred' /\ wf pred' /\ same_shape pred pred'.
Proof.
  intros lib pred Hh Hw. destruct (fast_nms_result (l_orient lib) (l_cos lib) (l_sin lib) (l_f32 lib) (F64 pred) pred 1 5 (101 # 100) eq_refl Hh Hw)
    as (sm & out & _ & E & W & S & _). exists out. auto.
Qed.
Print Assumptions nms_prediction.

(** Invalid arguments: a shape mismatch or a non-positive tolerance is reported as soon as there is a
    threshold and the ground truth has an edge. *)
Theorem single_gt_rejects : forall fuel pfuel lib t thresholds pred gt max_dist thin s, wf gt -> wf pred ->
  (exists y x, px 0 gt y x <> 0) -> ~ same_shape pred gt \/ (max_dist <= 0)%Q ->
  evaluate_binary fuel pfuel lib (t :: thresholds) pred gt max_dist thin false s = Err ValueError.
Proof.
  intros F P lib t ths pred gt md thin s Wg Wp (y & x & N) H. unfold evaluate_binary. cbn [maybe_nms bind forM]. unfold then_, binary_step.
  assert (A : any_nonzero gt = true) by (destruct (any_nonzero gt) eqn:A; [reflexivity|]; rewrite (proj1 (any_nonzero_spec gt Wg) A y x) in N; lia).
  rewrite A. unfold score_against, then_, correspond, correspond_pixels. rewrite nonzero_b2z.
  destruct (predicted_wf _ _ _ _ (maybe_thin_predicted thin pred t Wp)) as [_ [Q1 Q2]]. rewrite Q1, Q2. cbn [nonzero imap ht wd].
  destruct (Nat.eqb_spec (ht pred) (ht gt)) as [E1|]; [|reflexivity]. destruct (Nat.eqb_spec (wd pred) (wd gt)) as [E2|]; [|reflexivity]. cbn [andb negb].
  destruct H as [H|H]; [exfalso; apply H; split; assumption|]. destruct (Qle_bool md 0) eqn:E; [reflexivity|].
  exfalso. apply Qle_bool_iff in H. congruence.
Qed.
Print Assumptions single_gt_rejects.

(** Ground truth stored as 0/255 instead of 0/1: [sum_r] is not a number of pixels. *)
Theorem gt_scaled_to_255_refuted :
  ~ (forall lib thresholds pred gt g max_dist s fuel pfuel c s',
       wf pred -> wf gt -> same_shape pred gt -> edge_pixels gt g -> (0 < max_dist)%Q -> raw_values s ->
       evaluate_binary fuel pfuel lib thresholds pred gt max_dist false false s = Ok (Some (c, s')) ->
       Forall (fun v => v = Z.of_nat (count_true g)) (sum_r c)).
Proof.
  intros H. specialize (H (mkLibm (fun q => q) (fun q => q) (fun q => q) (fun q => q)) [(1 # 2)%Q] (mkImage 1 1 [[0%Q]]) (mkImage 1 1 [[255]]) (mkImage 1 1 [[true]]) (1 # 100)%Q
    (fun _ => 0) 1%nat 1%nat (mkCounts [0] [255] [0] [0]) (fun _ => 0)).
  assert (F : Forall (fun v => v = Z.of_nat (count_true (mkImage 1 1 [[true]]))) [255]).
  { apply H; clear H; try (split; [reflexivity|repeat constructor]); try (split; reflexivity).
    split; [split; [reflexivity|repeat constructor]|]. split; [split; reflexivity|]. intros y x. split.
      + intros C. destruct (inb 1 1 y x) eqn:I; [|rewrite px_out in C by (solve [exact I|split; [reflexivity|repeat constructor]]); discriminate].
        apply inb_spec in I. assert (y = 0 /\ x = 0) as [-> ->] by lia. discriminate.
      + intros C. destruct (inb 1 1 y x) eqn:I; [|rewrite px_out in C by (solve [exact I|split; [reflexivity|repeat constructor]]); lia].
        apply inb_spec in I. assert (y = 0 /\ x = 0) as [-> ->] by lia. reflexivity.
    }
  inversion F as [|? ? E]. vm_compute in E. discriminate.
Qed.
Print Assumptions gt_scaled_to_255_refuted.

(** ** C12: several annotators *)
Theorem multiple_gts_counts : forall lib thresholds pred pred' gts gs max_dist thin nms s,
  maybe_nms lib nms pred = Ok pred' -> wf pred' -> Forall (fun gt => wf gt /\ binary gt /\ same_shape pred' gt) gts -> Forall2 edge_pixels gts gs ->
  (0 < max_dist)%Q -> ((0 < ht pred')%nat \/ (0 < wd pred')%nat) -> raw_values s ->
  delivers (fun F P => evaluate_multiple_gts F P lib thresholds pred gts max_dist thin nms) s
    (fun c => per_threshold thresholds c (fun t cr sr cp sp =>
       exists p, predicted thin pred' t p /\ counted_all p gs (tolerance2 max_dist p) cr sr cp sp)).
Proof.
  intros lib ths pred pred' gts gs md thin nms s En Wp G Hg Pd Ne V. unfold evaluate_multiple_gts. rewrite En. cbn [bind].
  assert (Eg : gs = map nonzero gts).
  { clear - G Hg. induction Hg as [|gt g gts gs H Hg IH]; [reflexivity|]. inversion G as [|? ? (Wg & _) G']. subst. cbn [map]. f_equal; [apply edge_pixels_unique; assumption|apply IH, G']. }
  subst gs.
  apply (delivers_then (fun F P => forM (multi_gt_step F P pred' gts md thin) ths) _ s
    (fun l => Forall2 (fun t a => exists p, predicted thin pred' t p /\ counted_all p (map nonzero gts) (tolerance2 md p) (cr a) (sr a) (cp a) (sp a)) ths l)).
  2: { intros l s' V' K. apply delivers_ret; [exact V'|]. apply per_threshold_intro. exact K. }
  apply delivers_forM; [exact V|]. intros t s' _ V'. unfold multi_gt_step. set (p := maybe_thin thin (thresholded pred' t)).
  assert (Hp : predicted thin pred' t p) by (apply maybe_thin_predicted; exact Wp). destruct (predicted_wf _ _ _ _ Hp) as [Wq [Q1 Q2]].
  apply (delivers_then (fun F P => gts_loop F P (imap b2z p) md gts (tab (ht (imap b2z p)) (wd (imap b2z p)) (fun _ _ => false), 0, 0))
     (fun F P '(acc_prec, sum_r, count_r) => ret (mkR4 count_r sum_r (Z.of_nat (count_true acc_prec)) (img_sum (imap b2z p)))) s' (acc_ok p (tolerance2 md p) (map nonzero gts))).
  - change (map nonzero gts) with ([] ++ map nonzero gts).
    apply (gts_loop_delivers p md Wq Pd ltac:(rewrite Q1, Q2; exact Ne) gts [] _ s' V').
    + eapply Forall_impl; [|exact G]. intros gt (A & B & [C D]). split; [exact A|]. split; [exact B|split; congruence].
    + exists []. split; [constructor|]. split; [apply wf_tab|]. split; [split; reflexivity|]. split; [|split; reflexivity].
      intros y x. rewrite px_tab. split; [destruct (inb _ _ y x); discriminate|intros (m & [] & _)].
  - intros [[u sr] cr] s'' V'' (ms & F2 & Wu & Su & Um & -> & ->). apply delivers_ret; [exact V''|]. cbn [ModelEval.cr ModelEval.sr cp sp]. exists p. split; [exact Hp|].
    exists ms. split; [exact F2|]. split; [reflexivity|]. split; [reflexivity|]. split; [exists u; auto|]. apply img_sum_binary.
Qed.
Print Assumptions multiple_gts_counts.

Lemma union_bound (ms : list (image Z)) h w : Forall wf ms -> Forall (fun m => ht m = h /\ wd m = w) ms -> forall u, wf u -> ht u = h -> wd u = w -> some_match ms u ->
  (Z.of_nat (count_true u) <= zsum (map (fun m => Z.of_nat (matched m)) ms)) /\ (forall m, In m ms -> (matched m <= count_true u)%nat).
Proof.
  intros Wm Sm u Wu Hu Hw Um.
  assert (Nz : forall m y x, px false (imap (fun v => negb (v =? 0)) m) y x = negb (px 0 m y x =? 0)).
  { intros m y x. exact (px_imap (fun v => negb (v =? 0)) 0 m y x). }
  split.
  - revert u Wu Hu Hw Um. induction ms as [|m ms IH]; intros u Wu Hu Hw Um.
    + cbn [map]. destruct (count_true u) eqn:C; [reflexivity|]. exfalso. rewrite count_true_fg in C by exact Wu. destruct (fg_list u) as [|[y x] l] eqn:F; [discriminate|].
      assert (I : In (y, x) (fg_list u)) by (rewrite F; left; reflexivity). apply in_fg_list in I; [|exact Wu]. apply Um in I. destruct I as (? & [] & _).
    + inversion Wm as [|? ? W1 W2]. inversion Sm as [|? ? [H1 H2] S2]. subst.
      set (u' := tab (ht u) (wd u) (fun y x => existsb (fun m => negb (px 0 m y x =? 0)) ms)).
      assert (U' : some_match ms u').
      { intros y x. unfold u'. rewrite px_tab. destruct (inb (ht u) (wd u) y x) eqn:I.
        - rewrite existsb_exists. split; intros (m0 & A & B); exists m0; split; try exact A; lia.
        - split; [discriminate|]. intros (m0 & A & B). rewrite Forall_forall in W2, S2. destruct (S2 m0 A) as [S2a S2b]. rewrite px_out in B; [lia|apply W2, A|rewrite S2a, S2b; congruence]. }
      assert (L := IH W2 S2 u' (wf_tab _ _ _) eq_refl eq_refl U'). change (map (fun m0 => Z.of_nat (matched m0)) (m :: ms)) with (Z.of_nat (matched m) :: map (fun m0 => Z.of_nat (matched m0)) ms).
      change (zsum (Z.of_nat (matched m) :: map (fun m0 => Z.of_nat (matched m0)) ms)) with (Z.of_nat (matched m) + zsum (map (fun m0 => Z.of_nat (matched m0)) ms)).
      assert (B : (count_true u <= matched m + count_true u')%nat); [|lia].
      unfold matched. rewrite !count_true_fg by (solve [exact Wu|apply wf_imap, W1|apply wf_tab]). rewrite <- app_length. apply NoDup_incl_length; [apply NoDup_fg_list|].
      intros [y x] I. apply in_fg_list in I; [|exact Wu]. apply in_app_iff. apply Um in I. destruct I as (m0 & [<-|A] & B).
      * left. apply in_fg_list; [apply wf_imap, W1|]. rewrite Nz. lia.
      * right. apply in_fg_list; [apply wf_tab|]. apply U'. exists m0. auto.
  - intros m I. rewrite Forall_forall in Wm, Sm. destruct (Sm m I) as [S1 S2]. apply count_true_le; [apply wf_imap, Wm, I|exact Wu|split; cbn [imap ht wd]; congruence|].
    intros y x H. apply Um. exists m. split; [exact I|]. rewrite Nz in H. lia.
Qed.

(** A predicted pixel counts once: [count_p] is at most the number of predicted pixels and at most
    [count_r], and at least the number of matches of each annotator. *)
Theorem annotator_counts_are_consistent : forall p gs tol2 cr sr cp sp,
  wf p -> Forall (fun g => wf g /\ same_shape p g) gs -> counted_all p gs tol2 cr sr cp sp ->
  0 <= cp <= sp /\ cp <= cr /\ 0 <= cr <= sr /\
  (exists each, length each = length gs /\ cr = zsum each /\ Forall (fun n => 0 <= n <= cp) each) /\
  sr = zsum (map (fun g => Z.of_nat (count_true g)) gs) /\ sp = Z.of_nat (count_true p) /\
  (forall g, gs = [g] -> counted p g tol2 cr sr cp sp).
Proof.
  intros p gs tol2 a b c d Wp G (ms & F2 & -> & -> & (u & Wu & [U1 U2] & Um & ->) & ->).
  assert (M : Forall (fun m => wf (fst m) /\ same_shape (fst m) p /\ matched (fst m) = matched (snd m)) ms /\ length ms = length gs /\
              zsum (map (fun m => Z.of_nat (matched (snd m))) ms) <= zsum (map (fun g => Z.of_nat (count_true g)) gs)).
  { clear - Wp G F2. induction F2 as [|g m gs ms K F2 IH]; [split; [constructor|split; [reflexivity|cbn; lia]]|]. inversion G as [|? ? [Wg Sh] G']. subst. destruct (IH G') as (A & B & C).
    assert (E := equal_matched _ _ _ _ _ Wp Wg Sh K). split; [constructor; [|exact A]; split; [apply K|split; [apply K|exact E]]|].
    split; [cbn [length]; congruence|]. destruct (matched_at_most_edge_pixels _ _ _ _ _ Wp Wg Sh K) as [X Y].
    change (zsum (map (fun m => Z.of_nat (matched (snd m))) (m :: ms))) with (Z.of_nat (matched (snd m)) + zsum (map (fun m => Z.of_nat (matched (snd m))) ms)).
    change (zsum (map (fun g => Z.of_nat (count_true g)) (g :: gs))) with (Z.of_nat (count_true g) + zsum (map (fun g => Z.of_nat (count_true g)) gs)). lia. }
  destruct M as (Ma & Ml & Mc). rewrite Forall_forall in Ma.
  destruct (union_bound (map fst ms) (ht p) (wd p)) with (u := u) as [B1 B2].
  { apply Forall_map, Forall_forall. intros m I. apply Ma, I. }
  { apply Forall_map, Forall_forall. intros m I. apply Ma, I. }
  { exact Wu. } { exact U1. } { exact U2. } { exact Um. }
  rewrite map_map in B1. assert (E : map (fun m => Z.of_nat (matched (fst m))) ms = map (fun m => Z.of_nat (matched (snd m))) ms)
    by (apply map_ext_in; intros m I; destruct (Ma m I) as (_ & _ & ->); reflexivity). rewrite E in B1.
  assert (Nn : 0 <= zsum (map (fun m : image Z * image Z => Z.of_nat (matched (snd m))) ms)) by lia.
  assert (Up : (count_true u <= count_true p)%nat).
  { apply count_true_le; [exact Wu|exact Wp|split; assumption|]. intros y x H. apply Um in H. destruct H as (m & I & N). apply in_map_iff in I. destruct I as (mm & <- & I).
    clear - F2 I N. induction F2 as [|g m gs ms K F2 IH]; [destruct I|]. destruct I as [->|I]; [|apply IH, I]. destruct K as (_ & _ & K & _). apply (K y x N). }
  split; [lia|]. split; [exact B1|]. split; [lia|]. split.
  { exists (map (fun m => Z.of_nat (matched (snd m))) ms). split; [rewrite map_length; exact Ml|]. split; [reflexivity|].
    rewrite <- E. apply Forall_map, Forall_forall. intros m I. assert (X := B2 (fst m) (in_map fst _ _ I)). lia. }
  split; [reflexivity|]. split; [reflexivity|]. intros g ->. inversion F2 as [|? m ? ms' K F2']. subst. inversion F2'. subst. exists (fst m), (snd m). split; [exact K|].
  cbn [map zsum fold_right]. split; [unfold zsum; cbn; lia|]. split; [unfold zsum; cbn; lia|]. split; [|reflexivity]. f_equal.
  destruct K as ((Wm & [Sm1 Sm2]) & _). assert (Eu : u = imap (fun v => negb (v =? 0)) (fst m)); [|rewrite Eu; reflexivity].
  apply (img_ext false); [exact Wu|apply wf_imap, Wm|split; cbn [imap ht wd]; congruence|]. intros y x _.
  assert (X := px_imap (fun v => negb (v =? 0)) 0 (fst m) y x). cbv beta in X. change (negb (0 =? 0)) with false in X. rewrite X. specialize (Um y x). cbn [map fst] in Um.
  destruct (px false u y x).
  - destruct (proj1 Um eq_refl) as (m0 & [<-|[]] & N). lia.
  - destruct (Z.eqb_spec (px 0 (fst m) y x) 0) as [|N]; [reflexivity|]. assert (false = true) by (apply Um; exists (fst m); split; [left; reflexivity|exact N]). discriminate.
Qed.
Print Assumptions annotator_counts_are_consistent.

(** The meaning of the counts does not depend on the order of the annotators, and [sum_r], [sum_p]
    are computed independently of it (the random choices of the matching may differ). *)
Theorem annotator_order : forall p gs gs' tol2 cr sr cp sp, Permutation gs gs' ->
  counted_all p gs tol2 cr sr cp sp -> counted_all p gs' tol2 cr sr cp sp.
Proof.
  intros p gs gs' tol2 a b c d Pm (ms & F2 & -> & -> & (u & Wu & Su & Um & ->) & ->).
  destruct (Permutation_Forall2 Pm F2) as (ms' & Pm' & F2'). exists ms'. split; [exact F2'|].
  assert (Zp : forall l l' : list Z, Permutation l l' -> zsum l = zsum l') by (intros l l' H; unfold zsum; induction H; cbn [fold_right] in *; lia).
  split; [apply Zp, Permutation_map, Pm'|]. split; [apply Zp, Permutation_map, Pm|]. split; [|reflexivity]. exists u. split; [exact Wu|]. split; [exact Su|]. split; [|reflexivity].
  intros y x. rewrite (Um y x). split; intros (m & I & N); exists m; (split; [|exact N]).
  - eapply Permutation_in; [apply Permutation_map, Pm'|exact I].
  - eapply Permutation_in; [apply Permutation_map, Permutation_sym, Pm'|exact I].
Qed.
Print Assumptions annotator_order.

(** Without annotators every predicted pixel is a false positive and no random number is drawn. *)
Theorem no_annotators : forall fuel pfuel lib thresholds pred max_dist thin s, wf pred ->
  exists c, evaluate_multiple_gts fuel pfuel lib thresholds pred [] max_dist thin false s = Ok (Some (c, s)) /\
    per_threshold thresholds c (fun t cr sr cp sp => cr = 0 /\ sr = 0 /\ cp = 0 /\ exists p, predicted thin pred t p /\ sp = Z.of_nat (count_true p)).
Proof.
  intros F P lib ths pred md thin s W. unfold evaluate_multiple_gts. cbn [maybe_nms bind]. unfold then_.
  set (row := fun t => mkR4 0 0 (Z.of_nat (count_true (tab (ht pred) (wd pred) (fun _ _ => false)))) (Z.of_nat (count_true (maybe_thin thin (thresholded pred t))))).
  assert (E : forM (multi_gt_step F P pred [] md thin) ths s = Ok (Some (map row ths, s))).
  { induction ths as [|t ths IH]; [reflexivity|]. cbn [forM map]. unfold then_ at 1. unfold multi_gt_step at 1. cbn [gts_loop]. unfold then_, ret. cbn [bind]. rewrite IH. cbn [bind].
    rewrite img_sum_binary. cbn [imap ht wd]. destruct (predicted_wf _ _ _ _ (maybe_thin_predicted thin pred t W)) as [_ [Q1 Q2]]. rewrite Q1, Q2. reflexivity. }
  rewrite E. cbn [bind ret]. exists (to_counts (map row ths)). split; [reflexivity|]. apply per_threshold_intro.
  assert (C0 : count_true (tab (ht pred) (wd pred) (fun _ _ => false)) = 0%nat).
  { destruct (count_true _) eqn:C; [reflexivity|]. exfalso. rewrite count_true_fg in C by apply wf_tab. destruct (fg_list _) as [|[y x] l] eqn:Fg; [discriminate|].
    assert (I : In (y, x) (fg_list (tab (ht pred) (wd pred) (fun _ _ => false)))) by (rewrite Fg; left; reflexivity). apply in_fg_list in I; [|apply wf_tab]. rewrite px_tab in I. destruct (inb _ _ y x); discriminate. }
  clear E. induction ths as [|t ths IH]; cbn [map]; constructor; [|exact IH]. unfold row. cbn [cr sr cp sp]. rewrite C0. split; [reflexivity|]. split; [reflexivity|]. split; [reflexivity|].
  exists (maybe_thin thin (thresholded pred t)). split; [apply maybe_thin_predicted; exact W|reflexivity].
Qed.
Print Assumptions no_annotators.
