(** Thresholds, absent classes, kill_internal and the per-image dataset routines: theorems. *)
From Verif Require Export PropertiesEval PropertiesLabels PropertiesEdges.
From Coq Require Import Lia ZifyBool ZifyNat Lqa.
Open Scope Z_scope.
Open Scope list_scope.

Definition no_libm : libm := mkLibm (fun q => q) (fun q => q) (fun q => q) (fun q => q).

(** ** C13: thresholds *)
Theorem higher_threshold_predicts_less : forall pred t t' p p', (t <= t')%Q ->
  predicted false pred t p -> predicted false pred t' p' ->
  (forall y x, px false p' y x = true -> px false p y x = true) /\ (count_true p' <= count_true p)%nat.
Proof.
  intros pred t t' p p' H (W & [S1 S2] & P) (W' & [S1' S2'] & P').
  assert (Sub : forall y x, px false p' y x = true -> px false p y x = true).
  { intros y x E. apply P' in E. apply P. split; [apply E|]. destruct E. eapply Qle_trans; eassumption. }
  split; [exact Sub|]. apply count_true_le; [exact W'|exact W|split; congruence|exact Sub].
Qed.
Print Assumptions higher_threshold_predicts_less.

Theorem nonpositive_threshold_keeps_all : forall pred t p, (t <= 0)%Q ->
  (forall y x, inb (ht pred) (wd pred) y x = true -> (0 <= px 0%Q pred y x)%Q) -> predicted false pred t p ->
  (forall y x, inb (ht pred) (wd pred) y x = true -> px false p y x = true) /\ count_true p = (ht pred * wd pred)%nat.
Proof.
  intros pred t p H N (W & [S1 S2] & P).
  assert (A : forall y x, inb (ht pred) (wd pred) y x = true -> px false p y x = true).
  { intros y x I. apply P. split; [exact I|]. eapply Qle_trans; [exact H|apply N, I]. }
  split; [exact A|]. rewrite count_true_fg by exact W. unfold fg_list. rewrite S1, S2.
  rewrite <- length_coords. f_equal.
  assert (G : forall l : list (Z * Z), (forall q, In q l -> px false p (fst q) (snd q) = true) -> filter (fun q => px false p (fst q) (snd q)) l = l).
  { clear. induction l as [|q l IH]; intros H; [reflexivity|]. cbn [filter]. rewrite (H q (or_introl eq_refl)), IH; [reflexivity|]. intros; apply H; right; assumption. }
  apply G. intros [y x] I. apply A. apply in_coords. exact I.
Qed.
Print Assumptions nonpositive_threshold_keeps_all.

Lemma forM_inv {A B} (f : A -> run B) l : forall s bs s', forM f l s = Ok (Some (bs, s')) ->
  Forall2 (fun a b => exists s1 s2, f a s1 = Ok (Some (b, s2))) l bs.
Proof.
  induction l as [|a l IH]; intros s bs s' E; [injection E as <- <-; constructor|]. cbn [forM] in E. unfold then_ in E.
  destruct (f a s) as [[[b s1]|]|e] eqn:E1; cbn [bind] in E; try discriminate.
  destruct (forM f l s1) as [[[bs1 s2]|]|e] eqn:E2; cbn [bind] in E; try discriminate. injection E as <- <-.
  constructor; [exists s, s1; exact E1|eapply IH; exact E2].
Qed.
Lemma score_sp F P p gt md s a s' : score_against F P p gt md s = Ok (Some (a, s')) -> sp a = img_sum p.
Proof.
  unfold score_against, then_. destruct (correspond _ _ _ _ _ _) as [[[o s1]|]|e]; cbn [bind]; try discriminate. intros E. injection E as <- <-. reflexivity.
Qed.
(** [sum_p] of any evaluation without thinning is non-increasing in the threshold (whatever the
    ground truth, the tolerance and the random numbers). *)
Theorem sum_p_nonincreasing : forall fuel pfuel lib thresholds pred pred' gt max_dist nms s c s',
  maybe_nms lib nms pred = Ok pred' -> wf pred' ->
  evaluate_binary fuel pfuel lib thresholds pred gt max_dist false nms s = Ok (Some (c, s')) ->
  forall i j ti tj, nth_error thresholds i = Some ti -> nth_error thresholds j = Some tj -> (ti <= tj)%Q ->
  0 <= nth j (sum_p c) 0 <= nth i (sum_p c) 0.
Proof.
  intros F P lib ths pred pred' gt md nms s c s' En W E i j ti tj Hi Hj L. unfold evaluate_binary in E. rewrite En in E. cbn [bind] in E. unfold then_ in E.
  destruct (forM _ ths s) as [[[l s1]|]|e] eqn:El; cbn [bind] in E; try discriminate. injection E as <- <-. apply forM_inv in El.
  assert (X : per_threshold ths (to_counts l) (fun t _ _ _ sp => exists p, predicted false pred' t p /\ sp = Z.of_nat (count_true p))).
  { apply per_threshold_intro. clear - El W. induction El as [|t a ths l (s1 & s2 & Ea) El IH]; constructor; [|exact IH].
    exists (maybe_thin false (thresholded pred' t)). split; [apply maybe_thin_predicted; exact W|]. rewrite <- img_sum_binary.
    unfold binary_step in Ea. destruct (any_nonzero gt); [apply (score_sp _ _ _ _ _ _ _ _ Ea)|injection Ea as <- <-; reflexivity]. }
  destruct X as (_ & _ & _ & _ & X). destruct (X i ti Hi) as (p & Hp & ->). destruct (X j tj Hj) as (p' & Hp' & ->).
  destruct (higher_threshold_predicts_less pred' ti tj p p' L Hp Hp'). lia.
Qed.
Print Assumptions sum_p_nonincreasing.

(** With thinning this fails: raising the threshold may increase [sum_p]. *)
Definition ex_ring : image Q := (mkImage 3 3 [[9#10; 9#10; 9#10]; [9#10; 4#10; 9#10]; [9#10; 9#10; 9#10]])%Q.
Theorem sum_p_nonincreasing_with_thinning_refuted :
  ~ (forall fuel pfuel lib thresholds pred gt max_dist s c s', wf pred -> wf gt -> same_shape pred gt -> raw_values s ->
       evaluate_binary fuel pfuel lib thresholds pred gt max_dist true false s = Ok (Some (c, s')) ->
       forall i j ti tj, nth_error thresholds i = Some ti -> nth_error thresholds j = Some tj -> (ti <= tj)%Q ->
       nth j (sum_p c) 0 <= nth i (sum_p c) 0).
Proof.
  intros H.
  assert (E : evaluate_binary 0 0 no_libm [3#10; 5#10]%Q ex_ring (zeros 3 3) (1#100)%Q true false (fun _ => 0) = Ok (Some (mkCounts [0; 0] [0; 0] [0; 0] [1; 4], fun _ => 0))) by (vm_compute; reflexivity).
  assert (X : nth 1 [1; 4] 0 <= nth 0 [1; 4] 0); [|cbn in X; lia].
  refine (H 0%nat 0%nat no_libm _ ex_ring (zeros 3 3) _ (fun _ => 0) _ _ _ _ _ _ E 0%nat 1%nat _ _ eq_refl eq_refl _).
  - split; [reflexivity|repeat constructor].
  - split; [reflexivity|repeat constructor].
  - split; reflexivity.
  - intros n. split; [apply Z.le_refl|reflexivity].
  - discriminate.
Qed.
Print Assumptions sum_p_nonincreasing_with_thinning_refuted.

(** ** C14: absent class, empty ground truth *)
Theorem absent_class_skipped : forall fuel pfuel lib thresholds pred gt seg max_dist thin kill nms s, wf gt ->
  (forall y x, px 0 gt y x = 0) ->
  evaluate_multi_label fuel pfuel lib thresholds pred gt seg max_dist thin kill true nms s =
    Ok (Some (mkCounts (map (fun _ => 0) thresholds) (map (fun _ => 0) thresholds) (map (fun _ => 0) thresholds) (map (fun _ => 0) thresholds), s)).
Proof.
  intros F P lib ths pred gt seg md thin kill nms s W Z0. unfold evaluate_multi_label. rewrite (proj2 (any_nonzero_spec gt W) Z0). cbn [negb andb].
  unfold ret, to_counts. rewrite !map_map. reflexivity.
Qed.
Print Assumptions absent_class_skipped.
(** The option only matters for absent classes. *)
Theorem skip_only_matters_for_absent_classes : forall fuel pfuel lib thresholds pred gt seg max_dist thin kill nms s, wf gt ->
  (exists y x, px 0 gt y x <> 0) ->
  evaluate_multi_label fuel pfuel lib thresholds pred gt seg max_dist thin kill true nms s =
  evaluate_multi_label fuel pfuel lib thresholds pred gt seg max_dist thin kill false nms s.
Proof.
  intros F P lib ths pred gt seg md thin kill nms s W (y & x & N). unfold evaluate_multi_label. destruct (any_nonzero gt) eqn:A; [reflexivity|].
  rewrite (proj1 (any_nonzero_spec gt W) A y x) in N. lia.
Qed.
Print Assumptions skip_only_matters_for_absent_classes.
Lemma empty_forM (f : Q -> run row4) (row : Q -> row4) ths s : (forall t, f t s = Ok (Some (row t, s))) -> forM f ths s = Ok (Some (map row ths, s)).
Proof.
  intros H. induction ths as [|t ths IH]; [reflexivity|]. cbn [forM map]. unfold then_, ret. rewrite H. cbn [bind]. rewrite IH. reflexivity.
Qed.
(** Without skipping every predicted pixel is a false positive; the shapes need not even agree, no
    segmentation is needed and no random number is drawn (the solver is not called: the step
    bounds may be 0). *)
Theorem empty_gt_gives_false_positives : forall fuel pfuel lib thresholds pred pred' gt seg max_dist thin kill nms s, wf gt ->
  maybe_nms lib nms pred = Ok pred' -> wf pred' -> (forall y x, px 0 gt y x = 0) ->
  exists c, evaluate_multi_label fuel pfuel lib thresholds pred gt seg max_dist thin kill false nms s = Ok (Some (c, s)) /\
    evaluate_binary fuel pfuel lib thresholds pred gt max_dist thin nms s = Ok (Some (c, s)) /\
    per_threshold thresholds c (fun t cr sr cp sp => cr = 0 /\ sr = 0 /\ cp = 0 /\ exists p, predicted thin pred' t p /\ sp = Z.of_nat (count_true p)).
Proof.
  intros F P lib ths pred pred' gt seg md thin kill nms s W En Wp Z0. assert (A := proj2 (any_nonzero_spec gt W) Z0).
  set (row := fun t => mkR4 0 0 0 (Z.of_nat (count_true (maybe_thin thin (thresholded pred' t))))). exists (to_counts (map row ths)).
  split; [|split].
  - unfold evaluate_multi_label. cbn [andb]. rewrite En. cbn [bind]. unfold then_. rewrite (empty_forM _ row); [reflexivity|].
    intros t. unfold multi_label_step. rewrite A, img_sum_binary. reflexivity.
  - unfold evaluate_binary. rewrite En. cbn [bind]. unfold then_. rewrite (empty_forM _ row); [reflexivity|].
    intros t. unfold binary_step. rewrite A, img_sum_binary. reflexivity.
  - apply per_threshold_intro. induction ths as [|t ths IH]; cbn [map]; constructor; [|exact IH]. unfold row. cbn [cr sr cp sp].
    split; [reflexivity|]. split; [reflexivity|]. split; [reflexivity|]. exists (maybe_thin thin (thresholded pred' t)). split; [apply maybe_thin_predicted; exact Wp|reflexivity].
Qed.
Print Assumptions empty_gt_gives_false_positives.

(** ** C15: kill_internal *)
Theorem kill_internal_exact : forall p gt g seg max_dist, wf p -> wf gt -> wf seg -> binary gt -> edge_pixels gt g ->
  same_shape gt seg -> same_shape gt p -> (0 < max_dist)%Q ->
  exists p', kill_internal_prediction (imap b2z p) gt (SegBool seg) max_dist = Ok (imap b2z p') /\
    killed p g seg (tolerance2 max_dist g) p'.
Proof.
  intros p gt g seg md Wp Wg Ws B Hg Sg [S1 S2] Pd. destruct (kill_spec p gt seg md Wp Wg Ws B Sg (conj S1 S2) Pd) as (p' & E & K).
  exists p'. split; [exact E|]. rewrite (edge_pixels_unique gt g Wg Hg).
  replace (tolerance2 md (nonzero gt)) with (tolerance2 md p) by (unfold tolerance2; cbn [nonzero imap ht wd]; rewrite S1, S2; reflexivity). exact K.
Qed.
Print Assumptions kill_internal_exact.
(** It adds nothing, keeps everything within tolerance of the ground truth and everything outside
    the mask, and applying it twice equals applying it once. *)
Theorem kill_internal_consequences : forall p g seg tol2 p', killed p g seg tol2 p' ->
  (forall y x, px false p' y x = true -> px false p y x = true) /\
  (forall y x y' x', px false p y x = true -> px false g y' x' = true -> (inject_Z (sqdist y x y' x') <= tol2)%Q -> px false p' y x = true) /\
  (forall y x, px false p y x = true -> px false seg y x = false -> px false p' y x = true) /\
  (forall p'', killed p' g seg tol2 p'' -> p'' = p').
Proof.
  intros p g seg tol2 p' K. assert (K' := K). destruct K' as (W & Sh & H). split; [intros y x E; apply H, E|]. split; [|split].
  - intros y x y' x' A B C. exact (killed_keeps p g seg tol2 p' y x y' x' K A B C).
  - intros y x A B. apply H. split; [exact A|]. intros [C _]. congruence.
  - intros p'' K2. apply (killed_unique p' g seg tol2); [exact K2|]. split; [exact W|]. split; [split; reflexivity|].
    intros y x. split; [|tauto]. intros E. split; [exact E|]. apply H, E.
Qed.
Print Assumptions kill_internal_consequences.

(** Within a whole evaluation: turning [kill_internal] on never changes [count_r], [sum_r],
    [count_p] or the random numbers drawn, and only lowers [sum_p]. *)
Theorem kill_internal_only_lowers_sum_p : forall fuel pfuel lib thresholds pred pred' gt seg max_dist thin skip nms s c s',
  maybe_nms lib nms pred = Ok pred' -> wf pred' -> wf gt -> wf seg -> binary gt -> same_shape gt seg -> same_shape gt pred' -> (0 < max_dist)%Q ->
  evaluate_multi_label fuel pfuel lib thresholds pred gt None max_dist thin false skip nms s = Ok (Some (c, s')) ->
  exists sums, evaluate_multi_label fuel pfuel lib thresholds pred gt (Some (SegBool seg)) max_dist thin true skip nms s =
      Ok (Some (mkCounts (count_r c) (sum_r c) (count_p c) sums, s')) /\
    Forall2 Z.le sums (sum_p c).
Proof.
  intros F P lib ths pred pred' gt seg md thin skip nms s c s' En Wp Wg Ws B Sg [S1 S2] Pd E. unfold evaluate_multi_label in *.
  destruct (skip && negb (any_nonzero gt)).
  { injection E as <- <-. exists (map sp (map (fun _ => mkR4 0 0 0 0) ths)). split; [reflexivity|]. cbn [sum_p to_counts]. rewrite map_map. clear. induction ths; constructor; [reflexivity|assumption]. }
  rewrite En in *. cbn [bind] in *. unfold then_ in *.
  destruct (forM (multi_label_step F P pred' gt None md thin false) ths s) as [[[l s1]|]|e] eqn:El; cbn [bind] in E; try discriminate. injection E as <- <-.
  assert (Step : forall t s a s', multi_label_step F P pred' gt None md thin false t s = Ok (Some (a, s')) ->
    exists n, n <= sp a /\ multi_label_step F P pred' gt (Some (SegBool seg)) md thin true t s = Ok (Some (mkR4 (cr a) (sr a) (cp a) n, s'))).
  { intros t s0 a s0' Ea. unfold multi_label_step in *. destruct (any_nonzero gt).
    - set (p := maybe_thin thin (thresholded pred' t)) in *. destruct (predicted_wf _ _ _ _ (maybe_thin_predicted thin pred' t Wp)) as [Wq [Q1 Q2]]. fold p in Wq, Q1, Q2.
      destruct (kill_spec p gt seg md Wq Wg Ws B Sg ltac:(split; congruence) Pd) as (p' & Ek & K). rewrite Ek. cbn [bind] in *.
      exists (Z.of_nat (count_true p')). split; [|apply (score_killed F P p p' gt seg md s0 a s0' K Ea)].
      rewrite (score_sp _ _ _ _ _ _ _ _ Ea), img_sum_binary. destruct K as (Wk & [K1 K2] & K).
      assert (L : (count_true p' <= count_true p)%nat); [|lia]. apply count_true_le; [exact Wk|exact Wq|split; assumption|]. intros y x C. apply K, C.
    - injection Ea as <- <-. eexists. split; [apply Z.le_refl|reflexivity]. }
  clear En. assert (G : forall ths s l s1, forM (multi_label_step F P pred' gt None md thin false) ths s = Ok (Some (l, s1)) ->
    exists l', forM (multi_label_step F P pred' gt (Some (SegBool seg)) md thin true) ths s = Ok (Some (l', s1)) /\
      map cr l' = map cr l /\ map sr l' = map sr l /\ map cp l' = map cp l /\ Forall2 Z.le (map sp l') (map sp l)).
  { clear - Step. induction ths as [|t ths IH]; intros s l s1 E.
    - injection E as <- <-. exists []. repeat (split; [reflexivity|]). constructor.
    - cbn [forM] in *. unfold then_ in *. destruct (multi_label_step F P pred' gt None md thin false t s) as [[[a s2]|]|e] eqn:Ea; cbn [bind] in E; try discriminate.
      destruct (forM _ ths s2) as [[[l2 s3]|]|e] eqn:El2; cbn [bind] in E; try discriminate. injection E as <- <-.
      destruct (Step t s a s2 Ea) as (n & Ln & Es). rewrite Es. cbn [bind]. destruct (IH s2 l2 s3 El2) as (l' & El' & A & B & C & D). rewrite El'. cbn [bind ret].
      exists (mkR4 (cr a) (sr a) (cp a) n :: l'). split; [reflexivity|]. cbn [map cr sr cp sp]. rewrite A, B, C. repeat (split; [reflexivity|]). constructor; assumption. }
  destruct (G ths s l s1 El) as (l' & El' & A & Bb & C & D). rewrite El'. cbn [bind ret]. exists (map sp l'). split; [|exact D].
  unfold to_counts. rewrite A, Bb, C. reflexivity.
Qed.
Print Assumptions kill_internal_only_lowers_sum_p.

Theorem kill_internal_needs_segmentation : forall fuel pfuel lib t thresholds pred gt max_dist thin skip s, wf gt ->
  (exists y x, px 0 gt y x <> 0) ->
  evaluate_multi_label fuel pfuel lib (t :: thresholds) pred gt None max_dist thin true skip false s = Err AssertionError.
Proof.
  intros F P lib t ths pred gt md thin skip s W (y & x & N). unfold evaluate_multi_label.
  assert (A : any_nonzero gt = true) by (destruct (any_nonzero gt) eqn:A; [reflexivity|]; rewrite (proj1 (any_nonzero_spec gt W) A y x) in N; lia).
  rewrite A, andb_false_r. cbn [maybe_nms bind forM]. unfold then_, multi_label_step. rewrite A. reflexivity.
Qed.
Print Assumptions kill_internal_needs_segmentation.

(** With a segmentation of dtype uint8 (0/1 values) [np.invert] is bitwise: nothing is removed and
    the pixel values become 254 or 255. *)
Theorem kill_internal_uint8 : forall p gt seg max_dist q, wf p -> wf seg -> binary seg -> same_shape gt p ->
  kill_internal_prediction (imap b2z p) gt (SegU8 seg) max_dist = Ok q ->
  forall y x, (px false p y x = true -> px 0 q y x = 254 \/ px 0 q y x = 255) /\ (px false p y x = false -> px 0 q y x = 0).
Proof.
  intros p gt seg md q Wp Ws Bs [S1 S2] E y x. unfold kill_internal_prediction in E. destruct (negb _); [discriminate|]. destruct (negb _); [discriminate|]. injection E as <-.
  rewrite px_tab. cbn [imap ht wd]. split; intros C.
  - assert (I : inb (ht p) (wd p) y x = true) by (destruct (inb (ht p) (wd p) y x) eqn:I; [reflexivity|]; rewrite px_out in C by assumption; discriminate).
    rewrite I, px_b2z, C. cbv beta iota zeta. cbn [b2z]. destruct (Bs y x) as [Z0|Z0]; rewrite Z0; destruct (far_from _ _ _ _ _ _); cbn; lia.
  - rewrite px_b2z, C. cbn [b2z]. destruct (inb _ _ _ _); reflexivity.
Qed.
Print Assumptions kill_internal_uint8.
Theorem kill_internal_uint8_refuted :
  ~ (forall p gt g seg max_dist q, wf p -> wf gt -> wf seg -> binary gt -> binary seg -> edge_pixels gt g -> same_shape gt seg -> same_shape gt p -> (0 < max_dist)%Q ->
       kill_internal_prediction (imap b2z p) gt (SegU8 seg) max_dist = Ok q -> killed p g (nonzero seg) (tolerance2 max_dist g) (nonzero q)).
Proof.
  intros H. set (gt := mkImage 1 3 [[1; 0; 0]]). set (seg := mkImage 1 3 [[1; 1; 1]]).
  assert (Wg : wf gt) by (split; [reflexivity|repeat constructor]).
  assert (B01 : forall im : image Z, Forall (Forall (fun v => v = 0 \/ v = 1)) (rows im) -> binary im).
  { clear. intros im F y x. unfold px. destruct ((0 <=? y) && (0 <=? x)); [|left; reflexivity].
    assert (Fr : Forall (fun v => v = 0 \/ v = 1) (nth (Z.to_nat y) (rows im) [])).
    { destruct (Nat.lt_ge_cases (Z.to_nat y) (length (rows im))) as [L|L]; [|rewrite nth_overflow by exact L; constructor].
      rewrite Forall_forall in F. apply F, nth_In, L. }
    destruct (Nat.lt_ge_cases (Z.to_nat x) (length (nth (Z.to_nat y) (rows im) []))) as [L|L]; [|left; apply nth_overflow, L].
    rewrite Forall_forall in Fr. apply Fr, nth_In, L. }
  assert (K : killed (mkImage 1 3 [[false; false; true]]) (nonzero gt) (nonzero seg) (tolerance2 (1 # 10) (nonzero gt)) (nonzero (mkImage 1 3 [[0; 0; 254]]))).
  { apply (H _ gt _ seg).
    - split; [reflexivity|repeat constructor].
    - exact Wg.
    - split; [reflexivity|repeat constructor].
    - apply B01. repeat (first [apply Forall_nil|apply Forall_cons]); lia.
    - apply B01. repeat (first [apply Forall_nil|apply Forall_cons]); lia.
    - apply edge_pixels_nonzero, Wg.
    - split; reflexivity.
    - split; reflexivity.
    - reflexivity.
    - vm_compute. reflexivity. }
  destruct K as (_ & _ & K). destruct (proj1 (K 0 2) eq_refl) as [_ C]. apply C. split; [reflexivity|].
  intros y' x' G. assert (y' = 0 /\ x' = 0) as [-> ->]; [|vm_compute; reflexivity].
  apply (edge_pixels_nonzero gt Wg) in G. destruct (inb 1 3 y' x') eqn:I; [|exfalso; apply G; apply px_out; [exact Wg|exact I]].
  apply inb_spec in I. assert (y' = 0) by lia. subst y'. split; [reflexivity|]. assert (x' = 0 \/ x' = 1 \/ x' = 2) as [->|[->| ->]] by lia; [reflexivity| |]; exfalso; apply G; reflexivity.
Qed.
Print Assumptions kill_internal_uint8_refuted.

(** ** Rescaling *)
Theorem nearest_samples_the_input : forall n_in n_out i, (0 < n_in)%nat -> 0 <= i < Z.of_nat n_out ->
  0 <= nearest n_in n_out i < Z.of_nat n_in /\
  (forall j, i <= j -> nearest n_in n_out i <= nearest n_in n_out j) /\
  (n_in = n_out -> nearest n_in n_out i = i) /\
  (* the sampled input pixel contains the centre of the output pixel *)
  2 * Z.of_nat n_out * nearest n_in n_out i <= (2 * i + 1) * Z.of_nat n_in < 2 * Z.of_nat n_out * (nearest n_in n_out i + 1).
Proof.
  intros a b i Ha Hi. unfold nearest. assert (Pb : 0 < 2 * Z.of_nat b) by lia. split; [|split; [|split]].
  - split; [apply Z.div_pos; nia|]. apply Z.div_lt_upper_bound; nia.
  - intros j L. apply Z.div_le_mono; nia.
  - intros <-. symmetry. apply (Z.div_unique _ _ i (Z.of_nat a)); nia.
  - assert (D := Z.div_mod ((2 * i + 1) * Z.of_nat a) (2 * Z.of_nat b) ltac:(lia)). assert (M := Z.mod_pos_bound ((2 * i + 1) * Z.of_nat a) (2 * Z.of_nat b) Pb). lia.
Qed.
Print Assumptions nearest_samples_the_input.

Theorem resize_keeps_values : forall (im : image Z) h w y x, (0 < ht im)%nat -> (0 < wd im)%nat -> inb h w y x = true ->
  exists y' x', inb (ht im) (wd im) y' x' = true /\ px 0 (resize 0 h w im) y x = px 0 im y' x'.
Proof.
  intros im h w y x Hh Hw I. exists (nearest (ht im) h y), (nearest (wd im) w x). unfold resize. rewrite px_tab, I. split; [|reflexivity].
  apply inb_spec in I. apply inb_spec. destruct (nearest_samples_the_input (ht im) h y Hh ltac:(lia)) as [A _]. destruct (nearest_samples_the_input (wd im) w x Hw ltac:(lia)) as [B _]. lia.
Qed.
Print Assumptions resize_keeps_values.

Lemma scaled_one n : scaled n 1 = n.
Proof.
  unfold scaled, trunc. assert (E : Qfloor (inject_Z (Z.of_nat n) * 1 + (1 # 2)) = Z.of_nat n).
  { assert (A := Qfloor_le (inject_Z (Z.of_nat n) * 1 + (1 # 2))). assert (B := Qlt_floor (inject_Z (Z.of_nat n) * 1 + (1 # 2))).
    set (f := Qfloor _) in *. rewrite inject_Z_plus in B. change (inject_Z 1) with 1%Q in B.
    assert (inject_Z f < inject_Z (Z.of_nat n + 1))%Q by (rewrite inject_Z_plus; change (inject_Z 1) with 1%Q; lra).
    assert (inject_Z (Z.of_nat n) < inject_Z (f + 1))%Q by (rewrite inject_Z_plus; change (inject_Z 1) with 1%Q; lra).
    rewrite <- Zlt_Qlt in *. lia. }
  rewrite E. destruct (qlt _ 0) eqn:Q; [|lia]. apply qlt_spec in Q. exfalso.
  assert (0 <= inject_Z (Z.of_nat n))%Q by (change 0%Q with (inject_Z 0); rewrite <- Zle_Qle; lia). lra.
Qed.
Lemma resize_same_px {A} (d : A) im y x : inb (ht im) (wd im) y x = true -> px d (resize d (ht im) (wd im) im) y x = px d im y x.
Proof.
  intros I. unfold resize. rewrite px_tab, I. apply inb_spec in I.
  destruct (nearest_samples_the_input (ht im) (ht im) y ltac:(lia) ltac:(lia)) as (_ & _ & E1 & _).
  destruct (nearest_samples_the_input (wd im) (wd im) x ltac:(lia) ltac:(lia)) as (_ & _ & E2 & _). rewrite E1, E2 by reflexivity. reflexivity.
Qed.
(** At scale 1 nothing changes. *)
Theorem resize_identity : forall (im : image Z), wf im -> resize 0 (scaled (ht im) 1) (scaled (wd im) 1) im = im.
Proof.
  intros im W. rewrite !scaled_one. apply (img_ext 0); [apply wf_tab|exact W|split; reflexivity|]. intros y x I. apply resize_same_px. exact I.
Qed.
Print Assumptions resize_identity.

(** ** C38: the per-image routines *)
Definition rgb_shape (im : rgb) : Prop :=
  (ht (ch_r im) = g_h im /\ wd (ch_r im) = g_w im) /\ (ht (ch_g im) = g_h im /\ wd (ch_g im) = g_w im) /\ (ht (ch_b im) = g_h im /\ wd (ch_b im) = g_w im).
Lemma decode_resized im n : rgb_shape im -> decode_png (resize_rgb (g_h im) (g_w im) im) n = decode_png im n.
Proof.
  intros ((R1 & R2) & (G1 & G2) & (B1 & B2)). unfold decode_png. cbn [resize_rgb g_h g_w]. f_equal. apply map_ext. intros i. apply tab_ext. intros y x I.
  unfold png_bit, resize_rgb. cbn [ch_r ch_g ch_b]. f_equal. f_equal.
  destruct (i <? 8); [rewrite <- R1, <- R2 in *; apply resize_same_px; exact I|]. destruct (i <? 16); [rewrite <- G1, <- G2 in *|rewrite <- B1, <- B2 in *]; apply resize_same_px; exact I.
Qed.
(** The mask of a class in a segmentation file that stores [label] for it. *)
Definition class_mask (seg : image Z) (label : Z) (m : image bool) : Prop :=
  wf m /\ same_shape m seg /\ forall y x, px false m y x = true <-> inb (ht seg) (wd seg) y x = true /\ px 0 seg y x = label.
Lemma category_seg_mask seg c : wf seg -> class_mask seg (c - 1) (category_seg seg c).
Proof.
  intros W. split; [apply wf_imap, W|]. split; [split; reflexivity|]. intros y x. unfold category_seg. destruct (inb (ht seg) (wd seg) y x) eqn:I.
  - rewrite (px_dflt false (0 =? c - 1) _ y x) by (solve [exact I|apply wf_imap, W]). rewrite (px_imap (fun v => v =? c - 1) 0). lia.
  - rewrite px_out by (solve [exact I|apply wf_imap, W]). split; [discriminate|]. intros [C _]. discriminate.
Qed.
Lemma class_mask_unique seg l m m' : class_mask seg l m -> class_mask seg l m' -> m = m'.
Proof.
  intros (W & [S1 S2] & H) (W' & [S1' S2'] & H'). apply (img_ext false); [exact W|exact W'|split; congruence|].
  intros y x _. specialize (H y x). specialize (H' y x). destruct (px false m y x), (px false m' y x); try reflexivity.
  - symmetry. apply H'. apply H. reflexivity.
  - apply H. apply H'. reflexivity.
Qed.

(** Cityscapes and SBD at full scale: the ground truth is channel category-1 of the PNG and the
    mask used for [kill_internal] is that of the pixels labelled category-1. *)
Theorem stored_evaluation_at_full_scale : forall fuel pfuel lib border edge seg pred category m max_dist thr thin nms kill skip n s,
  rgb_shape edge -> wf seg -> wf pred -> ht seg = g_h edge -> wd seg = g_w edge -> ht pred = g_h edge -> wd pred = g_w edge ->
  class_mask seg (category - 1) m ->
  evaluate_single_png fuel pfuel lib border edge seg pred category 1 max_dist thr thin nms kill skip n s =
  bind (check_thresholds thr) (fun th => bind (chan_at (decode_png edge n) (category - 1)) (fun gt =>
    evaluate_multi_label fuel pfuel lib th (if border then blank_border (unit_range pred) else unit_range pred) gt
      (if kill then Some (SegBool m) else None) max_dist thin kill skip nms s)).
Proof.
  intros F P lib border edge seg pred category m md thr thin nms kill skip n s Re Ws Wp H1 H2 H3 H4 Hm. unfold evaluate_single_png, category_edge.
  rewrite !scaled_one, (decode_resized edge n Re).
  assert (Ep : resize 0 (g_h edge) (g_w edge) pred = pred) by (rewrite <- H3, <- H4; rewrite <- (scaled_one (ht pred)), <- (scaled_one (wd pred)); apply resize_identity, Wp).
  assert (Es : resize 0 (g_h edge) (g_w edge) seg = seg) by (rewrite <- H1, <- H2; rewrite <- (scaled_one (ht seg)), <- (scaled_one (wd seg)); apply resize_identity, Ws).
  rewrite Ep, Es, (class_mask_unique _ _ _ _ (category_seg_mask seg category Ws) Hm). destruct kill; reflexivity.
Qed.
Print Assumptions stored_evaluation_at_full_scale.

(** Cityscapes segmentation files hold train ids, class c being c-1: the mask is the right one.
    SBD segmentation files hold label ids, class c being c (0 is background): the mask is that of
    the preceding class, and for class 1 that of the background. *)
Theorem cityscapes_mask_is_the_class : forall label_img category label m, wf label_img -> In (label, category - 1) CITYSCAPES_label2trainId ->
  (class_mask (mask_label2trainId label_img CITYSCAPES_label2trainId) (category - 1) m <-> class_mask label_img label m).
Proof.
  intros im category label m W Hin. set (d := CITYSCAPES_label2trainId) in *.
  assert (N : NoDup (map fst d)) by (repeat (constructor; [cbn; intuition discriminate|]); constructor).
  assert (N2 : NoDup (map snd d)) by (repeat (constructor; [cbn; intuition discriminate|]); constructor).
  assert (R : forall l t, In (l, t) d -> 0 <= t <= 255) by (intros l t H; pose proof (cityscapes_in l t H); lia).
  destruct (mask_conversion_shape im d) as (Wt & H1 & H2).
  assert (FUN : forall t l l', In (l, t) d -> In (l', t) d -> l = l').
  { clear - N2. induction d as [|[a b] d IH]; intros t l l' []; cbn [map snd] in N2; inversion N2; subst.
    - injection H as -> ->. intros [E|H]; [congruence|]. exfalso. apply H2. apply in_map_iff. exists (l', t); auto.
    - intros [E|H']; [|eapply IH; eauto]. injection E as -> ->. exfalso. apply H2. apply in_map_iff. exists (l, t); auto. }
  assert (K : forall y x, inb (ht im) (wd im) y x = true -> (px 0 (mask_label2trainId im d) y x = category - 1 <-> px 0 im y x = label)).
  { intros y x I. destruct (mask_conversion im d y x N R I) as [A B]. split.
    - intros E. destruct (in_dec Z.eq_dec (px 0 im y x) (map fst d)) as [J|J].
      + apply in_map_iff in J. destruct J as ([l t] & El & J). cbn [fst] in El. subst l. rewrite (A t J) in E. subst t. exact (FUN _ _ _ J Hin).
      + rewrite (B J) in E. pose proof (cityscapes_in _ _ Hin). lia.
    - intros E. rewrite E in A. apply A. exact Hin. }
  unfold class_mask. split; intros (Wm & [S1 S2] & H); (split; [exact Wm|]); (split; [split; congruence|]); intros y x; rewrite (H y x); rewrite ?H1, ?H2; split; intros [I E]; (split; [exact I|]); apply (K y x I); exact E.
Qed.
Print Assumptions cityscapes_mask_is_the_class.

(** A 12 x 12 SBD sample: one ground truth pixel of class 1 in the corner, one predicted pixel at
    (5, 5), which the segmentation labels as background (0).  The prediction lies outside class 1,
    yet it is removed. *)
Definition ex_bg_edge : rgb := mkRGB 12 12 (zeros 12 12) (zeros 12 12) (tab 12 12 (fun y x => b2z ((y =? 0) && (x =? 0)))).
Definition ex_bg_pred : image Z := tab 12 12 (fun y x => if (y =? 5) && (x =? 5) then 255 else 0).
Definition ex_bg_seg : image Z := zeros 12 12.
Lemma ex_bg_result : forall s, sbd_eval_single 0 0 no_libm ex_bg_edge ex_bg_seg ex_bg_pred 1 1 (1 # 50)%Q (AFloat (1 # 2)) false false true false 20 s
  = Ok (Some (mkCounts [0] [1] [0] [0], s)).
Proof. intros s. vm_compute. reflexivity. Qed.
Theorem sbd_mask_is_the_class_refuted :
  ~ (forall fuel pfuel lib edge seg pred category max_dist t s c s' gt g m p p',
       rgb_shape edge -> wf seg -> wf pred -> ht seg = g_h edge -> wd seg = g_w edge -> ht pred = g_h edge -> wd pred = g_w edge ->
       1 <= category <= 20 -> class_mask seg category m ->
       chan_at (decode_png edge 20) (category - 1) = Ok gt -> edge_pixels gt g -> (exists y x, px false g y x = true) ->
       predicted false (blank_border (unit_range pred)) t p -> killed p g m (tolerance2 max_dist g) p' ->
       sbd_eval_single fuel pfuel lib edge seg pred category 1 max_dist (AFloat t) false false true false 20 s = Ok (Some (c, s')) ->
       sum_p c = [Z.of_nat (count_true p')]).
Proof.
  intros H. set (gt := tab 12 12 (fun y x => b2z ((y =? 0) && (x =? 0)))).
  assert (Egt : chan_at (decode_png ex_bg_edge 20) (1 - 1) = Ok gt) by (vm_compute; reflexivity).
  set (p := thresholded (blank_border (unit_range ex_bg_pred)) (1 # 2)).
  assert (Wp : wf (blank_border (unit_range ex_bg_pred))) by apply wf_tab.
  assert (C : sum_p (mkCounts [0] [1] [0] [0]) = [Z.of_nat (count_true p)]).
  { apply (H 0%nat 0%nat no_libm ex_bg_edge ex_bg_seg ex_bg_pred 1 (1 # 50)%Q (1 # 2)%Q (fun _ => 0) _ (fun _ => 0) gt (nonzero gt) (tab 12 12 (fun _ _ => false)) p p).
    - split; [|split]; split; reflexivity.
    - apply wf_tab.
    - apply wf_tab.
    - reflexivity.
    - reflexivity.
    - reflexivity.
    - reflexivity.
    - lia.
    - split; [apply wf_tab|]. split; [split; reflexivity|]. intros y x. unfold ex_bg_seg, zeros. rewrite !px_tab. split; [destruct (inb 12 12 y x); discriminate|].
      intros [_ E]. destruct (inb 12 12 y x); discriminate.
    - exact Egt.
    - apply edge_pixels_nonzero, wf_tab.
    - exists 0, 0. reflexivity.
    - apply (maybe_thin_predicted false). exact Wp.
    - split; [apply wf_imap, Wp|]. split; [split; reflexivity|]. intros y x. split; [|tauto]. intros E. split; [exact E|]. intros [F _]. rewrite px_tab in F. destruct (inb 12 12 y x); discriminate.
    - apply ex_bg_result. }
  vm_compute in C. discriminate.
Qed.
Print Assumptions sbd_mask_is_the_class_refuted.

Lemma rgb_loop_shape h w l : forall k b g r b' g' r', (ht b = h /\ wd b = w) -> (ht g = h /\ wd g = w) -> (ht r = h /\ wd r = w) ->
  rgb_loop h w k l b g r = Ok (b', g', r') -> (ht b' = h /\ wd b' = w) /\ (ht g' = h /\ wd g' = w) /\ (ht r' = h /\ wd r' = w).
Proof.
  induction l as [|e l IH]; intros k b g r b' g' r' B G R E; cbn [rgb_loop] in E; [injection E as <- <- <-; auto|].
  destruct (Nat.ltb k 8); [eapply IH; [| | |exact E]; auto; split; reflexivity|].
  destruct (Nat.ltb k 16); [eapply IH; [| | |exact E]; auto; split; reflexivity|].
  destruct (Nat.ltb k 24); [eapply IH; [| | |exact E]; auto; split; reflexivity|discriminate].
Qed.
Lemma encoded_shape edges im : rgb_multilabel_encoding edges = Ok im -> rgb_shape im /\ g_h im = s_h edges /\ g_w im = s_w edges.
Proof.
  unfold rgb_multilabel_encoding. destruct (rgb_loop _ _ _ _ _ _ _) as [[[b g] r]|] eqn:E; [|discriminate]. cbn [bind]. intros H. injection H as <-.
  apply rgb_loop_shape in E; [|split; reflexivity|split; reflexivity|split; reflexivity]. destruct E as (B & G & R). split; [|split; reflexivity]. split; [|split]; assumption.
Qed.
(** Evaluating a stored Cityscapes ground truth equals evaluating it on the fly, for every option,
    prediction and state of the generator. *)
Theorem stored_evaluation_equals_on_the_fly : forall img inst radius category png, wf img -> (34 <= ht img)%nat -> 1 <= category <= 19 ->
  match inst with
  | None => True
  | Some i => wf i /\ ht i = ht img /\ wd i = wd img /\ (forall id, has_id i id -> 0 <= id < 100000)
  end ->
  convert_png inst radius false img = Ok png ->
  forall fuel pfuel lib pred max_dist thr thin nms kill skip s, wf pred -> same_shape pred img ->
  cityscapes_eval_single fuel pfuel lib png (mask_label2trainId img CITYSCAPES_label2trainId) pred category 1 max_dist thr thin nms kill skip 19 s =
  otf_eval_single fuel pfuel lib img inst pred category 1 max_dist thr thin nms kill skip radius s.
Proof.
  intros img inst radius category png W Hr Hc Hi Ec F P lib pred md thr thin nms kill skip s Wp [S1 S2].
  destruct (stored_png_equals_on_the_fly img inst radius category W Hr Hc Hi) as (png' & e & Ec' & Eo & Ech). rewrite Ec in Ec'. injection Ec' as <-.
  destruct (mask_conversion_shape img CITYSCAPES_label2trainId) as (Wt & T1 & T2).
  assert (Sp : rgb_shape png /\ g_h png = ht img /\ g_w png = wd img).
  { unfold convert_png in Ec. destruct (convert_edges inst radius false img) as [edges|] eqn:Ee; [|discriminate]. cbn [bind] in Ec.
    destruct (encoded_shape edges png Ec) as (R & -> & ->). split; [exact R|].
    unfold convert_edges in Ee. cbn [andb] in Ee. destruct (mask2onehot img CITYSCAPES_labelIds) as [m|] eqn:Em; [|discriminate]. cbn [bind] in Ee.
    destruct (onehot_parts _ _ _ Em) as (_ & _ & M1 & M2 & _). rewrite <- M1, <- M2.
    destruct (match inst with Some i => loop_instance_mask2edge m i CITYSCAPES_inst_labelIds [2; 3] radius false false | None => loop_mask2edge m [2; 3] radius false false end) as [r|] eqn:Er; [|discriminate].
    cbn [bind] in Ee. unfold edge_label2trainId in Ee. destruct (l2t_loop _ _ _); [|discriminate]. cbn [bind] in Ee. injection Ee as <-. cbn [s_h s_w]. destruct inst as [i|].
    - unfold loop_instance_mask2edge in Er. destruct (ignore_of m [2; 3]); [|discriminate]. cbn [bind] in Er. destruct (sorted_head _); [|discriminate]. cbn [bind] in Er.
      destruct (build_insts _ _ _); [|discriminate]. cbn [bind] in Er. injection Er as <-. split; reflexivity.
    - unfold loop_mask2edge in Er. destruct (ignore_of m [2; 3]); [|discriminate]. cbn [bind] in Er. injection Er as <-. split; reflexivity. }
  destruct Sp as (R & G1 & G2). unfold cityscapes_eval_single.
  rewrite (stored_evaluation_at_full_scale F P lib false png _ pred category _ md thr thin nms kill skip 19 s R Wt Wp ltac:(congruence) ltac:(congruence) ltac:(congruence) ltac:(congruence) (category_seg_mask _ category Wt)).
  unfold otf_eval_single. rewrite !scaled_one.
  assert (Id : forall im : image Z, wf im -> ht im = ht img -> wd im = wd img -> resize 0 (ht img) (wd img) im = im).
  { intros im Wi E1 E2. rewrite <- E1, <- E2. rewrite <- (scaled_one (ht im)), <- (scaled_one (wd im)). apply resize_identity, Wi. }
  rewrite (Id img W eq_refl eq_refl), (Id pred Wp S1 S2).
  assert (Oi : option_map (resize 0 (ht img) (wd img)) inst = inst) by (destruct inst as [i|]; [|reflexivity]; destruct Hi as (Wi & I1 & I2 & _); cbn [option_map]; rewrite (Id i Wi I1 I2); reflexivity).
  rewrite Oi, Eo. cbn [bind].
  assert (Ek : chan_at (decode_png png 19) (category - 1) = Ok e).
  { unfold chan_at. rewrite (pyidx_pos _ (category - 1)).
    - f_equal. exact Ech.
    - replace (length (chans (decode_png png 19))) with 19%nat by reflexivity. lia. }
  rewrite Ek. cbn [bind]. destruct (check_thresholds thr); [|reflexivity]. cbn [bind]. reflexivity.
Qed.
Print Assumptions stored_evaluation_equals_on_the_fly.
