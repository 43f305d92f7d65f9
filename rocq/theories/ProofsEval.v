(** Proofs about the evaluation of one image. *)
From Verif Require Export SpecEval ProofsThin ProofsEdges ProofsMatch4 PropertiesMatch.
From Coq Require Import Lia ZifyBool ZifyNat Lqa.
Open Scope Z_scope.
Open Scope list_scope.

Section Delivers.
Context {A B : Type}.
Lemma delivers_ret (a : A) s (post : A -> Prop) : raw_values s -> post a -> delivers (fun _ _ => ret a) s post.
Proof.
  intros V H. split.
  - intros. exists (Some (a, s)). split; [reflexivity|]. intros ? ? E. injection E as <- <-. split; assumption.
  - exists O, O, a, s. reflexivity.
Qed.
Lemma delivers_then (m : nat -> nat -> run A) (f : nat -> nat -> A -> run B) s (P1 : A -> Prop) (P2 : B -> Prop) :
  delivers m s P1 -> (forall a s', raw_values s' -> P1 a -> delivers (fun F P => f F P a) s' P2) ->
  delivers (fun F P => then_ (m F P) (f F P)) s P2.
Proof.
  intros [S (F & P & a & s' & T)] K. split.
  - intros fuel pfuel. destruct (S fuel pfuel) as (r & E & H). unfold then_. rewrite E. cbn [bind]. destruct r as [[b sb]|].
    + destruct (H _ _ eq_refl) as [V Q]. destruct (K b sb V Q) as [S2 _]. exact (S2 fuel pfuel).
    + exists None. split; [reflexivity|]. intros ? ? E0. discriminate.
  - destruct (S F P) as (r & E & H). rewrite (T F P (le_n _) (le_n _)) in E. injection E as <-. destruct (H _ _ eq_refl) as [V Q].
    destruct (K a s' V Q) as [_ (F2 & P2' & b & sb & T2)]. exists (Nat.max F F2), (Nat.max P P2'), b, sb. intros fuel pfuel HF HP.
    unfold then_. rewrite T by lia. cbn [bind]. apply T2; lia.
Qed.
Lemma delivers_weaken (m : nat -> nat -> run A) s (P1 P2 : A -> Prop) : delivers m s P1 -> (forall a, P1 a -> P2 a) -> delivers m s P2.
Proof.
  intros [S T] K. split; [|exact T]. intros fuel pfuel. destruct (S fuel pfuel) as (r & E & H). exists r. split; [exact E|].
  intros a s' Er. destruct (H a s' Er) as [V Q]. split; [exact V|apply K, Q].
Qed.
Lemma delivers_ext (m m' : nat -> nat -> run A) s post : (forall F P, m F P s = m' F P s) -> delivers m s post -> delivers m' s post.
Proof.
  intros E [S (F & P & a & s' & T)]. split.
  - intros fuel pfuel. rewrite <- E. apply S.
  - exists F, P, a, s'. intros. rewrite <- E. apply T; assumption.
Qed.
End Delivers.

Lemma delivers_forM {A B} (f : nat -> nat -> A -> run B) (R : A -> B -> Prop) l : forall s, raw_values s ->
  (forall a s', In a l -> raw_values s' -> delivers (fun F P => f F P a) s' (R a)) ->
  delivers (fun F P => forM (f F P) l) s (fun bs => Forall2 R l bs).
Proof.
  induction l as [|a l IH]; intros s V H.
  - apply delivers_ret; [exact V|constructor].
  - cbn [forM]. apply (delivers_then (fun F P => f F P a) _ s (R a)); [apply H; [left; reflexivity|exact V]|].
    intros b s' V' Rb. apply (delivers_then (fun F P => forM (f F P) l) _ s' (fun bs => Forall2 R l bs)).
    + apply IH; [exact V'|]. intros a' s'' I. apply H. right. exact I.
    + intros bs s'' V'' Rbs. apply delivers_ret; [exact V''|constructor; assumption].
Qed.


Lemma correspond_delivers p g max_dist : wf (nonzero p) -> wf (nonzero g) -> same_shape p g -> (0 < max_dist)%Q ->
  ((0 < ht p)%nat \/ (0 < wd p)%nat) -> forall s, raw_values s ->
  delivers (fun F P => correspond F P p g max_dist) s (fun o => is_correspondence (nonzero p) (nonzero g) (tolerance2 max_dist (nonzero p)) (m1 o) (m2 o)).
Proof.
  intros Wp Wg Sh Pd Ne s V. split.
  - intros fuel pfuel. destruct (api_sound (nonzero p) (nonzero g) max_dist 100 Wp Wg Sh Pd ltac:(reflexivity) Ne fuel pfuel s V) as (r & E & H).
    exists r. split; [exact E|]. intros o s' ->. destruct H as [V' R]. split; [exact V'|].
    exact (api_correspondence (nonzero p) (nonzero g) max_dist 100 Wp Wg Sh s o s' R).
  - destruct (api_total (nonzero p) (nonzero g) max_dist 100 Wp Wg Sh Pd ltac:(reflexivity) Ne s V) as (F & P & o & s' & T & _).
    exists F, P, o, s'. exact T.
Qed.

(** ** Sums and edge maps *)
Lemma img_sum_binary (g : image bool) : img_sum (imap b2z g) = Z.of_nat (count_true g).
Proof.
  unfold img_sum, count_true, imap. cbn [rows].
  assert (E : forall ll, zsum (List.concat (map (map b2z) ll)) = Z.of_nat (List.length (filter (fun b => b) (List.concat ll)))).
  { induction ll as [|l ll IH]; [reflexivity|]. cbn [map List.concat]. rewrite zsum_app, filter_app, app_length, IH.
    rewrite Nat2Z.inj_add. f_equal. clear. induction l as [|b l IH]; [reflexivity|]. change (zsum (map b2z (b :: l))) with (b2z b + zsum (map b2z l)).
    rewrite IH. destruct b; cbn [filter List.length b2z]; lia. }
  apply E.
Qed.
Lemma nonzero_b2z (g : image bool) : nonzero (imap b2z g) = g.
Proof.
  unfold nonzero, imap. cbn [ht wd rows]. destruct g as [h w r]. cbn [ht wd rows]. f_equal. rewrite map_map. rewrite <- (map_id r) at 2.
  apply map_ext. intros l. rewrite map_map. rewrite <- (map_id l) at 2. apply map_ext. intros []; reflexivity.
Qed.
Lemma edge_pixels_unique gt g : wf gt -> edge_pixels gt g -> g = nonzero gt.
Proof.
  intros W (Wg & [S1 S2] & E). apply (img_ext false); [exact Wg|apply wf_imap, W|split; assumption|].
  intros y x I. unfold nonzero. assert (X := px_imap (fun v => negb (v =? 0)) 0 gt y x). cbv beta in X. change (negb (0 =? 0)) with false in X. rewrite X.
  specialize (E y x). destruct (px false g y x); destruct (Z.eqb_spec (px 0 gt y x) 0) as [Z0|N0]; try reflexivity.
  - destruct E as [E _]. specialize (E eq_refl). congruence.
  - destruct E as [_ E]. specialize (E N0). discriminate.
Qed.
Lemma edge_pixels_nonzero gt : wf gt -> edge_pixels gt (nonzero gt).
Proof.
  intros W. split; [apply wf_imap, W|]. split; [split; reflexivity|]. intros y x.
  assert (X := px_imap (fun v => negb (v =? 0)) 0 gt y x). cbv beta in X. change (negb (0 =? 0)) with false in X. unfold nonzero. rewrite X. lia.
Qed.
Lemma binary_is_b2z gt : wf gt -> binary gt -> gt = imap b2z (nonzero gt).
Proof.
  intros W B. apply (img_ext 0); [exact W|apply wf_imap, wf_imap, W|split; reflexivity|]. intros y x _.
  assert (X := px_imap b2z false (nonzero gt) y x). change (b2z false) with 0 in X. rewrite X.
  assert (Y := px_imap (fun v => negb (v =? 0)) 0 gt y x). cbv beta in Y. change (negb (0 =? 0)) with false in Y. unfold nonzero. rewrite Y.
  destruct (B y x) as [E|E]; rewrite E; reflexivity.
Qed.
(** [match > 0] are the non-zero entries of a correspondence. *)
Lemma positives_matched b1 b2 tol2 m1 m2 y x : wf b1 -> wf b2 -> same_shape b1 b2 -> is_correspondence b1 b2 tol2 m1 m2 ->
  px 0 m1 y x <> 0 -> 0 < px 0 m1 y x.
Proof.
  intros W1 W2 [S1 S2] (_ & _ & P & _) N. destruct (P y x N) as (_ & y' & x' & E & I & _). rewrite E. unfold pixel_code.
  destruct (inb (ht b2) (wd b2) y' x') eqn:J; [|rewrite px_out in I by assumption; discriminate]. apply inb_spec in J. nia.
Qed.
Lemma positives_eq b1 b2 tol2 m1 m2 : wf b1 -> wf b2 -> same_shape b1 b2 -> is_correspondence b1 b2 tol2 m1 m2 ->
  positives m1 = imap (fun v => negb (v =? 0)) m1.
Proof.
  intros W1 W2 Sh K. assert (Wm : wf m1) by apply K. apply (img_ext false); [apply wf_imap, Wm|apply wf_imap, Wm|split; reflexivity|].
  intros y x _. assert (X := px_imap (fun v => 0 <? v) 0 m1 y x). cbv beta in X. change (0 <? 0) with false in X. unfold positives. rewrite X.
  assert (Y := px_imap (fun v => negb (v =? 0)) 0 m1 y x). cbv beta in Y. change (negb (0 =? 0)) with false in Y. rewrite Y.
  destruct (Z.eq_dec (px 0 m1 y x) 0) as [->|N]; [reflexivity|]. assert (Q := positives_matched _ _ _ _ _ y x W1 W2 Sh K N). lia.
Qed.
Lemma positives_count b1 b2 tol2 m1 m2 : wf b1 -> wf b2 -> same_shape b1 b2 -> is_correspondence b1 b2 tol2 m1 m2 ->
  count_true (positives m1) = matched m1.
Proof. intros W1 W2 S K. unfold matched. f_equal. exact (positives_eq b1 b2 tol2 m1 m2 W1 W2 S K). Qed.

(** ** Predicted pixels *)
Lemma thresholded_strong pred t : wf pred -> strong_pixels pred t (thresholded pred t).
Proof.
  intros W. split; [apply wf_imap, W|]. split; [split; reflexivity|]. intros y x. unfold thresholded.
  destruct (inb (ht pred) (wd pred) y x) eqn:I.
  - rewrite (px_dflt false (Qle_bool t 0) _ y x) by (solve [exact I | apply wf_imap, W]). rewrite (px_imap (fun v => Qle_bool t v) 0%Q).
    rewrite Qle_bool_iff. tauto.
  - rewrite px_out by (solve [exact I | apply wf_imap, W]). split; [discriminate|intros [C _]; discriminate].
Qed.
Lemma maybe_thin_predicted thin pred t : wf pred -> predicted thin pred t (maybe_thin thin (thresholded pred t)).
Proof.
  intros W. assert (S := thresholded_strong pred t W). unfold predicted, maybe_thin. destruct thin; [|exact S].
  destruct (binary_thin_total None (Bin (thresholded pred t)) (proj1 S)) as (r & E). rewrite E. exists (thresholded pred t), r. auto.
Qed.
Lemma predicted_wf thin pred t p : predicted thin pred t p -> wf p /\ same_shape p pred.
Proof.
  unfold predicted. destruct thin; [|intros (W & S & _); auto]. intros (q & r & (W & [S1 S2] & _) & E & ->).
  destruct (binary_thin_shrinks None (Bin q) r W E) as (Wr & [R1 R2] & _). cbn [as_bool] in R1, R2. split; [exact Wr|split; congruence].
Qed.

(** ** One threshold *)
Definition row_ok (p g : image bool) (tol2 : Q) (a : row4) : Prop := counted p g tol2 (cr a) (sr a) (cp a) (sp a).
Lemma score_delivers p gt max_dist : wf p -> wf gt -> binary gt -> same_shape p gt -> (0 < max_dist)%Q ->
  ((0 < ht p)%nat \/ (0 < wd p)%nat) -> forall s, raw_values s ->
  delivers (fun F P => score_against F P (imap b2z p) gt max_dist) s (row_ok p (nonzero gt) (tolerance2 max_dist p)).
Proof.
  intros Wp Wg Bg Sh Pd Ne s V. unfold score_against.
  assert (Wg' : wf (nonzero gt)) by apply wf_imap, Wg.
  apply (delivers_then (fun F P => correspond F P (imap b2z p) gt max_dist) _ s
     (fun o => is_correspondence p (nonzero gt) (tolerance2 max_dist p) (m1 o) (m2 o))).
  - assert (D := correspond_delivers (imap b2z p) gt max_dist). rewrite nonzero_b2z in D. apply D; auto.
  - intros o s' V' K. apply delivers_ret; [exact V'|]. exists (m1 o), (m2 o). cbn [cr sr cp sp]. split; [exact K|].
    assert (Sh' : same_shape p (nonzero gt)) by exact Sh.
    split; [f_equal; apply (positives_count (nonzero gt) p (tolerance2 max_dist p) (m2 o) (m1 o)); [exact Wg'|exact Wp|split; symmetry; apply Sh'|exact (correspondence_sym _ _ _ _ _ K)]|].
    split; [rewrite (binary_is_b2z gt Wg Bg) at 1; apply img_sum_binary|].
    split; [f_equal; exact (positives_count p (nonzero gt) _ (m1 o) (m2 o) Wp Wg' Sh' K)|apply img_sum_binary].
Qed.
Lemma empty_row p gt max_dist : wf p -> wf gt -> same_shape p gt -> any_nonzero gt = false ->
  row_ok p (nonzero gt) (tolerance2 max_dist p) (mkR4 0 0 0 (img_sum (imap b2z p))).
Proof.
  intros Wp Wg Sh E. rename E into E0. assert (E := proj1 (any_nonzero_spec gt Wg) E0).
  exists (tab (ht p) (wd p) (fun _ _ => 0)), (tab (ht p) (wd p) (fun _ _ => 0)). cbn [cr sr cp sp].
  assert (Z0 : forall y x, px 0 (tab (ht p) (wd p) (fun _ _ => 0)) y x = 0) by (intros; rewrite px_tab; destruct (inb _ _ y x); reflexivity).
  assert (M0 : matched (tab (ht p) (wd p) (fun _ _ => 0)) = 0%nat).
  { unfold matched. destruct (count_true _) eqn:C; [reflexivity|]. exfalso. rewrite count_true_fg in C by (apply wf_imap, wf_tab).
    destruct (fg_list _) as [|[y x] l] eqn:F; [discriminate|]. assert (I : In (y, x) (fg_list (imap (fun v => negb (v =? 0)) (tab (ht p) (wd p) (fun _ _ => 0)))))
      by (rewrite F; left; reflexivity). apply in_fg_list in I; [|apply wf_imap, wf_tab].
    assert (X := px_imap (fun v => negb (v =? 0)) 0 (tab (ht p) (wd p) (fun _ _ => 0)) y x). cbv beta in X. change (negb (0 =? 0)) with false in X.
    rewrite X, Z0 in I. discriminate. }
  split.
  - split; [split; [apply wf_tab|split; reflexivity]|]. split; [split; [apply wf_tab|exact Sh]|].
    split; intros y x C; exfalso; apply C; apply Z0.
  - rewrite M0. split; [reflexivity|]. split; [|split; [reflexivity|apply img_sum_binary]].
    destruct (count_true (nonzero gt)) eqn:C; [reflexivity|]. exfalso. rewrite count_true_fg in C by apply wf_imap, Wg.
    destruct (fg_list _) as [|[y x] l] eqn:F; [discriminate|]. assert (I : In (y, x) (fg_list (nonzero gt))) by (rewrite F; left; reflexivity).
    apply in_fg_list in I; [|apply wf_imap, Wg]. apply (edge_pixels_nonzero gt Wg) in I. apply I, E.
Qed.

(** ** Assembling the arrays *)
Lemma per_threshold_intro ths l (post : Q -> Z -> Z -> Z -> Z -> Prop) :
  Forall2 (fun t a => post t (cr a) (sr a) (cp a) (sp a)) ths l -> per_threshold ths (to_counts l) post.
Proof.
  intros H. assert (L : List.length l = List.length ths) by (induction H; cbn [List.length]; congruence).
  unfold per_threshold, to_counts. cbn [count_r sum_r count_p sum_p]. rewrite !map_length.
  split; [exact L|]. split; [exact L|]. split; [exact L|]. split; [exact L|]. clear L.
  induction H as [|t a ths l Ha H IH]; intros i u E; [destruct i; discriminate|]. destruct i as [|i]; [injection E as <-; exact Ha|].
  apply IH. exact E.
Qed.
