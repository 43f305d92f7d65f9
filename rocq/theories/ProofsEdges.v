From Verif Require Export ModelEdges SpecEdges ProofsLabels ProofsThin.
From Coq Require Import ZifyBool ZifyNat Psatz Permutation.
Local Open Scope Z_scope.

(** ** distances *)
Lemma sqd_nonneg y x y' x' : 0 <= sqd y x y' x'.
Proof. unfold sqd. pose proof (Z.square_nonneg (y - y')). pose proof (Z.square_nonneg (x - x')). lia. Qed.
Lemma sqd_zero y x y' x' : sqd y x y' x' = 0 -> y = y' /\ x = x'.
Proof.
  unfold sqd. pose proof (Z.square_nonneg (y - y')). pose proof (Z.square_nonneg (x - x')). intros E.
  assert (A : (y - y') * (y - y') = 0) by lia. assert (B : (x - x') * (x - x') = 0) by lia.
  apply Z.mul_eq_0 in A. apply Z.mul_eq_0 in B. lia.
Qed.
Lemma sqd_self y x : sqd y x y x = 0.
Proof. unfold sqd. ring. Qed.

Lemma omin_fold_none l : fold_right omin None l = None <-> forall a, In a l -> a = None.
Proof.
  induction l as [|a l IH]; simpl; [split; [intros _ ? []|reflexivity]|].
  split.
  - intros H b [<-|Hb].
    + destruct a; [|reflexivity]. destruct (fold_right omin None l); discriminate.
    + apply IH; [|exact Hb]. destruct a; [destruct (fold_right omin None l); discriminate|exact H].
  - intros H. rewrite (H a) by (left; reflexivity). simpl. apply IH. intros b Hb; apply H; right; exact Hb.
Qed.
Lemma omin_fold_some l d : fold_right omin None l = Some d ->
  In (Some d) l /\ forall e, In (Some e) l -> d <= e.
Proof.
  revert d; induction l as [|a l IH]; intros d; simpl; [discriminate|].
  destruct a as [a|]; simpl.
  - destruct (fold_right omin None l) as [b|] eqn:E; intros H; injection H as <-.
    + destruct (IH b eq_refl) as [I1 I2]. split.
      * destruct (Z.min_spec a b) as [[_ ->]|[_ ->]]; [left; reflexivity|right; exact I1].
      * intros e [He|He]; [injection He as <-; lia|]. specialize (I2 e He). lia.
    + split; [left; reflexivity|]. intros e [He|He]; [injection He as <-; lia|].
      pose proof (proj1 (omin_fold_none l) E _ He). discriminate.
  - intros H. destruct (IH d H) as [I1 I2]. split; [right; exact I1|].
    intros e [He|He]; [discriminate|]. apply I2; exact He.
Qed.

(** The distance transform is the minimum over the zero pixels. *)
Definition zero_px (im : image bool) (y x : Z) : Prop := inb (ht im) (wd im) y x = true /\ px true im y x = false.
Lemma edt2_some im y x d : edt2 im y x = Some d ->
  (exists y' x', zero_px im y' x' /\ d = sqd y x y' x') /\
  (forall y' x', zero_px im y' x' -> d <= sqd y x y' x').
Proof.
  unfold edt2. intros H. apply omin_fold_some in H. destruct H as [H1 H2]. split.
  - apply in_map_iff in H1. destruct H1 as ([y' x'] & E & Hin). cbn [fst snd] in E.
    apply in_coords in Hin. exists y', x'.
    destruct (px true im y' x') eqn:P; [discriminate|]. injection E as <-. split; [split; [|exact P]|reflexivity].
    exact Hin.
  - intros y' x' (I & P). apply H2. apply in_map_iff. exists (y', x'). cbn [fst snd]. rewrite P.
    split; [reflexivity|]. apply in_coords. exact I.
Qed.
Lemma edt2_none im y x : edt2 im y x = None -> forall y' x', ~ zero_px im y' x'.
Proof.
  unfold edt2. intros H y' x' (I & P). rewrite omin_fold_none in H.
  assert (In (Some (sqd y x y' x')) (map (fun p => if px true im (fst p) (snd p) then None else Some (sqd y x (fst p) (snd p)))
         (coords (ht im) (wd im)))).
  { apply in_map_iff. exists (y', x'). cbn [fst snd]. rewrite P. split; [reflexivity|]. apply in_coords. exact I. }
  specialize (H _ H0). discriminate.
Qed.
Lemma edt2_zero im y x : zero_px im y x -> edt2 im y x = Some 0.
Proof.
  intros Z0. destruct (edt2 im y x) as [d|] eqn:E.
  - apply edt2_some in E. destruct E as [(y' & x' & _ & ->) M]. specialize (M y x Z0). rewrite sqd_self in M.
    pose proof (sqd_nonneg y x y' x'). f_equal; lia.
  - exfalso. apply (edt2_none im y x E y x Z0).
Qed.
Lemma edt2_pos im y x d : ~ zero_px im y x -> edt2 im y x = Some d -> 0 < d.
Proof.
  intros N E. apply edt2_some in E. destruct E as [(y' & x' & Z' & ->) _].
  pose proof (sqd_nonneg y x y' x'). destruct (Z.eq_dec (sqd y x y' x') 0) as [C|]; [|lia].
  apply sqd_zero in C. destruct C; subst. contradiction.
Qed.

Lemma sum_within_0l r b : sum_within r 0 b = true <-> 0 <= r /\ b <= r * r.
Proof. unfold sum_within. pose proof (Z.square_nonneg (r * r - 0 - b)). rewrite Z.mul_0_r, Z.mul_0_l. lia. Qed.
Lemma sum_within_0r r a : sum_within r a 0 = true <-> 0 <= r /\ a <= r * r.
Proof. unfold sum_within. pose proof (Z.square_nonneg (r * r - a - 0)). rewrite Z.mul_0_r. lia. Qed.
Lemma sum_within_spec r a b : sum_within r a b = true <->
  0 <= r /\ a + b <= r * r /\ 4 * a * b <= (r * r - a - b) * (r * r - a - b).
Proof. unfold sum_within. lia. Qed.
Lemma sum_within_mono r r' a b a' b' : r <= r' -> 0 <= a' <= a -> 0 <= b' <= b ->
  sum_within r a b = true -> sum_within r' a' b' = true.
Proof.
  intros Hr Ha Hb H. apply sum_within_spec in H. destruct H as (H1 & H2 & H3). apply sum_within_spec.
  assert (R : r * r <= r' * r') by nia.
  split; [lia|]. split; [lia|].
  assert (A : a' * b' <= a * b) by nia.
  assert (B : 0 <= r * r - a - b <= r' * r' - a' - b') by lia. nia.
Qed.

(** ** the masks *)
Lemma zero_outer m y x : zero_px (outer_mask m) y x <-> inb (ht m) (wd m) y x = true /\ 0 < px 0 m y x.
Proof.
  unfold zero_px, outer_mask. cbn [ht wd tab]. split; intros [I P]; split; auto; rewrite px_tab, I in *; lia.
Qed.
Lemma zero_inner m ign y x : binary m -> ignore_for m ign ->
  (zero_px (inner_mask m ign) y x <-> outside m ign y x).
Proof.
  intros B (W1 & W2 & Eh & Ew & R). unfold zero_px, inner_mask, outside. cbn [ht wd tab].
  specialize (R y x). specialize (B y x).
  split.
  - intros [I P]. rewrite px_tab, I, wrap_small in P by (change (2 ^ 8) with 256; lia). split; [exact I|]. lia.
  - intros (I & P1 & P2). split; [exact I|]. rewrite px_tab, I, P1, P2. reflexivity.
Qed.

Lemma member_inb m y x : wf m -> member m y x -> inb (ht m) (wd m) y x = true.
Proof.
  intros W H. destruct (inb (ht m) (wd m) y x) eqn:E; [reflexivity|]. exfalso. apply H. apply px_out; assumption.
Qed.
Lemma member_zero_outer m y x : wf m -> binary m -> (zero_px (outer_mask m) y x <-> member m y x).
Proof.
  intros W B. rewrite zero_outer. split.
  - intros [_ P] C. lia.
  - intros H. split; [apply member_inb; assumption|]. specialize (B y x). unfold member in H. lia.
Qed.

Lemma b2z_1 b : b2z b = 1 <-> b = true.
Proof. destruct b; simpl; lia. Qed.
Lemma band_true r o i : band r o i = true <-> exists a b, o = Some a /\ i = Some b /\ sum_within r a b = true /\ (a <> 0 \/ b <> 0).
Proof.
  unfold band. destruct o as [a|], i as [b|]; try (split; [discriminate|intros (? & ? & ? & ? & _); discriminate]).
  split.
  - intros H. apply andb_prop in H. destruct H as [H1 H2]. exists a, b. repeat split; auto. lia.
  - intros (a' & b' & E1 & E2 & H1 & H2). injection E1 as <-. injection E2 as <-. rewrite H1. lia.
Qed.

Lemma bdry_spec m ign r y x : binary m -> ignore_for m ign -> inb (ht m) (wd m) y x = true ->
  (px 0 (bdry m ign r) y x = 1 <-> boundary_spec m ign r y x).
Proof.
  intros B G I. pose proof G as (W & W2 & Eh & Ew & R). unfold bdry. rewrite px_tab, I, b2z_1, band_true.
  assert (TI := zero_inner m ign). assert (TO := member_zero_outer m).
  split.
  - intros (a & b & Ea & Eb & S & NZ).
    pose proof (proj1 (proj1 (sum_within_spec r a b) S)) as Hr. split; [exact Hr|].
    destruct (edt2_some _ _ _ _ Ea) as [(y1 & x1 & Z1 & D1) M1]. destruct (edt2_some _ _ _ _ Eb) as [(y2 & x2 & Z2 & D2) M2].
    apply TO in Z1; auto. apply TI in Z2; auto.
    destruct (Z.eq_dec (px 0 m y x) 0) as [P|P].
    + destruct (Z.eq_dec (px 0 ign y x) 0) as [Q|Q].
      * right; left. split; [split; [exact I|auto]|]. exists y1, x1. split; [exact Z1|].
        assert (b0 : b = 0).
        { rewrite edt2_zero in Eb by (apply TI; auto; split; [exact I|auto]). congruence. }
        rewrite b0 in S. rewrite <- D1. apply sum_within_0r in S. lia.
      * right; right. split; [intros C; apply C; exact P|]. split; [exact Q|]. exists y1, x1, y2, x2. rewrite <- D1, <- D2. auto.
    + left. split; [exact P|]. exists y2, x2. split; [exact Z2|].
      assert (a0 : a = 0) by (rewrite edt2_zero in Ea by (apply TO; auto); congruence).
      rewrite a0 in S. rewrite <- D2. apply sum_within_0l in S. lia.
  - intros [Hr [(Hm & y2 & x2 & O & D)|[(O & y1 & x1 & Hm & D)|(Hn & Hi & y1 & x1 & y2 & x2 & Hm & O & S)]]].
    + destruct (edt2 (inner_mask m ign) y x) as [b|] eqn:Eb.
      * exists 0, b. split; [apply edt2_zero, TO; auto|]. split; [reflexivity|].
        destruct (edt2_some _ _ _ _ Eb) as [_ M]. specialize (M y2 x2 (proj2 (TI _ _ B G) O)). split.
        -- apply sum_within_0l. lia.
        -- right. pose proof (edt2_pos _ _ _ _ (fun C => Hm (proj1 (proj2 (proj1 (TI _ _ B G) C)))) Eb). lia.
      * exfalso. apply (edt2_none _ _ _ Eb y2 x2). apply TI; auto.
    + destruct (edt2 (outer_mask m) y x) as [a|] eqn:Ea.
      * exists a, 0. split; [reflexivity|]. split; [apply edt2_zero, TI; auto|].
        destruct (edt2_some _ _ _ _ Ea) as [_ M]. specialize (M y1 x1 (proj2 (TO _ _ W B) Hm)). split.
        -- apply sum_within_0r. lia.
        -- left. assert (NZ : ~ zero_px (outer_mask m) y x) by (rewrite TO by auto; intros C; apply C; apply O).
           pose proof (edt2_pos _ _ _ _ NZ Ea). lia.
      * exfalso. apply (edt2_none _ _ _ Ea y1 x1). apply TO; auto.
    + destruct (edt2 (outer_mask m) y x) as [a|] eqn:Ea; [|exfalso; apply (edt2_none _ _ _ Ea y1 x1); apply TO; auto].
      destruct (edt2 (inner_mask m ign) y x) as [b|] eqn:Eb; [|exfalso; apply (edt2_none _ _ _ Eb y2 x2); apply TI; auto].
      exists a, b. split; [reflexivity|]. split; [reflexivity|].
      assert (NZ : ~ zero_px (outer_mask m) y x) by (rewrite TO by auto; exact Hn).
      pose proof (edt2_pos _ _ _ _ NZ Ea).
      destruct (edt2_some _ _ _ _ Ea) as [_ M1]. specialize (M1 y1 x1 (proj2 (TO _ _ W B) Hm)).
      destruct (edt2_some _ _ _ _ Eb) as [(y3 & x3 & _ & D3) M2]. specialize (M2 y2 x2 (proj2 (TI _ _ B G) O)).
      pose proof (sqd_nonneg y x y3 x3). split; [|lia].
      apply (sum_within_mono r r (sqd y x y1 x1) (sqd y x y2 x2)); lia || exact S.
Qed.
Lemma bdry_01 m ign r y x : px 0 (bdry m ign r) y x = 0 \/ px 0 (bdry m ign r) y x = 1.
Proof. unfold bdry. rewrite px_tab. destruct (inb _ _ _ _); [|auto]. destruct (band _ _ _); simpl; auto. Qed.

Lemma internal_ok m ign r y x : binary m -> ignore_for m ign -> inb (ht m) (wd m) y x = true ->
  (px 0 (mask2internal m ign r) y x = 1 <-> internal_spec m ign r y x).
Proof.
  intros B G I. pose proof G as (W & W2 & Eh & Ew & R). unfold mask2internal. rewrite px_tab, I, b2z_1, band_true.
  assert (TI := zero_inner m ign).
  split.
  - intros (a & b & Ea & Eb & S & NZ). injection Ea as <-.
    apply sum_within_0l in S. destruct S as [Hr S]. split; [exact Hr|].
    destruct (edt2_some _ _ _ _ Eb) as [(y2 & x2 & Z2 & D2) M2]. apply TI in Z2; auto. split.
    + destruct (Z.eq_dec (px 0 m y x) 0) as [P|P]; [|left; exact P].
      destruct (Z.eq_dec (px 0 ign y x) 0) as [Q|Q]; [|right; exact Q]. exfalso.
      rewrite edt2_zero in Eb by (apply TI; auto; split; [exact I|auto]). assert (b = 0) by congruence. lia.
    + exists y2, x2. split; [exact Z2|]. lia.
  - intros (Hr & Hm & y2 & x2 & O & D).
    destruct (edt2 (inner_mask m ign) y x) as [b|] eqn:Eb; [|exfalso; apply (edt2_none _ _ _ Eb y2 x2); apply TI; auto].
    exists 0, b. split; [reflexivity|]. split; [reflexivity|].
    destruct (edt2_some _ _ _ _ Eb) as [_ M]. specialize (M y2 x2 (proj2 (TI _ _ B G) O)). split.
    + apply sum_within_0l. lia.
    + right. assert (NZ : ~ zero_px (inner_mask m ign) y x).
      { rewrite TI by auto. intros (_ & C1 & C2). destruct Hm; contradiction. }
      pose proof (edt2_pos _ _ _ _ NZ Eb). lia.
Qed.
Lemma internal_01 m ign r y x : px 0 (mask2internal m ign r) y x = 0 \/ px 0 (mask2internal m ign r) y x = 1.
Proof. unfold mask2internal. rewrite px_tab. destruct (inb _ _ _ _); [|auto]. destruct (band _ _ _); simpl; auto. Qed.

Lemma mask2bdry_shape m ign r b : wf (mask2bdry m ign r b) /\ ht (mask2bdry m ign r b) = ht m /\ wd (mask2bdry m ign r b) = wd m.
Proof. unfold mask2bdry; destruct b; (split; [apply wf_tab|split; reflexivity]). Qed.
Lemma mask2bdry_01 m ign r b y x : px 0 (mask2bdry m ign r b) y x = 0 \/ px 0 (mask2bdry m ign r b) y x = 1.
Proof. unfold mask2bdry; destruct b; [apply internal_01|apply bdry_01]. Qed.

(** An empty mask gives no boundary (full mode). *)
Lemma bdry_empty m ign r : (forall y x, px 0 m y x = 0) -> bdry m ign r = zeros (ht m) (wd m).
Proof.
  intros H. unfold bdry, zeros. apply tab_ext. intros y x I.
  destruct (edt2 (outer_mask m) y x) as [a|] eqn:E; [|reflexivity].
  apply edt2_some in E. destruct E as [(y' & x' & Z' & _) _]. apply zero_outer in Z'. rewrite H in Z'. lia.
Qed.
Lemma any_nonzero_spec m : wf m -> (any_nonzero m = false <-> forall y x, px 0 m y x = 0).
Proof.
  intros W. unfold any_nonzero. split.
  - intros H y x. destruct (inb (ht m) (wd m) y x) eqn:I; [|apply px_out; assumption].
    destruct (Z.eq_dec (px 0 m y x) 0) as [|N]; [assumption|]. exfalso.
    assert (C : existsb (fun v => negb (v =? 0)) (concat (rows m)) = true); [|congruence].
    apply existsb_exists. exists (px 0 m y x). split; [|lia].
    rewrite (concat_rows_px 0) by exact W. apply in_map_iff. exists (y, x). split; [reflexivity|]. apply in_coords; exact I.
  - intros H. destruct (existsb _ _) eqn:E; [|reflexivity]. exfalso. apply existsb_exists in E. destruct E as (v & Hv & Nv).
    rewrite (concat_rows_px 0) in Hv by exact W. apply in_map_iff in Hv. destruct Hv as ([y x] & <- & _). cbn [fst snd] in Nv.
    rewrite H in Nv. discriminate.
Qed.
