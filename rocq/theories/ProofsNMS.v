(** Proofs about smoothing and non-maximum suppression. *)
From Verif Require Export ModelNMS SpecNMS ProofsImage.
From Coq Require Import Lqa Setoid ZifyBool ZifyNat.
Open Scope Z_scope.

Lemma qlt_spec a b : qlt a b = true <-> (a < b)%Q.
Proof. unfold qlt. rewrite negb_true_iff. split; intros H; [|destruct (Qle_bool b a) eqn:E; [apply Qle_bool_iff in E; lra|reflexivity]].
  destruct (Qlt_le_dec a b) as [L|L]; [exact L|]. apply Qle_bool_iff in L. congruence. Qed.
Lemma qlt_false a b : qlt a b = false <-> (b <= a)%Q.
Proof. unfold qlt. rewrite negb_false_iff. apply Qle_bool_iff. Qed.

(** ** sums *)
Lemma qsum_app a b : (qsum (a ++ b) == qsum a + qsum b)%Q.
Proof. unfold qsum. induction a as [|x a IH]; cbn [app fold_right]; [lra|]. rewrite IH. lra. Qed.
Lemma qsum_ext {A} (f g : A -> Q) l : (forall a, In a l -> (f a == g a)%Q) -> (qsum (map f l) == qsum (map g l))%Q.
Proof. unfold qsum. induction l as [|x l IH]; intros H; cbn [map fold_right]; [lra|]. rewrite (H x) by (left; reflexivity). rewrite IH; [lra|]. intros; apply H; right; assumption. Qed.
Lemma qsum_le {A} (f g : A -> Q) l : (forall a, In a l -> (f a <= g a)%Q) -> (qsum (map f l) <= qsum (map g l))%Q.
Proof. unfold qsum. induction l as [|x l IH]; intros H; cbn [map fold_right]; [lra|]. assert (A1 := H x (or_introl eq_refl)). assert (A2 := IH (fun a I => H a (or_intror I))). lra. Qed.
Lemma qsum_scale {A} (c : Q) (f : A -> Q) l : (qsum (map (fun a => c * f a) l) == c * qsum (map f l))%Q.
Proof. unfold qsum. induction l as [|x l IH]; cbn [map fold_right]; [lra|]. rewrite IH. ring. Qed.
Lemma qsum_rev l : (qsum (rev l) == qsum l)%Q.
Proof. induction l as [|x l IH]; [reflexivity|]. cbn [rev]. rewrite qsum_app, IH. unfold qsum. cbn [fold_right]. ring. Qed.
Lemma nth_map_lt {A B} (f : A -> B) l i d d' : (i < length l)%nat -> nth i (map f l) d = f (nth i l d').
Proof. intros H. rewrite (nth_indep _ d (f d')) by (rewrite map_length; exact H). apply map_nth. Qed.
Lemma zseq_S n : zseq (S n) = zseq n ++ [Z.of_nat n].
Proof. unfold zseq. rewrite seq_S, map_app. reflexivity. Qed.
Lemma zseq_rev n : rev (zseq n) = map (fun k => Z.of_nat n - 1 - k) (zseq n).
Proof.
  apply nth_ext with (d := 0) (d' := 0); [rewrite rev_length, map_length; reflexivity|].
  intros i H. rewrite rev_length, zseq_length in H. rewrite rev_nth by (rewrite zseq_length; exact H).
  rewrite zseq_length, nth_zseq by lia. rewrite (nth_map_lt _ _ _ _ 0) by (rewrite zseq_length; exact H).
  rewrite nth_zseq by exact H. lia.
Qed.
Lemma qsum_reindex n (F : Z -> Q) : (qsum (map F (zseq n)) == qsum (map (fun k => F (Z.of_nat n - 1 - k)%Z) (zseq n)))%Q.
Proof. rewrite <- (map_map (fun k => Z.of_nat n - 1 - k) F), <- zseq_rev, map_rev, qsum_rev. reflexivity. Qed.
Lemma inject_sum l : (qsum (map inject_Z l) == inject_Z (zsum l))%Q.
Proof. unfold qsum, zsum. induction l as [|x l IH]; cbn [map fold_right]; [reflexivity|]. rewrite IH, inject_Z_plus. reflexivity. Qed.

(** ** the filter *)
Lemma zsum_app a b : zsum (a ++ b) = zsum a + zsum b.
Proof. unfold zsum. induction a as [|x a IH]; cbn [app fold_right]; lia. Qed.
Lemma zsum_rev l : zsum (rev l) = zsum l.
Proof. induction l as [|x l IH]; [reflexivity|]. cbn [rev]. rewrite zsum_app, IH. unfold zsum. cbn. lia. Qed.
Lemma zsum_up n : 2 * zsum (map (fun k => k + 1) (zseq n)) = Z.of_nat n * (Z.of_nat n + 1).
Proof. induction n as [|n IH]; [reflexivity|]. rewrite zseq_S, map_app, zsum_app. unfold zsum in *. cbn [map fold_right]. lia. Qed.

Lemma nth_up n i : (i < n)%nat -> nth i (map (fun k => k + 1) (zseq n)) 0 = Z.of_nat i + 1.
Proof. intros H. rewrite (nth_map_lt _ _ _ _ 0) by (rewrite zseq_length; exact H). rewrite nth_zseq by exact H. reflexivity. Qed.

(** The integer taps of radius [r >= 2]. *)
Definition itaps (r : Z) : list Z :=
  let up := map (fun k => k + 1) (zseq (Z.to_nat r)) in up ++ [r + 1] ++ rev up.
Lemma itaps_length r : 0 <= r -> length (itaps r) = Z.to_nat (2 * r + 1).
Proof. intros H. unfold itaps. rewrite !app_length, rev_length, !map_length, !zseq_length. cbn [length]. lia. Qed.
Lemma itaps_nth r i : 0 <= r -> (i < Z.to_nat (2 * r + 1))%nat -> nth i (itaps r) 0 = r + 1 - Z.abs (Z.of_nat i - r).
Proof.
  intros Hr Hi. unfold itaps. set (up := map (fun k => k + 1) (zseq (Z.to_nat r))).
  assert (L : length up = Z.to_nat r) by (unfold up; rewrite map_length, zseq_length; reflexivity).
  destruct (lt_dec i (Z.to_nat r)) as [A|A].
  - rewrite app_nth1 by lia. unfold up. rewrite nth_up by exact A. lia.
  - rewrite app_nth2 by lia. rewrite L. destruct (i - Z.to_nat r)%nat as [|j] eqn:E; cbn [app nth]; [lia|].
    rewrite rev_nth by lia. rewrite L. unfold up. rewrite nth_up by lia. lia.
Qed.

(** What [tri_taps] returns for [r >= 1]: [2r+1] taps, the triangle weights, and padding [r]. *)
Lemma tri_taps_spec r : 1 <= r -> exists f, tri_taps r = Ok (f, Z.to_nat r) /\
  length f = Z.to_nat (2 * r + 1) /\ forall k, 0 <= k <= 2 * r -> (nth (Z.to_nat k) f 0 == tri r (k - r))%Q.
Proof.
  intros H. unfold tri_taps. destruct (Z.leb_spec r 1) as [A|A].
  - assert (r = 1) as -> by lia. cbn [Z.eqb orb Z.add]. eexists. split; [reflexivity|]. split; [reflexivity|].
    intros k Hk. assert (k = 0 \/ k = 1 \/ k = 2) as [->|[->| ->]] by lia; reflexivity.
  - eexists. split; [reflexivity|]. fold (itaps r). split; [rewrite map_length; apply itaps_length; lia|].
    intros k Hk. rewrite (nth_map_lt _ _ _ _ 0) by (rewrite itaps_length; lia).
    rewrite itaps_nth by lia. rewrite Z2Nat.id by lia. reflexivity.
Qed.

Lemma tri_nonneg r d : 0 <= r -> Z.abs d <= r -> (0 <= tri r d)%Q.
Proof.
  intros Hr Hd. unfold tri, Qdiv. apply Qmult_le_0_compat; [change 0%Q with (inject_Z 0); rewrite <- Zle_Qle; lia|].
  apply Qinv_le_0_compat. change 0%Q with (inject_Z 0). rewrite <- Zle_Qle. nia.
Qed.
Lemma tri_sym r d : tri r (- d) = tri r d.
Proof. unfold tri. rewrite Z.abs_opp. reflexivity. Qed.
Lemma tri_sum r : 0 <= r -> (sum_around r (tri r) == 1)%Q.
Proof.
  intros H. unfold sum_around, sum_from, tri, Qdiv. fold (qsum (map (fun k => inject_Z (r + 1 - Z.abs (- r + k)) * / inject_Z ((r + 1) * (r + 1)))%Q (zseq (Z.to_nat (2 * r + 1))))).
  rewrite (qsum_ext _ (fun k => / inject_Z ((r + 1) * (r + 1)) * inject_Z (r + 1 - Z.abs (- r + k)))%Q) by (intros; ring).
  rewrite qsum_scale. rewrite <- (map_map (fun k => r + 1 - Z.abs (- r + k)) inject_Z), inject_sum.
  assert (E : map (fun k => r + 1 - Z.abs (- r + k)) (zseq (Z.to_nat (2 * r + 1))) = itaps r).
  { apply nth_ext with (d := 0) (d' := 0); [rewrite map_length, zseq_length, itaps_length by exact H; reflexivity|].
    intros i Hi. rewrite map_length, zseq_length in Hi.
    rewrite (nth_map_lt _ _ _ _ 0) by (rewrite zseq_length; exact Hi).
    rewrite nth_zseq by exact Hi. rewrite itaps_nth by assumption. lia. }
  rewrite E. unfold itaps. rewrite !zsum_app, zsum_rev. assert (U := zsum_up (Z.to_nat r)). rewrite Z2Nat.id in U by lia.
  set (u := zsum (map (fun k => k + 1) (zseq (Z.to_nat r)))) in *. replace (u + (zsum [r + 1] + u)) with ((r + 1) * (r + 1)) by (unfold zsum; cbn; lia).
  rewrite Qmult_comm. apply Qmult_inv_r. intros X. change 0%Q with (inject_Z 0) in X. rewrite inject_Z_injective in X. nia.
Qed.

(** ** mirroring *)
Lemma reflect_range n i : 0 < n -> 0 <= mirror_index n i < n.
Proof. intros H. unfold mirror_index. assert (B := Z.mod_pos_bound i (2 * n) ltac:(lia)). destruct (Z.ltb_spec (i mod (2 * n)) n); lia. Qed.
Lemma reflect_id n i : 0 <= i < n -> mirror_index n i = i.
Proof. intros H. unfold mirror_index. rewrite Z.mod_small by lia. destruct (Z.ltb_spec i n); lia. Qed.
Lemma reflect_low n i : 0 < n -> mirror_index n (- 1 - i) = mirror_index n i.
Proof.
  intros H. unfold mirror_index. assert (B := Z.mod_pos_bound i (2 * n) ltac:(lia)). assert (D := Z.div_mod i (2 * n) ltac:(lia)).
  assert (E : (- 1 - i) mod (2 * n) = 2 * n - 1 - i mod (2 * n)).
  { symmetry. apply Z.mod_unique with (q := - 1 - i / (2 * n)); [left; lia|]. lia. }
  rewrite E. destruct (Z.ltb_spec (2 * n - 1 - i mod (2 * n)) n), (Z.ltb_spec (i mod (2 * n)) n); lia.
Qed.
Lemma reflect_period n i : 0 < n -> mirror_index n (i + 2 * n) = mirror_index n i.
Proof. intros H. unfold mirror_index. replace (i + 2 * n) with (i + 1 * (2 * n)) by lia. rewrite Z.mod_add by lia. reflexivity. Qed.
Lemma reflect_high n i : 0 < n -> mirror_index n (2 * n - 1 - i) = mirror_index n i.
Proof. intros H. replace (2 * n - 1 - i) with ((- 1 - i) + 2 * n) by lia. rewrite reflect_period by exact H. apply reflect_low, H. Qed.
Lemma mirror_reflect n i j : 0 < n -> mirror n i j -> j = mirror_index n i.
Proof. intros H M. induction M as [i B|i j M IH|i j M IH]; [symmetry; apply reflect_id, B|rewrite reflect_low by exact H; exact IH|rewrite reflect_high by exact H; exact IH]. Qed.
Lemma mirror_shift n i j : mirror n i j -> mirror n (i + 2 * n) j /\ mirror n (i - 2 * n) j.
Proof.
  intros M. split.
  - replace (i + 2 * n) with (2 * n - 1 - (- 1 - i)) by lia. apply mirror_high, mirror_low, M.
  - replace (i - 2 * n) with (- 1 - (2 * n - 1 - i)) by lia. apply mirror_low, mirror_high, M.
Qed.
Lemma mirror_shifts n i j k : mirror n i j -> mirror n (i + k * (2 * n)) j.
Proof.
  intros M. destruct (Z_le_gt_dec 0 k) as [A|A].
  - revert k A. apply natlike_ind; [replace (i + 0 * (2 * n)) with i by lia; exact M|].
    intros k A IH. replace (i + Z.succ k * (2 * n)) with (i + k * (2 * n) + 2 * n) by lia. apply mirror_shift, IH.
  - replace k with (- (- k)) by lia. assert (B : 0 <= - k) by lia. revert B. generalize (- k). apply (natlike_ind (fun k => mirror n (i + - k * (2 * n)) j)).
    + replace (i + - 0 * (2 * n)) with i by lia. exact M.
    + intros m A' IH. replace (i + - Z.succ m * (2 * n)) with (i + - m * (2 * n) - 2 * n) by lia. apply mirror_shift, IH.
Qed.
Lemma reflect_mirror n i : 0 < n -> mirror n i (mirror_index n i).
Proof.
  intros H. assert (B := Z.mod_pos_bound i (2 * n) ltac:(lia)). assert (D := Z.div_mod i (2 * n) ltac:(lia)).
  assert (M : mirror n (i mod (2 * n)) (mirror_index n i)).
  { unfold mirror_index. destruct (Z.ltb_spec (i mod (2 * n)) n); [apply mirror_in; lia|].
    replace (i mod (2 * n)) with (2 * n - 1 - (2 * n - 1 - i mod (2 * n))) at 1 by lia. apply mirror_high, mirror_in. lia. }
  apply mirror_shifts with (k := i / (2 * n)) in M. replace (i mod (2 * n) + i / (2 * n) * (2 * n)) with i in M by lia. exact M.
Qed.

(** ** conv_tri *)
Lemma dot_ext f g g' : (forall k, 0 <= k < Z.of_nat (length f) -> (g k == g' k)%Q) -> (dot f g == dot f g')%Q.
Proof. intros H. unfold dot. apply qsum_ext. intros k I. apply in_zseq in I. rewrite H by exact I. reflexivity. Qed.

Lemma dot_around r f (G : Z -> Q) : 1 <= r -> length f = Z.to_nat (2 * r + 1) ->
  (forall k, 0 <= k <= 2 * r -> (nth (Z.to_nat k) f 0 == tri r (k - r))%Q) ->
  (dot f (fun k => G (r - k)%Z) == sum_around r (fun d => tri r d * G d))%Q.
Proof.
  intros Hr L T. unfold dot, sum_around, sum_from. fold (qsum (map (fun k => tri r (- r + k) * G (- r + k)%Z)%Q (zseq (Z.to_nat (2 * r + 1))))).
  rewrite L, qsum_reindex. apply qsum_ext. intros k I. apply in_zseq in I. rewrite T by lia.
  replace (Z.of_nat (Z.to_nat (2 * r + 1)) - 1 - k - r) with (- (- r + k)) by lia. rewrite tri_sym.
  replace (r - (Z.of_nat (Z.to_nat (2 * r + 1)) - 1 - k)) with (- r + k) by lia. reflexivity.
Qed.

Lemma sum_around_ext r F G : (forall d, - r <= d <= r -> (F d == G d)%Q) -> (sum_around r F == sum_around r G)%Q.
Proof. intros H. unfold sum_around, sum_from. apply (qsum_ext (fun k => F (- r + k)%Z) (fun k => G (- r + k)%Z)). intros k I. apply in_zseq in I. apply H. lia. Qed.
Lemma sum_around_scale r c F : (sum_around r (fun d => c * F d) == c * sum_around r F)%Q.
Proof. unfold sum_around, sum_from. apply (qsum_scale c (fun k => F (- r + k)%Z)). Qed.
Lemma sum_around_le r F G : (forall d, - r <= d <= r -> (F d <= G d)%Q) -> (sum_around r F <= sum_around r G)%Q.
Proof. intros H. unfold sum_around, sum_from. apply (qsum_le (fun k => F (- r + k)%Z) (fun k => G (- r + k)%Z)). intros k I. apply in_zseq in I. apply H. lia. Qed.

Definition smooth_value (r : Z) (im : image Q) (y x : Z) : Q :=
  sum_around r (fun dy => sum_around r (fun dx => tri r dy * tri r dx *
    px 0 im (mirror_index (Z.of_nat (ht im)) (y + dy)) (mirror_index (Z.of_nat (wd im)) (x + dx))))%Q.

Lemma conv_tri_value r im : 1 <= r -> (0 < ht im)%nat -> (0 < wd im)%nat ->
  exists out, conv_tri im r 1 = Ok out /\ wf out /\ same_shape im out /\
  forall y x, inb (ht im) (wd im) y x = true -> (px 0 out y x == smooth_value r im y x)%Q.
Proof.
  intros Hr Hh Hw. unfold conv_tri. destruct (Nat.eqb_spec (ht im * wd im) 0) as [A|_]; [nia|]. replace (r =? 0) with false by lia. cbn [andb orb].
  destruct (tri_taps_spec r Hr) as (f & -> & L & T). cbn [bind]. replace (1 <? 1) with false by reflexivity.
  set (p := pad_symmetric (Z.to_nat r) im). eexists. split; [reflexivity|]. split; [apply wf_tab|].
  assert (S1 : ht (conv_col (conv_row p f) f) = ht im) by (unfold conv_col, conv_row, p, pad_symmetric; cbn [ht wd tab]; lia).
  assert (S2 : wd (conv_col (conv_row p f) f) = wd im) by (unfold conv_col, conv_row, p, pad_symmetric; cbn [ht wd tab]; lia).
  split; [split; symmetry; assumption|]. intros y x B. apply inb_spec in B.
  unfold conv_col. rewrite px_tab. cbn [ht wd conv_row tab]. unfold p at 1 2; cbn [ht wd pad_symmetric tab].
  rewrite (proj2 (inb_spec _ _ y x)) by lia.
  transitivity (dot f (fun k => (fun d => sum_around r (fun dx => tri r dx * px 0%Q im (mirror_index (Z.of_nat (ht im)) (y + d)) (mirror_index (Z.of_nat (wd im)) (x + dx)))) (r - k)%Z)%Q).
  - apply dot_ext. intros k Hk. unfold conv_row. rewrite px_tab. unfold p at 1 2; cbn [ht wd pad_symmetric tab]. rewrite (proj2 (inb_spec _ _ _ x)) by lia.
    rewrite <- (dot_around r f (fun d => px 0%Q im (mirror_index (Z.of_nat (ht im)) (y + (r - k))) (mirror_index (Z.of_nat (wd im)) (x + d))) Hr L T).
    apply dot_ext. intros k' Hk'. unfold p, pad_symmetric. rewrite px_tab, (proj2 (inb_spec _ _ _ _)) by lia.
    replace (y + Z.of_nat (length f) - 1 - k - Z.of_nat (Z.to_nat r)) with (y + (r - k)) by lia.
    replace (x + Z.of_nat (length f) - 1 - k' - Z.of_nat (Z.to_nat r)) with (x + (r - k')) by lia. reflexivity.
  - etransitivity; [apply (dot_around r f (fun d => sum_around r (fun dx => tri r dx * px 0 im (mirror_index (Z.of_nat (ht im)) (y + d)) (mirror_index (Z.of_nat (wd im)) (x + dx))))%Q Hr L T)|].
    unfold smooth_value. apply sum_around_ext. intros dy Hdy. rewrite <- sum_around_scale. apply sum_around_ext. intros dx Hdx. ring.
Qed.

Lemma smooth_value_bound r im lo hi y x : 1 <= r -> (0 < ht im)%nat -> (0 < wd im)%nat ->
  (forall dy dx, - r <= dy <= r -> - r <= dx <= r ->
     (lo <= px 0 im (mirror_index (Z.of_nat (ht im)) (y + dy)) (mirror_index (Z.of_nat (wd im)) (x + dx)) <= hi)%Q) ->
  (lo <= smooth_value r im y x <= hi)%Q.
Proof.
  intros Hr Hh Hw B. unfold smooth_value. set (v := fun dy dx => px 0%Q im (mirror_index (Z.of_nat (ht im)) (y + dy)) (mirror_index (Z.of_nat (wd im)) (x + dx))).
  assert (C : forall c : Q, (sum_around r (fun dy => sum_around r (fun dx => tri r dy * tri r dx * c)) == c)%Q).
  { intros c. transitivity (sum_around r (fun dy => c * tri r dy)%Q); [|rewrite sum_around_scale, tri_sum by lia; ring].
    apply sum_around_ext. intros dy _. transitivity (sum_around r (fun dx => (tri r dy * c) * tri r dx)%Q); [apply sum_around_ext; intros; ring|].
    rewrite sum_around_scale, tri_sum by lia. ring. }
  split; [rewrite <- (C lo) at 1|rewrite <- (C hi)]; apply sum_around_le; intros dy Hdy; apply sum_around_le; intros dx Hdx;
    assert (N : (0 <= tri r dy * tri r dx)%Q) by (apply Qmult_le_0_compat; apply tri_nonneg; lia);
    destruct (B dy dx Hdy Hdx) as [B1 B2]; rewrite ?(Qmult_comm (tri r dy * tri r dx)); apply Qmult_le_compat_r; assumption.
Qed.
