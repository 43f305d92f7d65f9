From Verif Require Export ModelDec.
From Coq Require Import ZifyBool ZifyNat Psatz.
Local Open Scope Z_scope.

Lemma undigits_acc s : forall a, fold_left (fun a d => 10 * a + d) s a = a * 10 ^ Z.of_nat (length s) + undigits s.
Proof.
  unfold undigits. induction s as [|d s IH]; intros a.
  - simpl. lia.
  - cbn [fold_left length]. rewrite IH, (IH (10 * 0 + d)). rewrite Nat2Z.inj_succ, Z.pow_succ_r by lia. lia.
Qed.
Lemma undigits_app s t : undigits (s ++ t) = undigits s * 10 ^ Z.of_nat (length t) + undigits t.
Proof. unfold undigits. rewrite fold_left_app. apply undigits_acc. Qed.
Lemma undigits_zeros k s : undigits (repeat 0 k ++ s) = undigits s.
Proof.
  rewrite undigits_app. assert (E : undigits (repeat 0 k) = 0); [|rewrite E; lia].
  induction k as [|k IH]; [reflexivity|]. change (repeat 0 (S k)) with ([0] ++ repeat 0 k).
  rewrite undigits_app, IH. reflexivity.
Qed.
Lemma undigits_zfill w s : undigits (zfill w s) = undigits s.
Proof. apply undigits_zeros. Qed.
Lemma zfill_length w s : length (zfill w s) = Nat.max w (length s).
Proof. unfold zfill. rewrite app_length, repeat_length. lia. Qed.
Lemma zfill_long w s : (w <= length s)%nat -> zfill w s = s.
Proof. intros H. unfold zfill. replace (w - length s)%nat with 0%nat by lia. reflexivity. Qed.

Definition is_digits (s : list Z) : Prop := Forall (fun d => 0 <= d <= 9) s.

Lemma undigits_bound s : is_digits s -> 0 <= undigits s < 10 ^ Z.of_nat (length s).
Proof.
  induction s as [|d s IH] using rev_ind; intros H; [unfold undigits; simpl; lia|].
  apply Forall_app in H. destruct H as [H1 H2]. specialize (IH H1). inversion H2; subst.
  rewrite undigits_app, app_length. simpl length. rewrite Nat2Z.inj_add, Z.pow_add_r by lia.
  change (10 ^ Z.of_nat 1) with 10. change (undigits [d]) with d. nia.
Qed.

Lemma log2_div10 n : 10 <= n -> (S (Z.to_nat (Z.log2 (n / 10))) <= Z.to_nat (Z.log2 n))%nat.
Proof.
  intros H. assert (1 <= n / 10) by (apply Z.div_le_lower_bound; lia).
  assert (L : Z.log2 (n / 10) < Z.log2 n).
  { apply Z.log2_lt_pow2; [lia|].
    pose proof (Z.log2_spec n ltac:(lia)) as [_ U]. rewrite Z.pow_succ_r in U by apply Z.log2_nonneg.
    pose proof (Z.mul_div_le n 10 ltac:(lia)). lia. }
  pose proof (Z.log2_nonneg (n / 10)). lia.
Qed.
Lemma digits_fuel_enough f n : 0 <= n -> (Z.to_nat (Z.log2 n) <= f)%nat ->
  digits_fuel f n = digits_fuel (Z.to_nat (Z.log2 n)) n.
Proof.
  assert (G : forall f g n, 0 <= n -> (Z.to_nat (Z.log2 n) <= f)%nat -> (Z.to_nat (Z.log2 n) <= g)%nat ->
    digits_fuel f n = digits_fuel g n).
  { clear. induction f as [|f IH]; intros g n Hn Hf Hg.
    - assert (L : Z.log2 n = 0) by (pose proof (Z.log2_nonneg n); lia).
      assert (n < 10).
      { destruct (Z.le_gt_cases 10 n); [|lia]. pose proof (Z.log2_le_mono 10 n ltac:(lia)).
        change (Z.log2 10) with 3 in *. lia. }
      destruct g; simpl; [reflexivity|]. replace (n <? 10) with true by lia. reflexivity.
    - destruct g as [|g].
      + assert (n < 10).
        { destruct (Z.le_gt_cases 10 n); [|lia]. pose proof (Z.log2_le_mono 10 n ltac:(lia)).
          change (Z.log2 10) with 3 in *. lia. }
        simpl. replace (n <? 10) with true by lia. reflexivity.
      + simpl. destruct (Z.ltb_spec n 10) as [L|L]; [reflexivity|].
        pose proof (log2_div10 n L). f_equal. assert (0 <= n / 10) by (apply Z.div_pos; lia). apply IH; lia. }
  intros Hn H. apply G; lia.
Qed.
Lemma digits_small n : 0 <= n < 10 -> digits n = [n].
Proof.
  intros H. unfold digits. destruct (Z.to_nat (Z.log2 n)); simpl; [reflexivity|].
  replace (n <? 10) with true by lia. reflexivity.
Qed.
Lemma digits_step n : 10 <= n -> digits n = digits (n / 10) ++ [n mod 10].
Proof.
  intros H. unfold digits. pose proof (log2_div10 n H) as L.
  destruct (Z.to_nat (Z.log2 n)) as [|f] eqn:E; [lia|]. cbn [digits_fuel].
  replace (n <? 10) with false by lia. f_equal. apply digits_fuel_enough; [apply Z.div_pos; lia|lia].
Qed.

Lemma digits_ind (P : Z -> Prop) : (forall n, 0 <= n < 10 -> P n) ->
  (forall n, 10 <= n -> P (n / 10) -> P n) -> forall n, 0 <= n -> P n.
Proof.
  intros H0 H1 n Hn. revert Hn. pattern n. apply (well_founded_induction (Z.lt_wf 0)). clear n.
  intros n IH Hn. destruct (Z.lt_ge_cases n 10); [apply H0; lia|]. apply H1; [assumption|].
  apply IH; [|apply Z.div_pos; lia]. split; [apply Z.div_pos; lia|apply Z.div_lt; lia].
Qed.
Lemma undigits_digits n : 0 <= n -> undigits (digits n) = n.
Proof.
  apply digits_ind with (P := fun n => undigits (digits n) = n); clear n; intros n H.
  - rewrite digits_small by exact H. unfold undigits; simpl. destruct n; lia.
  - intros IH. rewrite digits_step by exact H. rewrite undigits_app, IH. simpl length.
    change (10 ^ Z.of_nat 1) with 10. change (undigits [n mod 10]) with (n mod 10).
    pose proof (Z.div_mod n 10 ltac:(lia)). lia.
Qed.
Lemma digits_are_digits n : 0 <= n -> is_digits (digits n).
Proof.
  apply digits_ind with (P := fun n => is_digits (digits n)); clear n; intros n H.
  - rewrite digits_small by exact H. repeat constructor; lia.
  - intros IH. rewrite digits_step by exact H. apply Forall_app; split; [exact IH|].
    pose proof (Z.mod_pos_bound n 10 ltac:(lia)). repeat constructor; lia.
Qed.
Lemma digits_nonempty n : 0 <= n -> digits n <> [].
Proof.
  intros H. destruct (Z.lt_ge_cases n 10); [rewrite digits_small by lia; discriminate|].
  rewrite digits_step by lia. destruct (digits (n / 10)); discriminate.
Qed.
Lemma digits_length_upper k n : 0 <= n < 10 ^ Z.of_nat k -> (1 <= k)%nat -> (length (digits n) <= k)%nat.
Proof.
  intros Hn Hk. revert k Hk Hn.
  assert (Hn0 : forall n, 0 <= n -> forall k, (1 <= k)%nat -> n < 10 ^ Z.of_nat k -> (length (digits n) <= k)%nat).
  { intros m Hm; pattern m; apply digits_ind; [| |exact Hm]; clear.
    - intros n H k Hk _. rewrite digits_small by exact H. simpl; lia.
    - intros n H IH k Hk B. rewrite digits_step by exact H. rewrite app_length; simpl.
      destruct k as [|[|k]]; [lia| |].
      + change (10 ^ Z.of_nat 1) with 10 in B. lia.
      + specialize (IH (S k) ltac:(lia)). rewrite (Nat2Z.inj_succ (S k)), Z.pow_succ_r in B by lia.
        specialize (IH ltac:(apply Z.div_lt_upper_bound; lia)). lia. }
  intros k Hk [H1 H2]. apply Hn0; assumption.
Qed.
Lemma digits_length_lower k n : 10 ^ Z.of_nat k <= n -> (k < length (digits n))%nat.
Proof.
  intros B. assert (Hn : 0 <= n) by (pose proof (Z.pow_nonneg 10 (Z.of_nat k)); lia).
  revert k B. pattern n; apply digits_ind; [| |exact Hn]; clear.
  - intros n H k B. rewrite digits_small by exact H. destruct k as [|k]; [simpl; lia|].
    rewrite Nat2Z.inj_succ, Z.pow_succ_r in B by lia. pose proof (Z.pow_pos_nonneg 10 (Z.of_nat k)). lia.
  - intros n H IH k B. rewrite digits_step by exact H. rewrite app_length; simpl.
    destruct k as [|k]; [pose proof (digits_nonempty (n / 10) ltac:(apply Z.div_pos; lia)); destruct (digits (n / 10)); [congruence|simpl; lia]|].
    rewrite Nat2Z.inj_succ, Z.pow_succ_r in B by lia.
    specialize (IH k ltac:(apply Z.div_le_lower_bound; lia)). lia.
Qed.
Lemma digits_length k n : 10 ^ Z.of_nat k <= n < 10 ^ Z.of_nat (S k) -> length (digits n) = S k.
Proof.
  intros [H1 H2]. pose proof (digits_length_lower k n H1).
  pose proof (Z.pow_nonneg 10 (Z.of_nat k)).
  pose proof (digits_length_upper (S k) n ltac:(lia) ltac:(lia)). lia.
Qed.

(** Fixed-width numerals are determined by their value. *)
Lemma zfill_digits w s : is_digits s -> is_digits (zfill w s).
Proof.
  intros H. apply Forall_app; split; [|exact H]. apply Forall_forall. intros x Hx.
  apply repeat_spec in Hx. lia.
Qed.
Lemma undigits_firstn k s : is_digits s -> (k <= length s)%nat ->
  undigits (firstn k s) = undigits s / 10 ^ Z.of_nat (length s - k) /\
  undigits (skipn k s) = undigits s mod 10 ^ Z.of_nat (length s - k).
Proof.
  intros H Hk. pose proof (firstn_skipn k s) as E. pose proof (skipn_length k s) as L.
  assert (D : is_digits (skipn k s)).
  { apply Forall_forall. intros x Hx. rewrite <- E in H. apply Forall_app in H. destruct H as [_ H].
    rewrite Forall_forall in H; auto. }
  pose proof (undigits_bound _ D) as B. rewrite L in B.
  assert (V : undigits s = undigits (firstn k s) * 10 ^ Z.of_nat (length s - k) + undigits (skipn k s)).
  { rewrite <- E at 1. rewrite undigits_app, L. reflexivity. }
  split; [apply Z.div_unique with (undigits (skipn k s)); lia|].
  apply Z.mod_unique with (undigits (firstn k s)); lia.
Qed.
