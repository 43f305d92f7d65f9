(** C59: thresholds in binary64. *)
From Verif Require Import ModelThreshF ProofsFloat ProofsCSA64 ProofsMatchF ProofsMatchF2 ProofsImage ProofsMetrics2.
From Coq Require Import Lia Lra Psatz Qreals ZifyBool ZifyNat.
Open Scope R_scope.
Open Scope list_scope.

Lemma u_is : bpow radix2 (-53) = u. Proof. unfold u. simpl. lra. Qed.
Section Thr.
Variable n : Z.
Hypothesis Hn : (2 <= n <= 2 ^ 40)%Z.
Let N := IZR (n + 1).
Let a := fdiv 1 N.
Let b := fsub 1 a.
Let delta := fsub b a.
Let step := fdiv delta (IZR (n - 1)).
Lemma N_range : 3 <= N <= 1099511627777. Proof. unfold N. split; apply IZR_le; lia. Qed.
Lemma N_inv : 0 < / N <= / 3 /\ N * / N = 1.
Proof. assert (A := N_range). split; [split; [apply Rinv_0_lt_compat; lra|apply Rinv_le_contravar; lra]|apply Rinv_r; lra]. Qed.
Lemma a_err : Rabs (a - / N) <= u.
Proof. assert (A := N_inv). unfold a, fdiv. replace (1 / N) with (/ N) by (unfold Rdiv; ring). apply rnd_abs1. lra. Qed.
Lemma b_err : Rabs (b - (1 - / N)) <= 2 * u.
Proof.
  assert (A := N_inv). assert (E := a_err). apply Rabs_le_inv in E. assert (U := u_pos). assert (V := u_small). unfold b, fsub. assert (F : Rabs (rnd (1 - a) - (1 - a)) <= u).
  { apply rnd_abs1. split; [lra|]. assert (0 <= a) by (unfold a, fdiv; apply rnd_nonneg; apply Rmult_le_pos; lra). lra. }
  apply Rabs_le_inv in F. apply Rabs_le. lra.
Qed.
Lemma delta_err : Rabs (delta - (1 - 2 * / N)) <= 4 * u /\ 0 <= delta <= 1.
Proof.
  assert (A := N_inv). assert (E := a_err). assert (F := b_err). apply Rabs_le_inv in E, F. assert (U := u_pos). assert (V := u_small). assert (0 <= a) by (unfold a, fdiv; apply rnd_nonneg; apply Rmult_le_pos; lra).
  assert (b <= 1) by (unfold b, fsub; apply rnd_le_1; lra). assert (0 <= b - a <= 1) by lra. unfold delta, fsub.
  assert (G := rnd_abs1 (b - a) ltac:(lra)). apply Rabs_le_inv in G. split; [apply Rabs_le; lra|]. split; [apply rnd_nonneg; lra|apply rnd_le_1; lra].
Qed.
Lemma step_err i : (0 <= i < n - 1)%Z -> Rabs (fmul (IZR i) step - IZR i * / N) <= 7 * u /\ 0 <= fmul (IZR i) step <= 1.
Proof.
  intros Hi. assert (A := N_inv). assert (U := u_pos). assert (V := u_small). destruct delta_err as [D [D0 D1]]. apply Rabs_le_inv in D.
  set (m := IZR (n - 1)) in *. assert (Em : N = m + 2) by (unfold N, m; rewrite plus_IZR, minus_IZR; ring). assert (M1 : 1 <= m) by (apply IZR_le; lia).
  assert (I0 : 0 <= IZR i) by (apply IZR_le; lia). assert (I1 : IZR i <= m - 1) by (unfold m; rewrite <- minus_IZR; apply IZR_le; lia).
  assert (Im : 0 < / m <= 1) by (split; [apply Rinv_0_lt_compat; lra|rewrite <- Rinv_1; apply Rinv_le_contravar; lra]). assert (Mi : m * / m = 1) by (apply Rinv_r; lra).
  assert (Q : 0 <= delta / m <= / m) by (unfold Rdiv; split; [apply Rmult_le_pos; lra|rewrite <- (Rmult_1_l (/ m)) at 2; apply Rmult_le_compat_r; lra]).
  (* the step has a relative error *)
  assert (Dt : tiny <= delta / m).
  { assert (/ 4 <= delta) by lra. assert (Mb : m <= 1099511627776) by (apply IZR_le; lia). apply Rle_trans with (bpow radix2 (-43)); [apply bpow_le; lia|]. change (bpow radix2 (-43)) with (/ 8796093022208). unfold Rdiv.
    apply Rle_trans with (/ 4 * / 1099511627776); [lra|]. apply Rmult_le_compat; [lra|lra|lra|]. apply Rinv_le_contravar; lra. }
  destruct (rnd_rel (delta / m)) as (e & He & Es); [rewrite Rabs_pos_eq by lra; exact Dt|]. fold (fdiv delta m) in Es. fold step in Es. apply Rabs_le_inv in He.
  set (p := IZR i * / m) in *. assert (P0 : 0 <= p <= 1) by (unfold p; split; [apply Rmult_le_pos; lra|apply Rle_trans with (m * / m); [apply Rmult_le_compat_r; lra|lra]]).
  assert (E1 : IZR i * step = p * delta * (1 + e)) by (rewrite Es; unfold p, Rdiv; ring).
  assert (X : IZR i * / N = p * (1 - 2 * / N)) by (unfold p; replace (1 - 2 * / N) with (m * / N) by (rewrite Em; field; lra); field; split; lra).
  assert (PD : 0 <= p * delta <= 1) by (split; [apply Rmult_le_pos; lra|rewrite <- (Rmult_1_l 1); apply Rmult_le_compat; lra]).
  assert (Ed : Rabs (p * delta - p * (1 - 2 * / N)) <= 4 * u).
  { rewrite <- Rmult_minus_distr_l, Rabs_mult, (Rabs_pos_eq p) by lra. apply Rle_trans with (1 * (4 * u)); [|lra]. apply Rmult_le_compat; [lra|apply Rabs_pos|lra|apply Rabs_le; lra]. }
  assert (Ee : Rabs (p * delta * e) <= u) by (rewrite Rabs_mult, (Rabs_pos_eq (p * delta)) by lra; apply Rle_trans with (1 * u); [|lra]; apply Rmult_le_compat; [lra|apply Rabs_pos|lra|apply Rabs_le; lra]).
  apply Rabs_le_inv in Ed, Ee.
  (* i <= m - 1 leaves room above *)
  assert (Rm : 0 <= IZR i * step <= 1).
  { rewrite E1. split; [apply Rmult_le_pos; lra|]. assert (p <= 1 - / m) by (unfold p; replace (1 - / m) with ((m - 1) * / m) by (field; lra); apply Rmult_le_compat_r; lra).
    assert (Mi2 : / 1099511627776 <= / m) by (apply Rinv_le_contravar; [lra|apply IZR_le; lia]). assert (p * delta <= 1 - / 1099511627776) by (apply Rle_trans with (p * 1); [apply Rmult_le_compat_l; lra|lra]). assert (u < / 1099511627776) by (unfold u; lra). replace (p * delta * (1 + e)) with (p * delta + p * delta * e) by ring. lra. }
  unfold fmul. assert (G := rnd_abs1 _ Rm). apply Rabs_le_inv in G. split; [|split; [apply rnd_nonneg; lra|apply rnd_le_1; lra]]. rewrite X. apply Rabs_le. replace (p * delta * (1 + e)) with (p * delta + p * delta * e) in E1 by ring. lra.
Qed.
Lemma thr_err i : (0 <= i < n)%Z -> Rabs ((if (i =? n - 1)%Z then b else fadd (fmul (IZR i) step) a) - IZR (i + 1) * / N) <= 9 * u.
Proof.
  intros Hi. assert (A := N_inv). assert (U := u_pos). assert (V := u_small). destruct (Z.eqb_spec i (n - 1)) as [->|Ne].
  - assert (F := b_err). apply Rabs_le_inv in F. replace (n - 1 + 1)%Z with n by lia. replace (IZR n) with (N - 1) by (unfold N; rewrite plus_IZR; ring). rewrite Rmult_minus_distr_r, (proj2 A), Rmult_1_l. apply Rabs_le. lra.
  - destruct (step_err i ltac:(lia)) as [S [S0 S1]]. assert (E := a_err). apply Rabs_le_inv in S, E. rewrite plus_IZR, Rmult_plus_distr_r, Rmult_1_l.
    assert (I1 : IZR i * / N <= 1 - 2 * / N). { rewrite <- (proj2 A). rewrite <- Rmult_minus_distr_r. apply Rmult_le_compat_r; [lra|]. unfold N. rewrite plus_IZR. assert (X : IZR i <= IZR (n - 2)) by (apply IZR_le; lia). rewrite minus_IZR in X. lra. }
    assert (a0 : 0 <= a) by (unfold a, fdiv; apply rnd_nonneg; apply Rmult_le_pos; lra). assert (Nl : / 1099511627777 <= / N) by (apply Rinv_le_contravar; apply N_range || (assert (X := N_range); lra)).
    assert (Us : 8 * u <= / 1099511627777) by (unfold u; lra). unfold fadd. assert (G := rnd_abs1 (fmul (IZR i) step + a) ltac:(lra)). apply Rabs_le_inv in G. apply Rabs_le. lra.
Qed.
End Thr.
Lemma nth_map_zseqR (f : Z -> R) m k : (k < m)%nat -> nth k (map f (zseq m)) 0 = f (Z.of_nat k).
Proof. intros Hk. unfold zseq. rewrite map_map. rewrite nth_indep with (d' := f (Z.of_nat O)) by (rewrite map_length, seq_length; exact Hk). rewrite (map_nth (fun x => f (Z.of_nat x))), seq_nth by exact Hk. reflexivity. Qed.
Lemma fthr_values n : (1 <= n <= 2 ^ 40)%Z -> exists fth, fthresholds_of_int n = Ok fth /\ List.length fth = Z.to_nat n /\
  forall k, (k < Z.to_nat n)%nat -> Rabs (nth k fth 0 - IZR (Z.of_nat k + 1) / IZR (n + 1)) <= 9 * u.
Proof.
  intros Hn. unfold fthresholds_of_int. replace (n + 1 =? 0)%Z with false by lia. replace (n <? 0)%Z with false by lia. eexists. split; [reflexivity|]. assert (U := u_pos).
  destruct (Z.eq_dec n 1) as [->|N1].
  - split; [reflexivity|]. intros k Hk. replace k with O by lia. change (Z.to_nat 1) with 1%nat. cbn [flinspace nth]. change (1 + 1)%Z with 2%Z. change (Z.of_nat 0 + 1)%Z with 1%Z.
    assert (H : fdiv 1 2 = / 2) by (unfold fdiv; replace (1 / 2) with (IZR 1 * bpow radix2 (-1)) by (simpl; lra); rewrite rnd_id by (apply fmt_scaled; [reflexivity|lia]); simpl; lra).
    rewrite H. unfold fmul. rewrite Rmult_0_l, rnd_0. unfold fadd. rewrite Rplus_0_l. replace (rnd (/ 2)) with (/ 2) by (rewrite <- H; unfold fdiv; symmetry; apply rnd_id, rnd_fmt). replace (/ 2 - 1 / 2) with 0 by lra. rewrite Rabs_R0. lra.
  - unfold flinspace. destruct (Z.to_nat n) as [|[|m]] eqn:En; [lia|lia|]. rewrite <- En. split; [rewrite map_length; unfold zseq; rewrite map_length, seq_length; lia|].
    intros k Hk. rewrite nth_map_zseqR by lia. rewrite Z2Nat.id by lia. assert (T := thr_err n ltac:(lia) (Z.of_nat k) ltac:(lia)). exact T.
Qed.

(** *** C59, theorem 1: the thresholds for an integer n are the numbers k/(n+1) up to 9 * 2^-53; they are
    strictly increasing and strictly between 0 and 1. *)
Theorem thresholds_in_doubles : forall n, (1 <= n <= 2 ^ 40)%Z ->
  exists th fth, check_thresholds (AInt n) = Ok th /\ fthresholds_of_int n = Ok fth /\ List.length fth = Z.to_nat n /\
  (forall k, (k < Z.to_nat n)%nat -> Rabs (nth k fth 0 - Q2R (nth k th 0%Q)) <= 9 * bpow radix2 (-53)) /\
  (forall k, (k < Z.to_nat n)%nat -> 0 < nth k fth 0 < 1) /\
  (forall k, (S k < Z.to_nat n)%nat -> nth k fth 0 < nth (S k) fth 0).
Proof.
  intros n Hn. destruct (ProofsMetrics2.thresholds_int n ltac:(lia)) as (th & E & L & V). destruct (fthr_values n Hn) as (fth & Ef & Lf & Vf).
  assert (Nr : 2 <= IZR (n + 1) <= 1099511627777) by (split; apply IZR_le; lia).
  assert (Ni : / 1099511627777 <= / IZR (n + 1)) by (apply Rinv_le_contravar; lra). assert (Us : 18 * u < / 1099511627777) by (unfold u; lra). assert (U := u_pos).
  exists th, fth. split; [exact E|]. split; [exact Ef|]. split; [exact Lf|]. rewrite u_is. split; [|split].
  - intros k Hk. rewrite (Qreals.Qeq_eqR _ _ (V k Hk)). unfold Qdiv. rewrite Q2R_mult, Q2R_inv by (unfold Qeq; cbn; lia). rewrite !Q2R_IZR. exact (Vf k Hk).
  - intros k Hk. assert (X := Vf k Hk). apply Rabs_le_inv in X. set (i := (Z.of_nat k + 1)%Z) in *. assert (I1 : 1 <= IZR i) by (apply IZR_le; lia). assert (I2 : IZR i <= IZR (n + 1) - 1) by (rewrite <- minus_IZR; apply IZR_le; lia).
    assert (A : / IZR (n + 1) <= IZR i / IZR (n + 1)) by (unfold Rdiv; rewrite <- (Rmult_1_l (/ IZR (n + 1))) at 1; apply Rmult_le_compat_r; lra).
    assert (B : IZR i / IZR (n + 1) <= 1 - / IZR (n + 1)) by (replace (1 - / IZR (n + 1)) with ((IZR (n + 1) - 1) / IZR (n + 1)) by (field; lra); unfold Rdiv; apply Rmult_le_compat_r; lra). lra.
  - intros k Hk. assert (X := Vf k ltac:(lia)). assert (Y := Vf (S k) Hk). apply Rabs_le_inv in X, Y. replace (Z.of_nat (S k) + 1)%Z with (Z.of_nat k + 1 + 1)%Z in Y by lia. rewrite (plus_IZR (Z.of_nat k + 1)) in Y. replace ((IZR (Z.of_nat k + 1) + 1) / IZR (n + 1)) with (IZR (Z.of_nat k + 1) / IZR (n + 1) + / IZR (n + 1)) in Y by (field; lra). lra.
Qed.
Print Assumptions thresholds_in_doubles.

(** One pixel against one threshold. *)
Lemma fload_err l v : (0 <= v <= 255)%Z -> Rabs (fload l v - IZR v / 255) <= 3 * u.
Proof.
  intros Hv. assert (U := u_pos). assert (U2 := u_small). assert (Vr : 0 <= IZR v <= 255) by (split; apply IZR_le; lia). destruct l; cbn [fload].
  - assert (P := rnd_abs1 (IZR v / 255) ltac:(lra)). fold (fdiv (IZR v) 255) in P. lra.
  - destruct (Z.eq_dec v 0) as [->|N0]; [unfold fmul; rewrite Rmult_0_l, rnd_0; replace (0 - 0 / 255) with 0 by lra; rewrite Rabs_R0; lra|].
    assert (T : tiny <= 1 / 255) by (apply Rle_trans with (bpow radix2 (-14)); [apply bpow_le; lia|change (bpow radix2 (-14)) with (/ 16384); lra]).
    destruct (rnd_rel (1 / 255)) as (e & He & Ee); [rewrite Rabs_pos_eq by lra; exact T|]. apply Rabs_le_inv in He. fold (fdiv 1 255) in Ee.
    assert (E1 : IZR v * fdiv 1 255 = IZR v / 255 + IZR v / 255 * e) by (rewrite Ee; field). set (q := IZR v / 255) in *. assert (Q : 0 <= q <= 1) by (unfold q; lra). clearbody q.
    assert (X : Rabs (q * e) <= u) by (rewrite Rabs_mult, (Rabs_pos_eq q) by lra; apply Rle_trans with (1 * u); [apply Rmult_le_compat; [lra|apply Rabs_pos|lra|apply Rabs_le; lra]|lra]). apply Rabs_le_inv in X.
    unfold fmul. rewrite E1. assert (B : Rabs (rnd (q + q * e) - (q + q * e)) <= 2 * u); [|apply Rabs_le_inv in B; apply Rabs_le; lra].
    destruct (Rle_dec (q + q * e) 1) as [L|L].
    + destruct (Rle_dec 0 (q + q * e)) as [L0|L0]; [eapply Rle_trans; [apply rnd_abs1; split; assumption|lra]|]. exfalso. apply L0. replace (q + q * e) with (q * (1 + e)) by ring. apply Rmult_le_pos; lra.
    + assert (R : 0 <= (q + q * e) / 2 <= 1) by lra.
      assert (Hi : 1 <= rnd (q + q * e)) by (rewrite <- rnd_1; apply rnd_le; lra).
      assert (Hu : rnd (q + q * e) <= 1 + 2 * u). { apply Rle_trans with (rnd (1 + 2 * u)); [apply rnd_le; lra|]. rewrite rnd_id; [lra|]. replace (1 + 2 * u) with (IZR (2 ^ 52 + 1) * bpow radix2 (-52)) by (unfold u; simpl; lra). apply fmt_scaled; [reflexivity|lia]. }
      apply Rabs_le. lra.
Qed.
Lemma decide_off_tie l n v k t : (1 <= n <= 2 ^ 40)%Z -> (0 <= v <= 255)%Z -> (v * (n + 1) <> 255 * k)%Z -> Rabs (t - IZR k / IZR (n + 1)) <= 9 * u ->
  Rleb t (fload l v) = Qle_bool (inject_Z k / inject_Z (n + 1)) (inject_Z v / inject_Z 255).
Proof.
  intros Hn Hv Ne T. apply Rabs_le_inv in T. set (N := IZR (n + 1)) in *. assert (Nr : 2 <= N <= 1099511627777) by (split; apply IZR_le; lia).
  assert (P := fload_err l v Hv). apply Rabs_le_inv in P.
  assert (Small : 12 * u * (255 * N) < 1) by (apply Rle_lt_trans with (12 * u * (255 * 1099511627777)); [apply Rmult_le_compat_l; [assert (U := u_pos)|]; lra|unfold u; lra]).
  assert (Ex : Q2R (inject_Z k / inject_Z (n + 1)) = IZR k / N) by (unfold Qdiv; rewrite Q2R_mult, Q2R_inv, !Q2R_IZR by (unfold Qeq; cbn; lia); reflexivity).
  assert (Ev : Q2R (inject_Z v / inject_Z 255) = IZR v / 255) by (unfold Qdiv; rewrite Q2R_mult, Q2R_inv, !Q2R_IZR by (unfold Qeq; cbn; lia); reflexivity).
  assert (M : forall x y, x * (255 * N) <= y * (255 * N) -> x <= y) by (intros x y; apply Rmult_le_reg_r; lra).
  assert (EN : IZR k / N * (255 * N) = 255 * IZR k) by (field; lra). assert (EV : IZR v / 255 * (255 * N) = IZR v * N) by field.
  apply Bool.eq_iff_eq_true. rewrite Rleb_true, Qle_bool_iff. set (p := fload l v) in *. clearbody p. split; intros H.
  - apply Rle_Qle. rewrite Ex, Ev. apply M. rewrite EN, EV. assert (X : IZR k / N <= IZR v / 255 + 12 * u) by lra. apply (Rmult_le_compat_r (255 * N)) in X; [|lra]. rewrite Rmult_plus_distr_r, EN, EV in X.
    assert (Y : 255 * IZR k < IZR v * N + 1) by lra. unfold N in *. rewrite <- !mult_IZR in *. rewrite <- plus_IZR in Y. apply lt_IZR in Y. apply IZR_le. lia.
  - apply Qle_Rle in H. rewrite Ex, Ev in H. apply (Rmult_le_compat_r (255 * N)) in H; [|lra]. rewrite EN, EV in H. unfold N in H. rewrite <- !mult_IZR in H. apply le_IZR in H.
    assert (Y : (255 * k + 1 <= v * (n + 1))%Z) by lia. apply IZR_le in Y. rewrite plus_IZR, !mult_IZR in Y. fold N in Y.
    apply Rle_trans with (IZR k / N + 9 * u); [lra|]. apply Rle_trans with (IZR v / 255 - 3 * u); [|lra]. apply M. rewrite Rmult_plus_distr_r, EN, Rmult_minus_distr_r, EV. lra.
Qed.
Lemma imap_imap {X A B} (f : X -> A) (h : A -> B) im : imap h (imap f im) = imap (fun v => h (f v)) im.
Proof. unfold imap. cbn [ht wd rows]. f_equal. rewrite map_map. apply map_ext. intros r. apply map_map. Qed.
Lemma imap_ext_px {A B} (d : A) (f g : A -> B) (im : image A) : (forall v, In v (List.concat (rows im)) -> f v = g v) -> imap f im = imap g im.
Proof.
  intros H. unfold imap. f_equal. apply map_ext_in. intros r Hr. apply map_ext_in. intros v Hv. apply H. apply in_concat. exists r. split; assumption.
Qed.
Lemma Qle_bool_comp_l a b c : (a == b)%Q -> Qle_bool a c = Qle_bool b c.
Proof. intros E. apply Bool.eq_iff_eq_true. rewrite !Qle_bool_iff, E. reflexivity. Qed.
(** *** C59, theorem 2: for an 8-bit prediction (loaded in either way) and threshold number k of n, the binary map is the one of
    exact arithmetic unless some pixel lies exactly on the threshold. *)
Theorem thresholding_is_exact : forall l n th fth k pred, (1 <= n <= 2 ^ 40)%Z -> (k < Z.to_nat n)%nat ->
  check_thresholds (AInt n) = Ok th -> fthresholds_of_int n = Ok fth ->
  (forall v, In v (List.concat (rows pred)) -> (0 <= v <= 255)%Z) ->
  (forall v, In v (List.concat (rows pred)) -> (v * (n + 1) <> 255 * (Z.of_nat k + 1))%Z) ->
  fthresholded (fprediction l pred) (nth k fth 0) = thresholded (unit_range pred) (nth k th 0%Q).
Proof.
  intros l n th fth k pred Hn Hk E Ef R Ne. destruct (ProofsMetrics2.thresholds_int n ltac:(lia)) as (th' & E' & L & V). rewrite E in E'. injection E' as <-. destruct (fthr_values n Hn) as (fth' & Ef' & Lf & Vf). rewrite Ef in Ef'. injection Ef' as <-.
  unfold fthresholded, thresholded, fprediction, unit_range. rewrite !imap_imap. apply (imap_ext_px 0%Z). intros v Hv.
  rewrite (decide_off_tie l n v (Z.of_nat k + 1) _ Hn (R v Hv) (Ne v Hv) (Vf k Hk)). apply Qle_bool_comp_l. symmetry. exact (V k Hk).
Qed.
Print Assumptions thresholding_is_exact.

(** ** Exact values at the ties *)
Ltac by_hand := try lia; simpl; rewrite ?Rabs_pos_eq by lra; try lra; unfold Rabs; destruct (Rcase_abs _); lra.
Lemma a_100 : fdiv 1 100 = 5764607523034235 / 576460752303423488.
Proof. unfold fdiv. rewrite (rnd_value _ (-6) 5764607523034235) by by_hand. simpl. lra. Qed.
Lemma b_100 : fsub 1 (fdiv 1 100) = 8917127262193582 / 9007199254740992.
Proof. rewrite a_100. unfold fsub. rewrite (rnd_value _ 0 8917127262193582) by by_hand. simpl. lra. Qed.
Lemma d_100 : fsub (fsub 1 (fdiv 1 100)) (fdiv 1 100) = 8827055269646172 / 9007199254740992.
Proof. rewrite b_100, a_100. unfold fsub. rewrite (rnd_value _ 0 8827055269646172) by by_hand. simpl. lra. Qed.
Lemma s_100 : fdiv (fsub (fsub 1 (fdiv 1 100)) (fdiv 1 100)) 98 = 5764607523034235 / 576460752303423488.
Proof. rewrite d_100. unfold fdiv. rewrite (rnd_value _ (-6) 5764607523034235) by by_hand. simpl. lra. Qed.
Definition t_100 (i : Z) : R := fadd (fmul (IZR i) (fdiv (fsub (fsub 1 (fdiv 1 100)) (fdiv 1 100)) 98)) (fdiv 1 100).
Lemma tie_20 : t_100 19 = fdiv 51 255.
Proof.
  unfold t_100. rewrite s_100, a_100. unfold fmul. rewrite (rnd_value (19 * _) (-2) 6845471433603154) by by_hand. unfold fadd. rewrite (rnd_value _ (-2) 7205759403792794) by by_hand.
  unfold fdiv. rewrite (rnd_value (51 / 255) (-2) 7205759403792794) by by_hand. reflexivity.
Qed.
Lemma tie_40 : t_100 39 = fdiv 102 255.
Proof.
  unfold t_100. rewrite s_100, a_100. unfold fmul. rewrite (rnd_value (39 * _) (-1) 7025615418697974) by by_hand. unfold fadd. rewrite (rnd_value _ (-1) 7205759403792794) by by_hand.
  unfold fdiv. rewrite (rnd_value (102 / 255) (-1) 7205759403792794) by by_hand. reflexivity.
Qed.
Lemma tie_60 : t_100 59 = fdiv 153 255.
Proof.
  unfold t_100. rewrite s_100, a_100. unfold fmul. rewrite (rnd_value (59 * _) 0 5314247560297185) by by_hand. unfold fadd. rewrite (rnd_value _ 0 5404319552844595) by by_hand.
  unfold fdiv. rewrite (rnd_value (153 / 255) 0 5404319552844595) by by_hand. reflexivity.
Qed.
Lemma tie_80 : t_100 79 = fdiv 204 255.
Proof.
  unfold t_100. rewrite s_100, a_100. unfold fmul. rewrite (rnd_value (79 * _) 0 7115687411245384) by by_hand. unfold fadd. rewrite (rnd_value _ 0 7205759403792794) by by_hand.
  unfold fdiv. rewrite (rnd_value (204 / 255) 0 7205759403792794) by by_hand. reflexivity.
Qed.
Lemma rnd_half x e m : (-1000 <= e)%Z -> bpow radix2 (e - 1) <= Rabs x < bpow radix2 e -> x * bpow radix2 (53 - e) = IZR m - / 2 -> Z.even m = true -> rnd x = IZR m * bpow radix2 (e - 53).
Proof.
  intros He Hx Hm Ev. unfold rnd, round, F2R, scaled_mantissa, cexp. cbn [Fnum Fexp]. rewrite (mag_unique radix2 x e Hx).
  replace (FLT_exp (-1074) 53 e) with (e - 53)%Z by (unfold FLT_exp; lia). replace (- (e - 53))%Z with (53 - e)%Z by lia. f_equal. f_equal. rewrite Hm.
  assert (Fl : Zfloor (IZR m - / 2) = (m - 1)%Z) by (apply Zfloor_imp; rewrite plus_IZR, minus_IZR; lra). assert (Ce : Zceil (IZR m - / 2) = m) by (apply Zceil_imp; rewrite minus_IZR; lra).
  unfold Znearest. rewrite Fl, Ce, minus_IZR. rewrite Rcompare_Eq by lra. replace (Z.even (m - 1)) with false by (rewrite Z.even_sub, Ev; reflexivity). reflexivity.
Qed.
Lemma r_255 : fdiv 1 255 = 4521260802379792 / 1152921504606846976.
Proof. unfold fdiv. rewrite (rnd_value _ (-7) 4521260802379792) by by_hand. simpl. lra. Qed.
Lemma rescale_51 : fmul 51 (fdiv 1 255) = fdiv 51 255.
Proof. rewrite r_255. unfold fmul, fdiv. rewrite (rnd_half (51 * _) (-2) 7205759403792794) by (reflexivity || by_hand). rewrite (rnd_value (51 / 255) (-2) 7205759403792794) by by_hand. reflexivity. Qed.
Lemma rescale_102 : fmul 102 (fdiv 1 255) = fdiv 102 255.
Proof. rewrite r_255. unfold fmul, fdiv. rewrite (rnd_half (102 * _) (-1) 7205759403792794) by (reflexivity || by_hand). rewrite (rnd_value (102 / 255) (-1) 7205759403792794) by by_hand. reflexivity. Qed.
Lemma rescale_153 : fmul 153 (fdiv 1 255) = fdiv 153 255.
Proof. rewrite r_255. unfold fmul, fdiv. rewrite (rnd_value (153 * _) 0 5404319552844595) by by_hand. rewrite (rnd_value (153 / 255) 0 5404319552844595) by by_hand. reflexivity. Qed.
Lemma rescale_204 : fmul 204 (fdiv 1 255) = fdiv 204 255.
Proof. rewrite r_255. unfold fmul, fdiv. rewrite (rnd_half (204 * _) (0) 7205759403792794) by (reflexivity || by_hand). rewrite (rnd_value (204 / 255) 0 7205759403792794) by by_hand. reflexivity. Qed.
Lemma fthr_nth n k : (2 <= n)%Z -> (k < Z.to_nat n - 1)%nat -> forall fth, fthresholds_of_int n = Ok fth ->
  nth k fth 0 = fadd (fmul (IZR (Z.of_nat k)) (fdiv (fsub (fsub 1 (fdiv 1 (IZR (n + 1)))) (fdiv 1 (IZR (n + 1)))) (IZR (n - 1)))) (fdiv 1 (IZR (n + 1))).
Proof.
  intros Hn Hk fth. unfold fthresholds_of_int. replace (n + 1 =? 0)%Z with false by lia. replace (n <? 0)%Z with false by lia. intros E. injection E as <-.
  unfold flinspace. destruct (Z.to_nat n) as [|[|m]] eqn:En; [lia|lia|]. rewrite <- En. rewrite nth_map_zseqR by lia. rewrite Z2Nat.id by lia. replace (Z.of_nat k =? n - 1)%Z with false by lia. reflexivity.
Qed.
(** *** C59, theorem 3: with the 99 thresholds the programs use by default, the proviso of theorem 2 is not needed. *)
Theorem default_thresholds_are_exact : forall l th fth k pred, (k < 99)%nat ->
  check_thresholds (AInt 99) = Ok th -> fthresholds_of_int 99 = Ok fth ->
  (forall v, In v (List.concat (rows pred)) -> (0 <= v <= 255)%Z) ->
  fthresholded (fprediction l pred) (nth k fth 0) = thresholded (unit_range pred) (nth k th 0%Q).
Proof.
  intros l th fth k pred Hk E Ef R. destruct (ProofsMetrics2.thresholds_int 99 ltac:(lia)) as (th' & E' & L & V). rewrite E in E'. injection E' as <-. destruct (fthr_values 99 ltac:(lia)) as (fth' & Ef' & Lf & Vf). rewrite Ef in Ef'. injection Ef' as <-.
  unfold fthresholded, thresholded, fprediction, unit_range. rewrite !imap_imap. apply (imap_ext_px 0%Z). intros v Hv. specialize (R v Hv).
  rewrite (Qle_bool_comp_l _ _ _ (V k ltac:(lia))). destruct (Z.eq_dec (v * (99 + 1)) (255 * (Z.of_nat k + 1))) as [T|T]; [|exact (decide_off_tie l 99 v (Z.of_nat k + 1) _ ltac:(lia) R T (Vf k ltac:(lia)))].
  assert (C : (k = 19%nat /\ v = 51%Z) \/ (k = 39%nat /\ v = 102%Z) \/ (k = 59%nat /\ v = 153%Z) \/ (k = 79%nat /\ v = 204%Z)) by lia.
  assert (X : nth k fth 0 = t_100 (Z.of_nat k)) by (rewrite (fthr_nth 99 k ltac:(lia) ltac:(lia) fth Ef); reflexivity). rewrite X. clear X Vf V.
  assert (Q : Qle_bool (inject_Z (Z.of_nat k + 1) / inject_Z (99 + 1)) (inject_Z v / inject_Z 255) = true).
  { apply Qle_bool_iff. destruct C as [[-> ->] | [[-> ->] | [[-> ->] | [-> ->]]]]; apply Qle_bool_iff; vm_compute; reflexivity. }
  rewrite Q. apply Rleb_true. destruct C as [[-> ->] | [[-> ->] | [[-> ->] | [-> ->]]]]; [change (Z.of_nat 19) with 19%Z; rewrite tie_20|change (Z.of_nat 39) with 39%Z; rewrite tie_40|change (Z.of_nat 59) with 59%Z; rewrite tie_60|change (Z.of_nat 79) with 79%Z; rewrite tie_80]; destruct l; cbn [fload]; rewrite ?rescale_51, ?rescale_102, ?rescale_153, ?rescale_204; apply Rle_refl.
Qed.
Print Assumptions default_thresholds_are_exact.

(** Ties with other numbers of thresholds. *)
Definition one_pixel (v : Z) : image Z := tab 1 1 (fun _ _ => v).
Lemma tie_n23 : fdiv 85 255 < fadd (fmul 7 (fdiv (fsub (fsub 1 (fdiv 1 24)) (fdiv 1 24)) 22)) (fdiv 1 24).
Proof.
  assert (A : fdiv 1 24 = 6004799503160661 / 144115188075855872) by (unfold fdiv; rewrite (rnd_value _ (-4) 6004799503160661) by by_hand; simpl; lra).
  assert (B : fsub 1 (fdiv 1 24) = 8631899285793451 / 9007199254740992) by (rewrite A; unfold fsub; rewrite (rnd_value _ 0 8631899285793451) by by_hand; simpl; lra).
  rewrite B, A. unfold fsub. rewrite (rnd_value (_ - _) 0 8256599316845910) by by_hand. unfold fdiv at 2. rewrite (rnd_value (_ / 22) (-4) 6004799503160662) by by_hand. unfold fmul. rewrite (rnd_value (7 * _) (-1) 5254199565265579) by by_hand.
  unfold fadd. rewrite (rnd_value (_ + _) (-1) 6004799503160662) by by_hand. unfold fdiv. rewrite (rnd_value (85 / 255) (-1) 6004799503160661) by by_hand. simpl. lra.
Qed.
(** *** C59, theorem 4: the proviso of theorem 2 is needed: of 23 thresholds the eighth is 8/24, a pixel of value 85
    is exactly 8/24 and counts as an edge with exact numbers, but not with doubles. *)
Theorem threshold_ties_refuted : ~ (forall l n th fth k pred, (1 <= n <= 2 ^ 40)%Z -> (k < Z.to_nat n)%nat ->
  check_thresholds (AInt n) = Ok th -> fthresholds_of_int n = Ok fth ->
  (forall v, In v (List.concat (rows pred)) -> (0 <= v <= 255)%Z) ->
  fthresholded (fprediction l pred) (nth k fth 0) = thresholded (unit_range pred) (nth k th 0%Q)).
Proof.
  intros H. destruct (ProofsMetrics2.thresholds_int 23 ltac:(lia)) as (th & E & L & V). destruct (fthr_values 23 ltac:(lia)) as (fth & Ef & Lf & Vf).
  specialize (H Divide 23%Z th fth 7%nat (one_pixel 85) ltac:(lia) ltac:(lia) E Ef). assert (R : forall v, In v (List.concat (rows (one_pixel 85))) -> (0 <= v <= 255)%Z) by (intros v [<-|[]]; lia).
  specialize (H R). apply (f_equal rows) in H. unfold fthresholded, thresholded, fprediction, unit_range in H. cbn in H. injection H as H.
  rewrite (Qle_bool_comp_l _ _ _ (V 7%nat ltac:(lia))) in H. replace (Qle_bool _ _) with true in H by (vm_compute; reflexivity). apply Rleb_true in H.
  rewrite (fthr_nth 23 7 ltac:(lia) ltac:(lia) fth Ef) in H. assert (T := tie_n23). change (Z.of_nat 7) with 7%Z in H. change (23 + 1)%Z with 24%Z in H. change (23 - 1)%Z with 22%Z in H. lra.
Qed.
Print Assumptions threshold_ties_refuted.

(** The hypotheses are met: the values 0, 51, 128 and 255 against threshold 20 of 99 (51 is the tie), and 128 against the second of 3. *)
Definition ex_pred : image Z := tab 2 2 (fun y x => nth (Z.to_nat (2 * y + x)) [0; 51; 128; 255]%Z 0%Z).
Example ex_default : exists fth, fthresholds_of_int 99 = Ok fth /\ rows (fthresholded (fprediction Rescale ex_pred) (nth 19 fth 0)) = [[false; true]; [true; true]].
Proof.
  destruct (ProofsMetrics2.thresholds_int 99 ltac:(lia)) as (th & E & _ & V). destruct (fthr_values 99 ltac:(lia)) as (fth & Ef & _ & _). exists fth. split; [exact Ef|].
  rewrite (default_thresholds_are_exact Rescale th fth 19 ex_pred ltac:(lia) E Ef) by (intros v Hv; vm_compute in Hv; clear - Hv; lia). unfold thresholded, unit_range. rewrite imap_imap. unfold imap. cbn [rows ex_pred].
  cbn -[Qle_bool]. rewrite !(Qle_bool_comp_l _ _ _ (V 19%nat ltac:(lia))). vm_compute. reflexivity.
Qed.
Example ex_three : exists fth, fthresholds_of_int 3 = Ok fth /\ rows (fthresholded (fprediction Divide ex_pred) (nth 1 fth 0)) = [[false; false]; [true; true]].
Proof.
  destruct (ProofsMetrics2.thresholds_int 3 ltac:(lia)) as (th & E & _ & V). destruct (fthr_values 3 ltac:(lia)) as (fth & Ef & _ & _). exists fth. split; [exact Ef|].
  rewrite (thresholding_is_exact Divide 3 th fth 1 ex_pred ltac:(lia) ltac:(lia) E Ef) by (intros v Hv; vm_compute in Hv; clear - Hv; lia). unfold thresholded, unit_range. rewrite imap_imap. unfold imap. cbn [rows ex_pred].
  cbn -[Qle_bool]. rewrite !(Qle_bool_comp_l _ _ _ (V 1%nat ltac:(lia))). vm_compute. reflexivity.
Qed.
