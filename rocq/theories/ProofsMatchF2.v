(** Rounding of the tolerance, the outlier cost and the weights. *)
From Verif Require Import ModelMatchF ProofsFloat ProofsCSA64 ProofsMatchF ProofsMatch.
From Coq Require Import Lia Lra Psatz Qreals ZifyBool ZifyNat.
Open Scope R_scope.
Open Scope list_scope.

(** ** Relative errors, in units of u = 2^-53 *)
Definition rel (k x y : R) : Prop := (1 - k * u) * y <= x <= (1 + k * u) * y.
Lemma rel_refl y : rel 0 y y. Proof. unfold rel. lra. Qed.
Lemma rel_weaken k k' x y : 0 <= y -> k <= k' -> rel k x y -> rel k' x y.
Proof. unfold rel. intros Y K [A B]. assert (U := u_pos). assert (k * u * y <= k' * u * y) by (apply Rmult_le_compat_r; [exact Y|]; apply Rmult_le_compat_r; lra). lra. Qed.
Lemma ku_small k : 0 <= k <= 100 -> 0 <= k * u <= / 1000000.
Proof. intros K. assert (U := u_pos). assert (V := u_small). split; [apply Rmult_le_pos; lra|]. apply Rle_trans with (100 * u); [apply Rmult_le_compat_r; lra|lra]. Qed.
Lemma rel_pos k x y : 0 <= k <= 100 -> 0 < y -> rel k x y -> 0 < x.
Proof. unfold rel. intros K Y [A _]. assert (S := ku_small k K). eapply Rlt_le_trans; [|exact A]. apply Rmult_lt_0_compat; lra. Qed.
Lemma rel_mul a b x y x' y' : 0 <= a <= 100 -> 0 <= b <= 100 -> 0 < y -> 0 < y' -> rel a x y -> rel b x' y' -> rel (a + b + / 8) (x * x') (y * y').
Proof.
  unfold rel. intros Ha Hb Y Y' [A B] [A' B']. assert (Sa := ku_small a Ha). assert (Sb := ku_small b Hb). assert (U := u_pos). assert (YY : 0 < y * y') by (apply Rmult_lt_0_compat; assumption).
  assert (P : a * u * (b * u) <= / 8 * u). { replace (a * u * (b * u)) with (a * b * u * u) by ring. apply Rmult_le_compat_r; [lra|]. assert (a * b <= 10000) by nra. apply Rle_trans with (10000 * u); [apply Rmult_le_compat_r; lra|unfold u; lra]. }
  split.
  - apply Rle_trans with (((1 - a * u) * y) * ((1 - b * u) * y')).
    + replace ((1 - a * u) * y * ((1 - b * u) * y')) with ((1 - a * u) * (1 - b * u) * (y * y')) by ring. apply Rmult_le_compat_r; [lra|]. assert (0 <= a * u * (b * u)) by (apply Rmult_le_pos; lra). lra.
    + apply Rmult_le_compat; try assumption; apply Rmult_le_pos; lra.
  - apply Rle_trans with (((1 + a * u) * y) * ((1 + b * u) * y')).
    + apply Rmult_le_compat; try assumption; [eapply Rle_trans; [|exact A]; apply Rmult_le_pos; lra|eapply Rle_trans; [|exact A']; apply Rmult_le_pos; lra].
    + replace ((1 + a * u) * y * ((1 + b * u) * y')) with ((1 + a * u) * (1 + b * u) * (y * y')) by ring. apply Rmult_le_compat_r; [lra|]. lra.
Qed.
Lemma rel_rnd k x y : 0 <= k <= 99 -> 2 * tiny <= y -> rel k x y -> rel (k + 9 / 8) (rnd x) y.
Proof.
  intros K T H. assert (TP := tiny_pos). assert (S := ku_small k ltac:(lra)). assert (X : 0 < x) by (apply (rel_pos k x y); [lra|lra|exact H]).
  destruct (rnd_rel x) as (e & He & E). { rewrite Rabs_pos_eq by lra. destruct H as [A _]. eapply Rle_trans; [|exact A]. nra. }
  assert (R1 : rel 1 (1 + e) 1). { unfold rel. apply Rabs_le_inv in He. lra. }
  rewrite E. replace y with (y * 1) by ring. apply (rel_weaken (k + 1 + / 8)); [lra|lra|]. apply rel_mul; [lra|lra|lra|lra|exact H|exact R1].
Qed.
Lemma rel_scale k c x y : 0 <= c -> rel k x y -> rel k (c * x) (c * y).
Proof. unfold rel. intros C [A B]. split; [replace ((1 - k * u) * (c * y)) with (c * ((1 - k * u) * y)) by ring|replace ((1 + k * u) * (c * y)) with (c * ((1 + k * u) * y)) by ring]; apply Rmult_le_compat_l; assumption. Qed.

(** ** Weights *)
Lemma IZR_pow2 n : (0 <= n)%Z -> bpow radix2 n = IZR (2 ^ n).
Proof. intros H. destruct n; [reflexivity|reflexivity|lia]. Qed.
Lemma tiny_le_1 : 2 * tiny <= 1.
Proof. change 2 with (bpow radix2 1). unfold tiny. rewrite <- bpow_plus. change 1 with (bpow radix2 0). apply bpow_le. lia. Qed.
Lemma fsqrt_rel d : (1 <= d)%Z -> rel (9 / 8) (fsqrt (IZR d)) (sqrt (IZR d)).
Proof.
  intros H. unfold fsqrt. replace (9 / 8) with (0 + 9 / 8) by lra. assert (T1 := tiny_le_1). apply rel_rnd; [lra| |apply rel_refl].
  apply Rle_trans with 1; [exact T1|]. rewrite <- sqrt_1. apply sqrt_le_1_alt. apply IZR_le in H. exact H.
Qed.
Lemma fsqrt_0 : fsqrt 0 = 0. Proof. unfold fsqrt. rewrite sqrt_0. apply rnd_0. Qed.
Lemma weight_core (x y : R) (s n : Z) : (0 <= s < 2 ^ 24 - 1)%Z -> (s * s <= n < (s + 1) * (s + 1))%Z -> 0 <= x -> x * x = IZR n -> rel 3 y x ->
  Rabs (y - IZR (if (s * (s + 1) <? n)%Z then s + 1 else s)) < / 2.
Proof.
  intros Hs Hn X0 Xn [A B]. assert (U : u = / 9007199254740992) by reflexivity.
  assert (Sr : 0 <= IZR s <= 16777214) by (split; apply IZR_le; lia).
  assert (L1 : IZR s * IZR s <= IZR n) by (rewrite <- mult_IZR; apply IZR_le; lia).
  assert (L2 : IZR n <= (IZR s + 1) * (IZR s + 1) - 1) by (replace ((IZR s + 1) * (IZR s + 1) - 1) with (IZR ((s + 1) * (s + 1) - 1)) by (rewrite minus_IZR, mult_IZR, plus_IZR; reflexivity); apply IZR_le; lia).
  set (S := IZR s) in *. set (N := IZR n) in *.
  assert (Xs : S <= x) by nra. assert (Xs1 : x < S + 1) by nra.
  assert (Eu : 0 <= 3 * u * x <= / 100000). { rewrite U. split; [lra|]. assert (x <= 16777215) by lra. lra. }
  destruct (Z.ltb_spec (s * (s + 1)) n) as [C|C].
  - rewrite plus_IZR. fold S. assert (M : N >= S * S + S + 1). { assert (D : IZR (s * (s + 1) + 1) <= N) by (apply IZR_le; lia). rewrite plus_IZR, mult_IZR, plus_IZR in D. fold S in D. lra. }
    assert (Q : x - (S + / 2) > 3 * u * x). 
    { assert (K : (x - (S + / 2)) * (x + (S + / 2)) >= 3 / 4) by nra. assert (P : x + (S + / 2) <= 33554432) by lra. rewrite U. assert (x - (S + / 2) > / 50000000) by nra. lra. }
    apply Rabs_def1; lra.
  - fold S. assert (M : N <= S * S + S). { assert (D : N <= IZR (s * (s + 1))) by (apply IZR_le; lia). rewrite mult_IZR, plus_IZR in D. fold S in D. lra. }
    assert (Q : (S + / 2) - x > 3 * u * x).
    { assert (K : ((S + / 2) - x) * (x + (S + / 2)) >= / 4) by nra. assert (P : x + (S + / 2) <= 33554432) by lra. rewrite U. assert ((S + / 2) - x > / 134217729) by nra. lra. }
    apply Rabs_def1; lra.
Qed.
Lemma fweight_exact d : (0 <= d <= 2 ^ 33)%Z -> fweight d = weight d.
Proof.
  intros Hd. destruct (Z.eq_dec d 0) as [->|Nz].
  { unfold fweight, fmul, rint. rewrite fsqrt_0, Rmult_0_l, rnd_0. change (weight 0) with 0%Z. apply Znearest_imp. rewrite Rminus_0_r, Rabs_R0. lra. }
  unfold fweight, rint, weight, multiplier. change (100 * 100)%Z with 10000%Z.
  assert (S0 : 0 < sqrt (IZR d)) by (apply sqrt_lt_R0, IZR_lt; lia).
  assert (F : rel 3 (fmul (fsqrt (IZR d)) (IZR 100)) (100 * sqrt (IZR d))).
  { unfold fmul. apply (rel_weaken (9 / 8 + 9 / 8)); [lra|lra|]. assert (T1 := tiny_le_1).
    assert (S1 : 1 <= sqrt (IZR d)) by (rewrite <- sqrt_1; apply sqrt_le_1_alt; apply (IZR_le 1); lia).
    apply rel_rnd; [lra|lra|]. rewrite Rmult_comm. apply rel_scale; [lra|]. apply fsqrt_rel. lia. }
  assert (X : 100 * sqrt (IZR d) * (100 * sqrt (IZR d)) = IZR (d * 10000)).
  { rewrite mult_IZR. replace (100 * sqrt (IZR d) * (100 * sqrt (IZR d))) with (10000 * (sqrt (IZR d) * sqrt (IZR d))) by ring. rewrite sqrt_sqrt by (apply IZR_le; lia). ring. }
  destruct (Z.sqrt_spec (d * 10000) ltac:(lia)) as [A B]. apply Znearest_imp. unfold rint_sqrt. apply (weight_core (100 * sqrt (IZR d)) _ _ _).
  - assert (P := Z.sqrt_nonneg (d * 10000)). split; [exact P|]. apply Z.nle_gt. intros G. clear - A G Hd. set (r := Z.sqrt (d * 10000)) in *. clearbody r. change (2 ^ 24 - 1)%Z with 16777215%Z in G. change (2 ^ 33)%Z with 8589934592%Z in Hd. nia.
  - lia.
  - lra.
  - exact X.
  - exact F.
Qed.

(** ** Doubles are rational *)
Lemma fmt_Q x : fmt x -> exists q, Q2R q = x.
Proof.
  intros H. apply FLT_format_generic in H; [|reflexivity]. destruct H as [[m e] H _ _]. unfold F2R in H. cbn [Fnum Fexp] in H. destruct (Z_le_gt_dec 0 e) as [L|L].
  - exists (inject_Z (m * 2 ^ e)). rewrite Q2R_IZR, mult_IZR, <- IZR_pow2 by exact L. symmetry. exact H.
  - exists (m # Z.to_pos (2 ^ (- e))). unfold Q2R. cbn [Qnum Qden]. rewrite H. f_equal. rewrite Z2Pos.id by (apply Z.pow_pos_nonneg; lia). rewrite <- IZR_pow2 by lia. rewrite bpow_opp, Rinv_inv. reflexivity.
Qed.
(** [ceil_sqrt] of the square of a number. *)
Lemma ceil_sqrt_square q X : 0 < X -> Q2R q = X * X -> ceil_sqrt q = Zceil X.
Proof.
  intros P E. unfold ceil_sqrt. set (c := Zceil X). assert (C1 : X <= IZR c) by apply Zceil_ub. assert (C2 : IZR c - 1 < X).
  { assert (Y := Zceil_lb X). fold c in Y. lra. }
  assert (C0 : (0 < c)%Z) by (apply lt_IZR; lra).
  apply Z.sqrt_up_unique; [exact C0|]. split.
  - apply Z.nle_gt. intros L. assert (Y := Qle_ceiling q). apply Qle_Rle in Y. rewrite Q2R_IZR, E in Y.
    apply IZR_le in L. rewrite mult_IZR in L. unfold Z.pred in L. rewrite plus_IZR in L. assert (IZR c + -1 < X) by lra. assert (0 <= IZR c + -1) by (assert (IZR 1 <= IZR c) by (apply IZR_le; lia); lra). nra.
  - assert (Y : (q <= inject_Z (c * c))%Q). { apply Rle_Qle. rewrite Q2R_IZR, E, mult_IZR. nra. }
    apply Qceiling_resp_le in Y. rewrite Qceiling_Z in Y. exact Y.
Qed.
Lemma Rleb_Qle n q : Rleb (IZR n) (Q2R q) = Qle_bool (inject_Z n) q.
Proof.
  apply Bool.eq_iff_eq_true. rewrite Rleb_true, Qle_bool_iff. split; intros H.
  - apply Rle_Qle. rewrite Q2R_IZR. exact H.
  - apply Qle_Rle in H. rewrite Q2R_IZR in H. exact H.
Qed.

(** ** The tolerance and the outlier cost *)
Section Num.
Variable h w : nat.
Variable D O : R.
Hypothesis Hd1 : (1 <= diag2 h w)%Z.
Hypothesis Hd2 : (diag2 h w <= 2 ^ 33)%Z.
Hypothesis HD : bpow radix2 (-90) <= D.
Hypothesis HD' : D <= 512.
Hypothesis HO : 1 + 16 * u <= O.
Let d := diag2 h w.
Let S := sqrt (IZR d).
Let T := D * S.
Let md := fmax_dist D h w.
Let oc := foutlier_cost D O h w.

Lemma S1 : 1 <= S.
Proof. unfold S. rewrite <- sqrt_1. apply sqrt_le_1_alt. apply (IZR_le 1). exact Hd1. Qed.
Lemma S2 : S <= 92682.
Proof. unfold S. replace 92682 with (sqrt (92682 * 92682)) by (apply sqrt_square; lra). apply sqrt_le_1_alt. rewrite <- mult_IZR. apply IZR_le. change (2 ^ 33)%Z with 8589934592%Z in Hd2. unfold d. lia. Qed.
Lemma D_pos : 0 < D. Proof. eapply Rlt_le_trans; [apply bpow_gt_0|exact HD]. Qed.
Lemma T_tiny : 2 * tiny <= D /\ 2 * tiny <= T /\ 2 * tiny <= T * T /\ 0 < T.
Proof.
  assert (Dp := D_pos). assert (Sp := S1). assert (T2 : bpow radix2 (-180) <= D * D).
  { change (-180)%Z with (-90 + -90)%Z. rewrite bpow_plus. assert (Q := bpow_gt_0 radix2 (-90)). apply Rmult_le_compat; lra. }
  assert (E : 2 * tiny = bpow radix2 (-199)) by (change 2 with (bpow radix2 1); unfold tiny; rewrite <- bpow_plus; reflexivity).
  assert (L1 : bpow radix2 (-199) <= bpow radix2 (-90)) by (apply bpow_le; lia). assert (L2 : bpow radix2 (-199) <= bpow radix2 (-180)) by (apply bpow_le; lia).
  rewrite E. assert (DT : D <= T) by (unfold T; nra). assert (DDT : D * D <= T * T) by nra. lra.
Qed.
Lemma md_rel : rel (9 / 4) md T.
Proof.
  destruct T_tiny as (A & B & C & P). unfold md, fmax_dist, fmul. replace (9 / 4) with (9 / 8 + 9 / 8) by lra. apply rel_rnd; [lra|exact B|]. unfold T. apply rel_scale; [assert (X := D_pos); lra|]. apply fsqrt_rel, Hd1.
Qed.
Lemma md2_rel : rel 6 (fmul md md) (T * T).
Proof.
  destruct T_tiny as (A & B & C & P). unfold fmul. apply (rel_weaken (9 / 4 + 9 / 4 + / 8 + 9 / 8)); [nra|lra|]. apply rel_rnd; [lra|exact C|]. apply rel_mul; [lra|lra|exact P|exact P|exact md_rel|exact md_rel].
Qed.
Lemma O_pos : 1 < O. Proof. assert (U := u_pos). lra. Qed.
Lemma OT_tiny : 2 * tiny <= O * D /\ T <= O * T /\ 2 * tiny <= O * T /\ 2 * tiny <= O * T * 100 /\ 0 < O * D.
Proof. destruct T_tiny as (A & B & C & P). assert (X := O_pos). assert (Y := D_pos). assert (TP := tiny_pos). assert (D <= O * D) by nra. assert (T <= O * T) by nra. lra. Qed.
Lemma oc_rel : rel (7 / 2) oc (O * T).
Proof.
  destruct OT_tiny as (A & A' & B & C & P). unfold oc, foutlier_cost, fmul. replace (7 / 2) with (9 / 8 + 9 / 8 + / 8 + 9 / 8) by lra. apply rel_rnd; [lra|exact B|].
  unfold T. rewrite <- Rmult_assoc. apply rel_mul; [lra|lra|exact P|assert (X := S1); lra| |apply fsqrt_rel, Hd1]. fold (fmul O D). unfold fmul. replace (9 / 8) with (0 + 9 / 8) by lra. apply rel_rnd; [lra|exact A|apply rel_refl].
Qed.
Lemma ocx_rel : rel 5 (fmul oc 100) (100 * (O * T)).
Proof.
  destruct OT_tiny as (A & A' & B & C & P). unfold fmul. assert (TP := tiny_pos). apply (rel_weaken (7 / 2 + 9 / 8)); [lra|lra|]. apply rel_rnd; [lra|lra|]. rewrite Rmult_comm. apply rel_scale; [lra|exact oc_rel].
Qed.
Lemma md_nonneg : 0 <= md. Proof. apply Rlt_le. apply (rel_pos (9 / 4) md T); [lra|apply T_tiny|exact md_rel]. Qed.
Lemma OT_gap : (1 + 16 * u) * T <= O * T.
Proof. destruct T_tiny as (A & B & C & P). apply Rmult_le_compat_r; lra. Qed.
Lemma oc_lower : (1 + 12 * u) * T <= oc.
Proof.
  destruct oc_rel as [A _]. destruct T_tiny as (_ & _ & _ & P). assert (G := OT_gap). assert (U := u_pos). eapply Rle_trans; [|exact A].
  apply Rle_trans with ((1 - 7 / 2 * u) * ((1 + 16 * u) * T)); [|apply Rmult_le_compat_l; [unfold u; lra|exact G]].
  rewrite <- Rmult_assoc. apply Rmult_le_compat_r; [lra|]. assert (u * u <= u / 1000) by (assert (V := u_small); unfold Rdiv; apply Rmult_le_compat_l; lra). lra.
Qed.
Lemma md_lt_oc : md < oc.
Proof. destruct md_rel as [_ A]. assert (B := oc_lower). assert (U := u_pos). destruct T_tiny as (_ & _ & _ & P). assert ((1 + 9 / 4 * u) * T < (1 + 12 * u) * T) by (apply Rmult_lt_compat_r; lra). lra. Qed.
(** Distances within the rounded tolerance are below the outlier cost. *)
Lemma sqrt_below (n : Z) : (0 <= n)%Z -> IZR n <= (1 + 6 * u) * (T * T) -> fsqrt (IZR n) < oc.
Proof.
  intros N0 Hn. assert (B := oc_lower). assert (U := u_pos). destruct T_tiny as (_ & _ & _ & P). destruct (Z.eq_dec n 0) as [->|Nz].
  { rewrite fsqrt_0. eapply Rlt_le_trans; [|exact B]. apply Rmult_lt_0_compat; lra. }
  destruct (fsqrt_rel n ltac:(lia)) as [_ A]. assert (Q : sqrt (IZR n) <= (1 + 3 * u) * T).
  { assert (X : 0 <= (1 + 3 * u) * T) by (apply Rmult_le_pos; lra). rewrite <- (sqrt_square ((1 + 3 * u) * T)) by exact X. apply sqrt_le_1_alt. eapply Rle_trans; [exact Hn|].
    replace ((1 + 3 * u) * T * ((1 + 3 * u) * T)) with ((1 + 6 * u + 9 * (u * u)) * (T * T)) by ring. apply Rmult_le_compat_r; nra. }
  assert (Y : (1 + 9 / 8 * u) * sqrt (IZR n) <= (1 + 9 / 8 * u) * ((1 + 3 * u) * T)) by (apply Rmult_le_compat_l; lra).
  assert (Z : (1 + 9 / 8 * u) * ((1 + 3 * u) * T) < (1 + 12 * u) * T); [|lra]. rewrite <- Rmult_assoc. apply Rmult_lt_compat_r; [exact P|].
  assert (u * u <= u / 1000) by (assert (V := u_small); unfold Rdiv; apply Rmult_le_compat_l; lra). lra.
Qed.
Lemma cover_ok a b : fclose md a b = true -> (Z.abs a <= Zceil md /\ Z.abs b <= Zceil md)%Z.
Proof.
  intros H. unfold fclose in H. apply Rleb_true in H. set (c := Zceil md). assert (Cu : md <= IZR c) by apply Zceil_ub. assert (M0 := md_nonneg).
  assert (C0 : (0 <= c)%Z) by (apply le_IZR; lra).
  assert (Cb : (c <= 2 ^ 26)%Z).
  { assert (X := Zceil_lb md). fold c in X. assert (Y : md <= 47600000). { destruct md_rel as [_ Y]. eapply Rle_trans; [exact Y|]. assert (Q1 := S1). assert (Q2 := S2). assert (Q3 := D_pos). assert (TB : T <= 512 * 92682) by (unfold T; apply Rmult_le_compat; [lra|lra|exact HD'|exact Q2]).
      destruct T_tiny as (_ & _ & _ & P). clearbody T. clear - TB P. apply Rle_trans with ((1 + / 1000) * T); [apply Rmult_le_compat_r; [lra|unfold u; lra]|lra]. }
    apply le_IZR. change (IZR (2 ^ 26)) with 67108864. lra. }
  assert (Fm : fmul md md <= IZR (c * c)).
  { unfold fmul. apply rnd_le_fmt; [apply fmt_int|]. { rewrite Z.abs_eq by nia. change (2 ^ 53)%Z with 9007199254740992%Z. change (2 ^ 26)%Z with 67108864%Z in Cb. nia. } rewrite mult_IZR. apply Rmult_le_compat; lra. }
  assert (L : (a * a + b * b <= c * c)%Z) by (apply le_IZR; lra). clear - L C0. nia.
Qed.
End Num.
