(** Proofs about the binary64 version of the metrics (ModelFloat.v). *)
From Verif Require Export ModelFloat SpecRounding.
From Flocq Require Import Relative.
From Coq Require Import Lia Lra Psatz Qreals.
Open Scope R_scope.
Open Scope list_scope.

(** Unit of rounding 2^-53. *)
Definition u : R := / 9007199254740992.
Lemma u_pos : 0 < u. Proof. unfold u. lra. Qed.
Lemma u_small : u <= / 1000000000. Proof. unfold u. lra. Qed.
Definition fmt (x : R) : Prop := generic_format radix2 (FLT_exp (-1074) 53) x.
Lemma valid_exp : Valid_exp (FLT_exp (-1074) 53). Proof. apply FLT_exp_valid. unfold Prec_gt_0. lia. Qed.
#[global] Existing Instance valid_exp.
Lemma rnd_le x y : x <= y -> rnd x <= rnd y.
Proof. apply round_le; typeclasses eauto. Qed.
Lemma rnd_fmt x : fmt (rnd x).
Proof. apply generic_format_round; typeclasses eauto. Qed.
Lemma rnd_id x : fmt x -> rnd x = x.
Proof. apply round_generic; typeclasses eauto. Qed.
Lemma fmt_0 : fmt 0. Proof. apply generic_format_0. Qed.
Lemma fmt_scaled m e : (Z.abs m < 2 ^ 53)%Z -> (-1074 <= e)%Z -> fmt (IZR m * bpow radix2 e).
Proof.
  intros Hm He. apply generic_format_FLT. exists (Float radix2 m e); [reflexivity|exact Hm|exact He].
Qed.
Lemma fmt_bpow e : (-1074 <= e)%Z -> fmt (bpow radix2 e).
Proof. intros H. replace (bpow radix2 e) with (IZR 1 * bpow radix2 e) by ring. apply fmt_scaled; [reflexivity|exact H]. Qed.
Lemma fmt_int n : (Z.abs n <= 2 ^ 53)%Z -> fmt (IZR n).
Proof.
  intros H. destruct (Z.eq_dec (Z.abs n) (2 ^ 53)) as [E|E].
  - assert (D : (n = 2 ^ 53 \/ n = - 2 ^ 53)%Z) by lia. destruct D as [-> | ->].
    + change (IZR (2 ^ 53)) with (bpow radix2 53). apply fmt_bpow. lia.
    + replace (IZR (- 2 ^ 53)) with (- bpow radix2 53) by (rewrite opp_IZR; reflexivity). apply generic_format_opp, fmt_bpow. lia.
  - replace (IZR n) with (IZR n * bpow radix2 0) by (simpl; ring). apply fmt_scaled; lia.
Qed.
Lemma fmt_1 : fmt 1. Proof. apply (fmt_int 1). lia. Qed.
Lemma rnd_int n : (Z.abs n <= 2 ^ 53)%Z -> rnd (IZR n) = IZR n.
Proof. intros H. apply rnd_id, fmt_int, H. Qed.
Lemma rnd_0 : rnd 0 = 0. Proof. apply rnd_id, fmt_0. Qed.
Lemma rnd_1 : rnd 1 = 1. Proof. apply rnd_id, fmt_1. Qed.
Lemma rnd_nonneg x : 0 <= x -> 0 <= rnd x.
Proof. intros H. rewrite <- rnd_0. apply rnd_le, H. Qed.
Lemma rnd_le_1 x : x <= 1 -> rnd x <= 1.
Proof. intros H. rewrite <- rnd_1. apply rnd_le, H. Qed.
Lemma rnd_ge_fmt m x : fmt m -> m <= x -> m <= rnd x.
Proof. intros F H. rewrite <- (rnd_id m F). apply rnd_le, H. Qed.
Lemma rnd_le_fmt m x : fmt m -> x <= m -> rnd x <= m.
Proof. intros F H. rewrite <- (rnd_id m F). apply rnd_le, H. Qed.
Lemma u_eq : / 2 * bpow radix2 (- (53) + 1) = u.
Proof. unfold u. simpl. lra. Qed.
(** Errors. *)
Definition tiny : R := bpow radix2 (-200).
Lemma tiny_pos : 0 < tiny. Proof. apply bpow_gt_0. Qed.
Lemma rnd_rel x : tiny <= Rabs x -> exists e, Rabs e <= u /\ rnd x = x * (1 + e).
Proof.
  intros H. destruct (relative_error_N_FLT_ex radix2 (-1074) 53 ltac:(lia) (fun x => negb (Z.even x)) x) as (e & He & Hx).
  - eapply Rle_trans; [|exact H]. apply bpow_le. lia.
  - exists e. rewrite u_eq in He. split; [exact He|exact Hx].
Qed.
Lemma rnd_abs x b : Rabs x <= b -> 1 <= b -> Rabs (rnd x - x) <= u * b.
Proof.
  intros H B. destruct (error_N_FLT radix2 (-1074) 53 ltac:(lia) (fun x => negb (Z.even x)) x) as (e & h & He & Hh & Z & Hx).
  fold (rnd x) in Hx. rewrite u_eq in He. assert (T : / 2 * bpow radix2 (-1074) <= u).
  { rewrite <- u_eq. apply Rmult_le_compat_l; [lra|]. apply bpow_le. lia. }
  assert (U := u_pos). rewrite Hx. replace (x * (1 + e) + h - x) with (x * e + h) by ring. apply Rmult_integral in Z. destruct Z as [-> | ->].
  - rewrite Rmult_0_r, Rplus_0_l. eapply Rle_trans; [exact Hh|]. eapply Rle_trans; [exact T|]. nra.
  - rewrite Rplus_0_r, Rabs_mult. rewrite Rmult_comm. apply Rmult_le_compat; try apply Rabs_pos; assumption.
Qed.
Lemma rnd_abs1 x : 0 <= x <= 1 -> Rabs (rnd x - x) <= u.
Proof. intros H. rewrite <- (Rmult_1_r u). apply rnd_abs; [rewrite Rabs_pos_eq; lra|lra]. Qed.
(** A value found by hand. *)
Lemma rnd_value x e m : (-1000 <= e)%Z -> bpow radix2 (e - 1) <= Rabs x < bpow radix2 e -> Rabs (x * bpow radix2 (53 - e) - IZR m) < / 2 -> rnd x = IZR m * bpow radix2 (e - 53).
Proof.
  intros He Hx Hm. unfold rnd, round, F2R, scaled_mantissa, cexp. cbn [Fnum Fexp]. rewrite (mag_unique radix2 x e Hx).
  replace (FLT_exp (-1074) 53 e) with (e - 53)%Z by (unfold FLT_exp; lia). replace (- (e - 53))%Z with (53 - e)%Z by lia. f_equal. f_equal. apply Znearest_imp, Hm.
Qed.
Lemma double_fmt x : fmt x -> fmt (2 * x).
Proof.
  intros F. apply FLT_format_generic in F; [|unfold Prec_gt_0; lia]. destruct F as [[m e] E Hm He]. cbn [Fnum Fexp] in *. apply generic_format_FLT. exists (Float radix2 m (e + 1)); [|exact Hm|cbn [Fexp]; lia].
  rewrite E. unfold F2R. cbn [Fnum Fexp]. rewrite bpow_plus. change (bpow radix2 1) with 2. ring.
Qed.

(** *** the F-score *)
Lemma harmonic_range p r : 0 <= p <= 1 -> 0 <= r <= 1 -> 0 <= harmonic p r <= 1.
Proof.
  intros P Q. unfold harmonic. destruct (Req_EM_T (p + r) 0) as [E|E]; [lra|]. assert (S : 0 < p + r) by lra. split.
  - apply Rmult_le_pos; [nra|apply Rlt_le, Rinv_0_lt_compat, S].
  - apply Rmult_le_reg_r with (p + r); [exact S|]. unfold Rdiv. rewrite Rmult_assoc, Rinv_l by lra. nra.
Qed.
Lemma harmonic_sym p r : harmonic p r = harmonic r p.
Proof. unfold harmonic. rewrite (Rplus_comm p r). destruct (Req_EM_T (r + p) 0); [reflexivity|]. f_equal. ring. Qed.
Lemma harmonic_lip1 p q r : 0 <= p -> 0 <= q -> 0 <= r -> Rabs (harmonic p r - harmonic q r) <= 2 * Rabs (p - q).
Proof.
  intros P Q R. destruct (Rle_lt_or_eq_dec 0 r R) as [L|<-].
  - unfold harmonic. destruct (Req_EM_T (p + r) 0); [lra|]. destruct (Req_EM_T (q + r) 0); [lra|].
    replace (2 * p * r / (p + r) - 2 * q * r / (q + r)) with (2 * (p - q) * ((r / (p + r)) * (r / (q + r)))) by (field; lra).
    assert (A : forall z, 0 <= z -> 0 <= r / (z + r) <= 1).
    { intros z Hz. split; [apply Rmult_le_pos; [lra|apply Rlt_le, Rinv_0_lt_compat; lra]|]. apply Rmult_le_reg_r with (z + r); [lra|]. unfold Rdiv. rewrite Rmult_assoc, Rinv_l by lra. lra. }
    destruct (A p P) as [A1 A2], (A q Q) as [B1 B2]. rewrite Rabs_mult, Rabs_mult, (Rabs_pos_eq 2) by lra. rewrite (Rabs_pos_eq (_ * _)) by (apply Rmult_le_pos; assumption).
    assert (C : (r / (p + r)) * (r / (q + r)) <= 1) by nra. assert (D := Rabs_pos (p - q)). nra.
  - assert (Z : forall z, harmonic z 0 = 0) by (intros z; unfold harmonic; destruct (Req_EM_T (z + 0) 0); [reflexivity|unfold Rdiv; ring]).
    rewrite !Z, Rminus_0_r, Rabs_R0. assert (D := Rabs_pos (p - q)). lra.
Qed.
Lemma harmonic_lip p r p' r' : 0 <= p -> 0 <= r -> 0 <= p' -> 0 <= r' -> Rabs (harmonic p r - harmonic p' r') <= 2 * Rabs (p - p') + 2 * Rabs (r - r').
Proof.
  intros A B C D. replace (harmonic p r - harmonic p' r') with ((harmonic p r - harmonic p' r) + (harmonic p' r - harmonic p' r')) by ring.
  eapply Rle_trans; [apply Rabs_triang|]. apply Rplus_le_compat; [apply harmonic_lip1; assumption|]. rewrite (harmonic_sym p' r), (harmonic_sym p' r'). apply harmonic_lip1; assumption.
Qed.
(** Zero, or not too small, and at most 1. *)
Definition score_like (x : R) : Prop := fmt x /\ (x = 0 \/ bpow radix2 (-64) <= x <= 1).
Lemma score_like_range x : score_like x -> 0 <= x <= 1.
Proof. intros [_ [-> | H]]; [lra|]. assert (P := bpow_gt_0 radix2 (-64)). lra. Qed.
Lemma ff1_range p r : score_like p -> score_like r -> 0 <= ff1 p r <= 1.
Proof.
  intros Hp Hr. assert (Bp := score_like_range p Hp). assert (Br := score_like_range r Hr). unfold ff1, fdiv, fmul, fadd.
  rewrite (rnd_id (2 * p)) by apply double_fmt, Hp. set (s := rnd (p + r)). assert (S : 0 <= s) by (apply rnd_nonneg; lra).
  assert (X : rnd (2 * p * r) <= s) by (apply rnd_le; nra). assert (X0 : 0 <= rnd (2 * p * r)) by (apply rnd_nonneg; nra).
  unfold fzero. destruct (Req_EM_T s 0) as [E|E].
  - rewrite E in *. rewrite Rplus_0_l, rnd_1. assert (Y : rnd (2 * p * r) = 0) by lra. rewrite Y. unfold Rdiv. rewrite Rmult_0_l, rnd_0. lra.
  - rewrite Rplus_0_r, (rnd_id s) by apply rnd_fmt. assert (P : 0 < s) by lra. split.
    + apply rnd_nonneg. apply Rmult_le_pos; [exact X0|apply Rlt_le, Rinv_0_lt_compat, P].
    + apply rnd_le_1. apply Rmult_le_reg_r with s; [exact P|]. unfold Rdiv. rewrite Rmult_assoc, Rinv_l by lra. lra.
Qed.
Lemma ratio_error f e1 e2 e3 : 0 <= f <= 1 -> Rabs e1 <= u -> Rabs e2 <= u -> Rabs e3 <= u -> Rabs (f * (1 + e1) / (1 + e2) * (1 + e3) - f) <= 4 * u.
Proof.
  intros F E1 E2 E3. apply Rabs_le_inv in E1, E2, E3. assert (U := u_pos). assert (V := u_small).
  replace (f * (1 + e1) / (1 + e2) * (1 + e3) - f) with (f * ((e1 + e3 + e1 * e3 - e2) / (1 + e2))) by (field; lra).
  rewrite Rabs_mult, (Rabs_pos_eq f) by lra. assert (A : Rabs ((e1 + e3 + e1 * e3 - e2) / (1 + e2)) <= 4 * u); [|assert (B := Rabs_pos ((e1 + e3 + e1 * e3 - e2) / (1 + e2))); nra].
  unfold Rdiv. rewrite Rabs_mult, (Rabs_pos_eq (/ (1 + e2))) by (apply Rlt_le, Rinv_0_lt_compat; lra). apply Rmult_le_reg_r with (1 + e2); [lra|]. rewrite Rmult_assoc, Rinv_l by lra. rewrite Rmult_1_r.
  assert (N : Rabs (e1 + e3 + e1 * e3 - e2) <= 3 * u + u * u).
  { apply Rabs_le. assert (- (u * u) <= e1 * e3 <= u * u) by (split; nra). lra. }
  eapply Rle_trans; [exact N|]. nra.
Qed.
Lemma ff1_error p r : score_like p -> score_like r -> Rabs (ff1 p r - harmonic p r) <= 4 * u.
Proof.
  intros Hp Hr. assert (Bp := score_like_range p Hp). assert (Br := score_like_range r Hr). assert (U := u_pos). destruct Hp as [Fp Dp], Hr as [Fr Dr].
  assert (Z : p = 0 \/ r = 0 -> ff1 p r = 0 /\ harmonic p r = 0).
  { intros Z. assert (M : 2 * p * r = 0) by (destruct Z as [-> | ->]; ring). split.
    - unfold ff1, fdiv, fmul. rewrite (rnd_id (2 * p)) by apply double_fmt, Fp. rewrite M, rnd_0. unfold Rdiv. rewrite Rmult_0_l. apply rnd_0.
    - unfold harmonic. destruct (Req_EM_T (p + r) 0); [reflexivity|]. rewrite M. unfold Rdiv. apply Rmult_0_l. }
  destruct Dp as [-> | Dp]; [destruct (Z (or_introl eq_refl)) as [-> ->]; rewrite Rminus_0_r, Rabs_R0; lra|].
  destruct Dr as [-> | Dr]; [destruct (Z (or_intror eq_refl)) as [-> ->]; rewrite Rminus_0_r, Rabs_R0; lra|]. clear Z.
  set (t := bpow radix2 (-64)) in *. assert (T0 : 0 < t) by apply bpow_gt_0. assert (T2 : t * t = bpow radix2 (-128)) by (unfold t; rewrite <- bpow_plus; reflexivity).
  assert (T3 : tiny <= t * t) by (rewrite T2; apply bpow_le; lia).
  unfold ff1, fdiv, fmul, fadd. rewrite (rnd_id (2 * p)) by apply double_fmt, Fp. set (s := rnd (p + r)). assert (S : t <= s) by (apply rnd_ge_fmt; [apply fmt_bpow; lia|lra]).
  unfold fzero. destruct (Req_EM_T s 0) as [E|E]; [lra|]. rewrite Rplus_0_r, (rnd_id s) by apply rnd_fmt.
  assert (M : t * t <= p * r) by (apply Rmult_le_compat; lra).
  destruct (rnd_rel (2 * p * r)) as (e1 & E1 & X1); [rewrite Rabs_pos_eq by nra; nra|].
  destruct (rnd_rel (p + r)) as (e2 & E2 & X2). { rewrite Rabs_pos_eq by lra. assert (t <= 1). { unfold t. change 1 with (bpow radix2 0). apply bpow_le. lia. } nra. }
  assert (E1' := Rabs_le_inv _ _ E1). assert (E2' := Rabs_le_inv _ _ E2). assert (V := u_small).
  rewrite X1. unfold s in *. rewrite X2 in *.
  assert (Hq : tiny <= 2 * p * r * (1 + e1) / ((p + r) * (1 + e2))).
  { apply Rmult_le_reg_r with ((p + r) * (1 + e2)); [nra|]. unfold Rdiv. rewrite Rmult_assoc, Rinv_l, Rmult_1_r by lra.
    assert (tiny <= t * t / 8). { rewrite T2. change (bpow radix2 (-128) / 8) with (bpow radix2 (-128) * / (8)). replace (/ 8) with (bpow radix2 (-3)) by (simpl; lra). rewrite <- bpow_plus. apply bpow_le. lia. }
    assert ((p + r) * (1 + e2) <= 3) by nra. assert (0 < (p + r) * (1 + e2)) by nra. assert (t * t * (1 / 2) <= p * r * (1 + e1)) by nra. assert (P := tiny_pos). nra. }
  destruct (rnd_rel (2 * p * r * (1 + e1) / ((p + r) * (1 + e2)))) as (e3 & E3 & X3); [rewrite Rabs_pos_eq; [exact Hq|assert (P := tiny_pos); lra]|].
  rewrite X3. assert (HR := harmonic_range p r Bp Br). unfold harmonic in *. destruct (Req_EM_T (p + r) 0); [lra|].
  replace (2 * p * r * (1 + e1) / ((p + r) * (1 + e2)) * (1 + e3)) with (2 * p * r / (p + r) * (1 + e1) / (1 + e2) * (1 + e3)) by (field; lra).
  apply ratio_error; assumption.
Qed.
Lemma ff1_close p r p' r' d : score_like p -> score_like r -> 0 <= p' -> 0 <= r' -> Rabs (p - p') <= d -> Rabs (r - r') <= d -> Rabs (ff1 p r - harmonic p' r') <= 4 * u + 4 * d.
Proof.
  intros P R P' R' D1 D2. replace (ff1 p r - harmonic p' r') with ((ff1 p r - harmonic p r) + (harmonic p r - harmonic p' r')) by ring.
  eapply Rle_trans; [apply Rabs_triang|]. assert (A := ff1_error p r P R). assert (B := harmonic_lip p r p' r' (proj1 (score_like_range p P)) (proj1 (score_like_range r R)) P' R'). lra.
Qed.

(** *** ratios of counts *)
Definition fraction (c s : Z) : R := if (s =? 0)%Z then 0 else IZR c / IZR s.
Definition ratio_like (x : R) : Prop := fmt x /\ (x = 0 \/ bpow radix2 (-53) <= x <= 1).
Lemma ratio_like_score x : ratio_like x -> score_like x.
Proof. intros [F [Z|H]]; (split; [exact F|]); [left; exact Z|right]. assert (B : bpow radix2 (-64) <= bpow radix2 (-53)) by (apply bpow_le; lia). lra. Qed.
Lemma ratio_like_range x : ratio_like x -> 0 <= x <= 1.
Proof. intros H. apply score_like_range, ratio_like_score, H. Qed.
Lemma fraction_range c s : (0 <= c <= s)%Z -> 0 <= fraction c s <= 1.
Proof.
  intros H. unfold fraction. destruct (Z.eqb_spec s 0) as [E|E]; [lra|]. assert (S : 0 < IZR s) by (apply IZR_lt; lia). assert (C : 0 <= IZR c) by (apply IZR_le; lia). assert (D : IZR c <= IZR s) by (apply IZR_le; lia). split.
  - apply Rmult_le_pos; [exact C|apply Rlt_le, Rinv_0_lt_compat, S].
  - apply Rmult_le_reg_r with (IZR s); [exact S|]. unfold Rdiv. rewrite Rmult_assoc, Rinv_l by lra. lra.
Qed.
Lemma fratio_eq c s : (0 <= c <= s)%Z -> (s <= 2 ^ 53)%Z -> fratio (IZR c) (IZR s) = rnd (fraction c s).
Proof.
  intros H B. unfold fratio, fdiv, fadd, fzero, fraction. destruct (Z.eqb_spec s 0) as [E|E].
  - subst s. assert (c = 0)%Z as -> by lia. destruct (Req_EM_T 0 0) as [_|N]; [|congruence]. rewrite Rplus_0_l, rnd_1. f_equal. field.
  - destruct (Req_EM_T (IZR s) 0) as [N|_]; [apply eq_IZR in N; congruence|]. rewrite Rplus_0_r, rnd_int by lia. reflexivity.
Qed.
Lemma fratio_spec c s : (0 <= c <= s)%Z -> (s <= 2 ^ 53)%Z -> ratio_like (fratio (IZR c) (IZR s)) /\ Rabs (fratio (IZR c) (IZR s) - fraction c s) <= u.
Proof.
  intros H B. rewrite fratio_eq by assumption. assert (F := fraction_range c s H). split; [|apply rnd_abs1, F]. split; [apply rnd_fmt|].
  destruct (Z.eq_dec c 0) as [->|N].
  - left. replace (fraction 0 s) with 0; [apply rnd_0|]. unfold fraction. destruct (s =? 0)%Z; [reflexivity|]. unfold Rdiv. ring.
  - right. split; [|apply rnd_le_1, F]. apply rnd_ge_fmt; [apply fmt_bpow; lia|]. unfold fraction. destruct (Z.eqb_spec s 0) as [E|E]; [lia|].
    assert (S : 0 < IZR s) by (apply IZR_lt; lia). assert (C : 1 <= IZR c) by (apply IZR_le; lia). assert (D : IZR s <= bpow radix2 53) by (change (bpow radix2 53) with (IZR (2 ^ 53)); apply IZR_le, B).
    apply Rmult_le_reg_r with (IZR s); [exact S|]. unfold Rdiv. rewrite Rmult_assoc, Rinv_l, Rmult_1_r by lra.
    eapply Rle_trans; [apply Rmult_le_compat_l; [apply bpow_ge_0|exact D]|]. rewrite <- bpow_plus. change (bpow radix2 (-53 + 53)) with 1. lra.
Qed.
Lemma Q2R_recall c s : (0 <= c <= s)%Z -> Q2R (recall c s) = fraction c s.
Proof.
  intros H. unfold recall, fraction. destruct (Z.eqb_spec s 0) as [->|N].
  - assert (c = 0)%Z as -> by lia. unfold Q2R. cbn. lra.
  - cbn [b2z]. rewrite Z.add_0_r. rewrite Q2R_div by (intros C; unfold Qeq in C; cbn in C; lia). unfold Q2R. cbn [Qnum Qden inject_Z]. rewrite !Rinv_1, !Rmult_1_r. reflexivity.
Qed.
Lemma Q2R_0 : Q2R 0 = 0. Proof. unfold Q2R. cbn. lra. Qed.
Lemma Q2R_1 : Q2R 1 = 1. Proof. unfold Q2R. cbn. lra. Qed.
Lemma Q2R_IZR k : Q2R (inject_Z k) = IZR k. Proof. unfold Q2R. cbn [Qnum Qden inject_Z]. rewrite Rinv_1. ring. Qed.
Lemma Q2R_f1 p r : 0 <= Q2R p -> 0 <= Q2R r -> Q2R (f1 p r) = harmonic (Q2R p) (Q2R r).
Proof.
  intros P R. unfold f1, harmonic. rewrite <- Q2R_plus. destruct (Qeq_bool (p + r) 0) eqn:E.
  - apply Qeq_bool_iff in E. assert (X : Q2R (p + r) = 0) by (rewrite (Qeq_eqR _ _ E); apply Q2R_0). destruct (Req_EM_T (Q2R (p + r)) 0) as [_|N]; [|congruence].
    assert (Y : (p + r + 1 == 1)%Q) by (rewrite E; ring). rewrite Q2R_div by (rewrite Y; discriminate). rewrite !Q2R_mult. rewrite Q2R_plus in X. assert (Z : Q2R p = 0) by lra. rewrite Z. unfold Rdiv. ring.
  - destruct (Req_EM_T (Q2R (p + r)) 0) as [C|N].
    { exfalso. rewrite <- Q2R_0 in C. apply eqR_Qeq in C. apply Qeq_bool_iff in C. congruence. }
    assert (Y : (p + r + 0 == p + r)%Q) by ring. rewrite Q2R_div by (rewrite Y; intros C; apply Qeq_bool_iff in C; congruence). rewrite (Qeq_eqR _ _ Y), !Q2R_mult. replace (Q2R 2) with 2 by (unfold Q2R; cbn; lra). reflexivity.
Qed.

(** *** interpolation *)
Lemma hundredth_spec : Rabs (hundredth - 1 / 100) <= u / 100 /\ / 128 <= hundredth /\ hundredth <= 101 / 10000.
Proof.
  assert (U := u_pos). assert (V := u_small). destruct (rnd_rel (1 / 100)) as (e & E & X). { rewrite Rabs_pos_eq by lra. apply Rle_trans with (bpow radix2 (-7)); [apply bpow_le; lia|simpl; lra]. }
  unfold hundredth. rewrite X. apply Rabs_le_inv in E. split; [|lra]. replace (1 / 100 * (1 + e) - 1 / 100) with (e / 100) by field. apply Rabs_le. lra.
Qed.
Lemma fstep_100 : fstep 100 = 1. Proof. reflexivity. Qed.
Lemma fstep_0 : fstep 0 = 0. Proof. unfold fstep, fmul. cbn. rewrite Rmult_0_l. apply rnd_0. Qed.
Lemma fstep_spec k : (0 <= k <= 100)%Z -> fmt (fstep k) /\ 0 <= fstep k <= 1 /\ Rabs (fstep k - IZR k / 100) <= 2 * u /\ (fstep k = 0 \/ / 128 <= fstep k) /\ (fstep k = 1 \/ fstep k <= 127 / 128).
Proof.
  intros H. assert (U := u_pos). assert (V := u_small). destruct (Z.eq_dec k 100) as [->|N].
  { rewrite fstep_100. split; [apply fmt_1|]. split; [lra|]. split; [replace (1 - 100 / 100) with 0 by field; rewrite Rabs_R0; lra|]. split; [right; lra|left; reflexivity]. }
  destruct hundredth_spec as (A & B & C). apply Rabs_le_inv in A. unfold fstep. destruct (Z.eqb_spec k 100) as [E|_]; [congruence|]. unfold fmul.
  assert (K0 : 0 <= IZR k) by (apply IZR_le; lia). assert (K1 : IZR k <= 99) by (apply IZR_le; lia).
  assert (D : Rabs (IZR k * hundredth - IZR k / 100) <= u). { replace (IZR k * hundredth - IZR k / 100) with (IZR k * (hundredth - 1 / 100)) by field. rewrite Rabs_mult, (Rabs_pos_eq (IZR k)) by lra. apply Rle_trans with (99 * (u / 100)); [|lra]. apply Rmult_le_compat; [lra|apply Rabs_pos|lra|apply Rabs_le; lra]. }
  apply Rabs_le_inv in D. assert (X : 0 <= IZR k * hundredth <= 127 / 128) by (split; [nra|lra]). assert (Y := rnd_abs1 (IZR k * hundredth) ltac:(lra)). apply Rabs_le_inv in Y.
  split; [apply rnd_fmt|]. split; [split; [apply rnd_nonneg; lra|apply rnd_le_1; lra]|]. split; [apply Rabs_le; lra|]. split.
  - destruct (Z.eq_dec k 0) as [->|Z]; [left; rewrite Rmult_0_l; apply rnd_0|right]. assert (K2 : 1 <= IZR k) by (apply IZR_le; lia). apply rnd_ge_fmt; [replace (/ 128) with (bpow radix2 (-7)) by (simpl; lra); apply fmt_bpow; lia|nra].
  - right. apply rnd_le_fmt; [|lra]. replace (127 / 128) with (IZR 127 * bpow radix2 (-7)) by (simpl; lra). apply fmt_scaled; lia.
Qed.
Lemma fsub_step k : (0 <= k <= 100)%Z -> let d := fstep k in let e := fsub 1 d in
  fmt e /\ 0 <= e <= 1 /\ Rabs (e - (1 - d)) <= u /\ (e = 0 \/ / 128 <= e) /\ rnd (d + e) <= 1 /\ 0 <= d + e <= 2.
Proof.
  intros H d e. assert (U := u_pos). assert (V := u_small). destruct (fstep_spec k H) as (F & R & _ & L & G). fold d in F, R, L, G. unfold e, fsub in *.
  assert (Er := rnd_abs1 (1 - d) ltac:(lra)). assert (P0 : 0 <= rnd (1 - d)) by (apply rnd_nonneg; lra). assert (P1 : rnd (1 - d) <= 1) by (apply rnd_le_1; lra).
  split; [apply rnd_fmt|]. split; [lra|]. split; [exact Er|].
  destruct G as [G|G]; [rewrite G, Rminus_diag_eq, rnd_0 by reflexivity; split; [left; reflexivity|]; rewrite Rplus_0_r, rnd_1; lra|].
  split; [right; apply rnd_ge_fmt; [replace (/ 128) with (bpow radix2 (-7)) by (simpl; lra); apply fmt_bpow; lia|lra]|].
  split; [|lra]. destruct L as [L|L]; [rewrite L, Rminus_0_r, Rplus_0_l, rnd_1, rnd_1; lra|].
  destruct (rnd_rel (1 - d)) as (x & X & Hx). { rewrite Rabs_pos_eq by lra. apply Rle_trans with (bpow radix2 (-7)); [apply bpow_le; lia|simpl; lra]. }
  apply Rabs_le_inv in X. assert (S : d + rnd (1 - d) <= 1 + 127 / 128 * u) by (rewrite Hx; nra). destruct (Rle_lt_dec (d + rnd (1 - d)) 1) as [C|C]; [apply rnd_le_1, C|].
  rewrite (rnd_value _ 1 (2 ^ 52)).
  - change (1 - 53)%Z with (-52)%Z. change (IZR (2 ^ 52)) with (bpow radix2 52). rewrite <- bpow_plus. simpl. lra.
  - lia.
  - rewrite Rabs_pos_eq by lra. simpl. lra.
  - change (bpow radix2 (53 - 1)) with 4503599627370496. change (IZR (2 ^ 52)) with 4503599627370496. unfold u in *. apply Rabs_def1; lra.
Qed.
Lemma flerp_error x i k a b : (0 <= k <= 100)%Z -> 0 <= nth i x 0 <= 1 -> 0 <= nth (i - 1) x 0 <= 1 -> Rabs (nth i x 0 - a) <= u -> Rabs (nth (i - 1) x 0 - b) <= u -> 0 <= a <= 1 -> 0 <= b <= 1 ->
  Rabs (flerp x i k - (a * (IZR k / 100) + b * (1 - IZR k / 100))) <= 12 * u.
Proof.
  intros H. unfold flerp. set (p := nth i x 0). set (q := nth (i - 1) x 0). clearbody p q. intros Rp Rq Ea Eb Ra Rb. assert (U := u_pos). assert (V := u_small).
  destruct (fstep_spec k H) as (Fd & Rd & Ed & Ld & _). destruct (fsub_step k H) as (Fe & Re & Ee & Le & Se & Se2). set (d := fstep k) in *. set (e := fsub 1 d) in *. clearbody e. clearbody d. cbv zeta in *.
  unfold fadd, fmul. set (y := rnd (p * d)). set (z := rnd (q * e)).
  assert (Y : 0 <= y <= d) by (split; [apply rnd_nonneg; nra|apply rnd_le_fmt; [exact Fd|nra]]). assert (Z : 0 <= z <= e) by (split; [apply rnd_nonneg; nra|apply rnd_le_fmt; [exact Fe|nra]]).
  assert (Ey := rnd_abs1 (p * d) ltac:(nra)). assert (Ez := rnd_abs1 (q * e) ltac:(nra)). fold y in Ey. fold z in Ez.
  assert (Es := rnd_abs (y + z) 2 ltac:(rewrite Rabs_pos_eq; lra) ltac:(lra)).
    assert (Q1 : Rabs (y - a * (IZR k / 100)) <= 4 * u).
    { replace (y - a * (IZR k / 100)) with ((y - p * d) + (p - a) * d + a * (d - IZR k / 100)) by ring. eapply Rle_trans; [apply Rabs_triang|]. eapply Rle_trans; [apply Rplus_le_compat_r, Rabs_triang|]. rewrite !Rabs_mult, (Rabs_pos_eq d), (Rabs_pos_eq a) by lra.
      assert (A1 := Rabs_pos (p - a)). assert (A2 := Rabs_pos (d - IZR k / 100)). nra. }
    assert (Q2 : Rabs (z - b * (1 - IZR k / 100)) <= 5 * u).
    { replace (z - b * (1 - IZR k / 100)) with ((z - q * e) + (q - b) * e + b * ((e - (1 - d)) - (d - IZR k / 100))) by ring. eapply Rle_trans; [apply Rabs_triang|]. eapply Rle_trans; [apply Rplus_le_compat_r, Rabs_triang|]. rewrite !Rabs_mult, (Rabs_pos_eq e), (Rabs_pos_eq b) by lra.
      assert (A1 := Rabs_pos (q - b)). assert (A2 : Rabs ((e - (1 - d)) - (d - IZR k / 100)) <= 3 * u) by (unfold Rminus at 1; eapply Rle_trans; [apply Rabs_triang|]; rewrite Rabs_Ropp; lra). assert (A3 := Rabs_pos ((e - (1 - d)) - (d - IZR k / 100))). nra. }
    replace (rnd (y + z) - (a * (IZR k / 100) + b * (1 - IZR k / 100))) with ((rnd (y + z) - (y + z)) + ((y - a * (IZR k / 100)) + (z - b * (1 - IZR k / 100)))) by ring.
    eapply Rle_trans; [apply Rabs_triang|]. assert (A4 := Rabs_triang (y - a * (IZR k / 100)) (z - b * (1 - IZR k / 100))). lra.
Qed.
Lemma flerp_spec x i k a b : (0 <= k <= 100)%Z -> ratio_like (nth i x 0) -> ratio_like (nth (i - 1) x 0) -> Rabs (nth i x 0 - a) <= u -> Rabs (nth (i - 1) x 0 - b) <= u -> 0 <= a <= 1 -> 0 <= b <= 1 ->
  score_like (flerp x i k) /\ Rabs (flerp x i k - (a * (IZR k / 100) + b * (1 - IZR k / 100))) <= 12 * u.
Proof.
  intros H Hp0 Hq0 Ea0 Eb0 Ra0 Rb0. split; [|apply flerp_error; auto using ratio_like_range]. revert Hp0 Hq0 Ea0 Eb0 Ra0 Rb0. unfold flerp. set (p := nth i x 0). set (q := nth (i - 1) x 0). clearbody p q. intros Hp Hq Ea Eb Ra Rb. assert (U := u_pos). assert (V := u_small).
  destruct (fstep_spec k H) as (Fd & Rd & Ed & Ld & _). destruct (fsub_step k H) as (Fe & Re & Ee & Le & Se & Se2). set (d := fstep k) in *. set (e := fsub 1 d) in *. clearbody e. clearbody d. cbv zeta in *.
  assert (Rp := ratio_like_range p Hp). assert (Rq := ratio_like_range q Hq). unfold fadd, fmul. set (y := rnd (p * d)). set (z := rnd (q * e)).
  assert (Y : 0 <= y <= d) by (split; [apply rnd_nonneg; nra|apply rnd_le_fmt; [exact Fd|nra]]). assert (Z : 0 <= z <= e) by (split; [apply rnd_nonneg; nra|apply rnd_le_fmt; [exact Fe|nra]]).
  assert (Ey := rnd_abs1 (p * d) ltac:(nra)). assert (Ez := rnd_abs1 (q * e) ltac:(nra)). fold y in Ey. fold z in Ez.
  assert (B60 : forall v w, ratio_like v -> (w = 0 \/ / 128 <= w) -> 0 <= w <= 1 -> rnd (v * w) = 0 \/ bpow radix2 (-60) <= rnd (v * w)).
  { intros v w [_ [->|Hv]] [->|Hw] Rw; try (left; rewrite ?Rmult_0_l, ?Rmult_0_r; apply rnd_0). right. apply rnd_ge_fmt; [apply fmt_bpow; lia|]. replace (-60)%Z with (-53 + -7)%Z by lia. rewrite bpow_plus.
    apply Rmult_le_compat; try apply bpow_ge_0; [lra|]. simpl. lra. }
  assert (Ym : y = 0 \/ bpow radix2 (-60) <= y) by (apply B60; assumption). assert (Zm : z = 0 \/ bpow radix2 (-60) <= z) by (apply B60; assumption).
  assert (T : bpow radix2 (-64) <= bpow radix2 (-60)) by (apply bpow_le; lia). assert (T0 := bpow_gt_0 radix2 (-64)).
  split; [apply rnd_fmt|]. assert (W : y + z = 0 \/ bpow radix2 (-64) <= y + z) by (destruct Ym as [->|]; destruct Zm as [->|]; [left; ring|right; lra|right; lra|right; lra]).
    destruct W as [->|W]; [left; apply rnd_0|right]. split; [apply rnd_ge_fmt; [apply fmt_bpow; lia|exact W]|]. eapply Rle_trans; [apply rnd_le|exact Se]. lra.
Qed.
