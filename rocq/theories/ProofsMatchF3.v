(** The rounded correspondence: parameters of the graph, and the reported cost. *)
From Verif Require Import ProofsMatch5 SpecMatch SpecCorrespond PropertiesMatch ModelMatchF ProofsFloat ProofsCSA64 ProofsMatch64 ProofsMatchF ProofsMatchF2.
From Coq Require Import Lia Lra Psatz Qreals ZifyBool ZifyNat Permutation.
Open Scope R_scope.
Open Scope list_scope.

(** ** Parameters *)
(** The hypotheses of [fmatch_eq] on the numbers. *)
Record agrees (h w : nat) (md oc : R) (md2 oc2 : Q) : Prop := mkAgrees {
  ag_md : (0 <= md2)%Q; ag_oc : (md2 < oc2)%Q; ag_md' : 0 <= md; ag_oc' : md < oc;
  ag_close : forall a b, fclose md a b = Qle_bool (inject_Z (a * a + b * b)) md2;
  ag_cover : forall a b, fclose md a b = true -> (Z.abs a <= Zceil md /\ Z.abs b <= Zceil md)%Z;
  ag_ow : fow oc = ow oc2;
  ag_below : forall d, (0 <= d)%Z -> (inject_Z d <= md2)%Q -> fsqrt (IZR d) < oc;
  ag_weight : forall d, (0 <= d <= diag2 h w)%Z -> fweight d = weight d }.

Section Num.
Variable h w : nat.
Variable D O : R.
Hypothesis Hd1 : (1 <= diag2 h w)%Z.
Hypothesis Hd2 : (diag2 h w <= 2 ^ 33)%Z.
Hypothesis HD : bpow radix2 (-90) <= D.
Hypothesis HD' : D <= 512.
Hypothesis HO : 1 + 16 * u <= O.
Let T := D * sqrt (IZR (diag2 h w)).
Let md := fmax_dist D h w.
Let oc := foutlier_cost D O h w.

Lemma T_square : T * T = D * D * IZR (diag2 h w).
Proof. unfold T. replace (D * sqrt (IZR (diag2 h w)) * (D * sqrt (IZR (diag2 h w)))) with (D * D * (sqrt (IZR (diag2 h w)) * sqrt (IZR (diag2 h w)))) by ring. rewrite sqrt_sqrt by (apply IZR_le; lia). reflexivity. Qed.
Lemma T_pos : 0 < T. Proof. exact (proj2 (proj2 (proj2 (T_tiny h w D Hd1 HD)))). Qed.
(** Any squared tolerance near enough that decides integers in the same way serves. *)
Lemma rounded_params (q : Q) : rel 8 (Q2R q) (T * T) -> (forall n : Z, IZR n <= fmul md md <-> (inject_Z n <= q)%Q) ->
  exists oc2 : Q, agrees h w md oc q oc2 /\ rel 11 (Q2R oc2) (O * T * (O * T)).
Proof.
  intros R8 Dec. destruct (fmt_Q (fmul oc 100) (rnd_fmt _)) as (qx & Ex).
  assert (Tp := T_pos). assert (R6 := md2_rel h w D Hd1 HD). fold md T in R6.
  assert (R5 := ocx_rel h w D O Hd1 HD HO). fold oc T in R5. rewrite <- Ex in R5. assert (O1 := O_pos O HO).
  assert (OT : 0 < O * T) by (apply Rmult_lt_0_compat; lra). assert (Xp : 0 < Q2R qx) by (apply (rel_pos 5 _ (100 * (O * T))); [lra|lra|exact R5]).
  set (oc2 := ((qx / 100) * (qx / 100))%Q).
  assert (E2 : Q2R oc2 = Q2R qx * Q2R qx / 10000).
  { unfold oc2. rewrite Q2R_mult. unfold Qdiv. rewrite Q2R_mult, Q2R_inv by (intros X; discriminate X). replace (Q2R 100) with 100 by (symmetry; apply (Q2R_IZR 100)). field. }
  assert (R11 : rel 11 (Q2R oc2) (O * T * (O * T))).
  { rewrite E2. assert (M : rel (5 + 5 + / 8) (Q2R qx * Q2R qx) (100 * (O * T) * (100 * (O * T)))) by (apply rel_mul; [lra|lra|lra|lra|exact R5|exact R5]). apply (rel_scale _ (/ 10000)) in M; [|lra].
    apply (rel_weaken (5 + 5 + / 8)); [apply Rmult_le_pos; lra|lra|]. replace (O * T * (O * T)) with (/ 10000 * (100 * (O * T) * (100 * (O * T)))) by field. replace (Q2R qx * Q2R qx / 10000) with (/ 10000 * (Q2R qx * Q2R qx)) by field. exact M. }
  assert (Q0 : 0 <= Q2R q) by (apply Rlt_le, (rel_pos 8 _ (T * T)); [lra|apply Rmult_lt_0_compat; lra|exact R8]).
  exists oc2. split; [|exact R11]. split.
  - apply Rle_Qle. rewrite ProofsFloat.Q2R_0. exact Q0.
  - apply Rlt_Qlt. destruct R8 as [_ A]. destruct R11 as [B _]. eapply Rle_lt_trans; [exact A|]. eapply Rlt_le_trans; [|exact B].
    assert (TT : 0 < T * T) by (apply Rmult_lt_0_compat; lra). apply Rlt_le_trans with ((1 - 11 * u) * ((1 + 16 * u) * T * ((1 + 16 * u) * T))).
    + replace ((1 - 11 * u) * ((1 + 16 * u) * T * ((1 + 16 * u) * T))) with ((1 - 11 * u) * ((1 + 16 * u) * (1 + 16 * u)) * (T * T)) by ring. apply Rmult_lt_compat_r; [exact TT|]. unfold u. lra.
    + apply Rmult_le_compat_l; [unfold u; lra|]. assert (G := OT_gap h w D O Hd1 HD HO). fold T in G. assert (U := u_pos). assert (0 <= (1 + 16 * u) * T) by (apply Rmult_le_pos; lra). apply Rmult_le_compat; assumption.
  - apply (md_nonneg h w D Hd1 HD).
  - apply (md_lt_oc h w D O Hd1 HD HO).
  - intros a b. unfold fclose. apply Bool.eq_iff_eq_true. rewrite Rleb_true, Qle_bool_iff. apply Dec.
  - intros a b. apply (cover_ok h w D Hd1 Hd2 HD HD').
  - unfold fow, ow. symmetry. rewrite (ceil_sqrt_square _ (Q2R qx)); [|exact Xp|].
    + unfold multiplier. rewrite <- Ex. reflexivity.
    + rewrite Q2R_mult, E2. unfold multiplier. rewrite Q2R_IZR. change (IZR (100 * 100)) with 10000. field.
  - intros d H0 L. apply (sqrt_below h w D O Hd1 HD HO d H0). apply Dec in L. destruct R6 as [_ A]. unfold T in A. lra.
  - intros d H0. apply fweight_exact. lia.
Qed.
(** In particular the square the code computes. *)
Lemma own_params : exists q, Q2R q = fmul md md /\ rel 6 (Q2R q) (T * T) /\ forall n : Z, IZR n <= fmul md md <-> (inject_Z n <= q)%Q.
Proof.
  destruct (fmt_Q (fmul md md) (rnd_fmt _)) as (q & Eq). exists q. split; [exact Eq|]. split.
  - rewrite Eq. apply (md2_rel h w D Hd1 HD).
  - intros n. rewrite <- Eq, <- (Q2R_IZR n). split; [apply Rle_Qle|apply Qle_Rle].
Qed.
(** The exact parameters serve if no integer is too close to them. *)
Lemma exact_params (qD qO : Q) : Q2R qD = D -> Q2R qO = O ->
  (forall n : Z, 8 * u * (T * T) < Rabs (IZR n - T * T)) -> (forall n : Z, 8 * u * (100 * (O * T)) < Rabs (IZR n - 100 * (O * T))) ->
  agrees h w md oc (qD * qD * inject_Z (diag2 h w)) (qO * qO * (qD * qD) * inject_Z (diag2 h w)).
Proof.
  intros ED EO B1 B2. set (md2 := (qD * qD * inject_Z (diag2 h w))%Q). set (oc2 := (qO * qO * (qD * qD) * inject_Z (diag2 h w))%Q).
  assert (Tp := T_pos). assert (O1 := O_pos O HO). assert (TT : 0 < T * T) by (apply Rmult_lt_0_compat; lra). assert (OT : 0 < O * T) by (apply Rmult_lt_0_compat; lra).
  assert (Em : Q2R md2 = T * T) by (unfold md2; rewrite !Q2R_mult, Q2R_IZR, ED, T_square; reflexivity).
  assert (Eo : Q2R oc2 = O * T * (O * T)) by (unfold oc2; rewrite !Q2R_mult, Q2R_IZR, ED, EO; replace (O * T * (O * T)) with (O * O * (T * T)) by ring; rewrite T_square; ring).
  assert (R6 := md2_rel h w D Hd1 HD). fold md T in R6. assert (R5 := ocx_rel h w D O Hd1 HD HO). fold oc T in R5.
  split.
  - apply Rle_Qle. rewrite ProofsFloat.Q2R_0, Em. lra.
  - apply Rlt_Qlt. rewrite Em, Eo. assert (T < O * T) by (rewrite <- (Rmult_1_l T) at 1; apply Rmult_lt_compat_r; assumption). apply Rmult_le_0_lt_compat; lra.
  - apply (md_nonneg h w D Hd1 HD).
  - apply (md_lt_oc h w D O Hd1 HD HO).
  - intros a b. rewrite <- Rleb_Qle. unfold fclose. set (n := (a * a + b * b)%Z). specialize (B1 n). rewrite Em. apply Bool.eq_iff_eq_true. rewrite !Rleb_true. destruct R6 as [A B].
    assert (U : 0 < u * (T * T)) by (apply Rmult_lt_0_compat; [apply u_pos|exact TT]). clear - A B B1 U. unfold Rabs in B1. destruct (Rcase_abs _); split; lra.
  - intros a b. apply (cover_ok h w D Hd1 Hd2 HD HD').
  - unfold fow, ow. symmetry. rewrite (ceil_sqrt_square _ (100 * (O * T))); [|lra|].
    + unfold multiplier. set (X := 100 * (O * T)) in *. assert (Xp : 0 < X) by (unfold X; lra). clearbody X.
      assert (U : 0 < u * X) by (apply Rmult_lt_0_compat; [apply u_pos|exact Xp]). destruct R5 as [A B]. symmetry. apply Zceil_imp. assert (L := Zceil_lb X). assert (G := Zceil_ub X).
      assert (C1 := B2 (Zceil X)). assert (C2 := B2 (Zceil X - 1)%Z). rewrite minus_IZR in *. unfold Rabs in C1, C2. destruct (Rcase_abs _), (Rcase_abs _); lra.
    + rewrite Q2R_mult, Eo. unfold multiplier. rewrite Q2R_IZR. change (IZR (100 * 100)) with 10000. ring.
  - intros d H0 L. apply (sqrt_below h w D O Hd1 HD HO d H0). apply Qle_Rle in L. rewrite Q2R_IZR, Em in L. unfold T in L, TT. assert (P := u_pos).
    eapply Rle_trans; [exact L|]. rewrite <- (Rmult_1_l (D * _ * _)) at 1. apply Rmult_le_compat_r; lra.
  - intros d H0. apply fweight_exact. lia.
Qed.
End Num.

(** ** The reported cost *)
Section Cost.
Variable oc : R.
Hypothesis Oc : tiny <= oc.
Definition term (b : image bool) (look : pixel -> option pixel) (p : pixel) : R :=
  if px false b (snd p) (fst p) then match look p with None => oc | Some q => 1 / 2 * sqrt (IZR (dist2 p q)) end else 0.
Definition inv (k : nat) (c C : R) : Prop := (1 - u) ^ k * C <= c <= (1 + u) ^ k * C /\ (c = 0 \/ tiny <= c) /\ 0 <= C.
Lemma fmt_tiny : fmt tiny. Proof. apply fmt_bpow. lia. Qed.
Lemma pow_lo k : 0 < (1 - u) ^ S k <= 1 - u.
Proof.
  assert (U := u_pos). assert (V := u_small). assert (A : 0 < (1 - u) ^ k <= 1).
  { split; [apply pow_lt; lra|]. apply Rle_trans with (1 ^ k); [apply pow_incr; lra|rewrite pow1; lra]. }
  cbn [pow]. split; [apply Rmult_lt_0_compat; lra|]. assert ((1 - u) * (1 - u) ^ k <= (1 - u) * 1) by (apply Rmult_le_compat_l; lra). lra.
Qed.
Lemma pow_hi k : 1 + u <= (1 + u) ^ S k.
Proof. assert (U := u_pos). cbn [pow]. assert (A : 1 <= (1 + u) ^ k) by (apply pow_R1_Rle; lra). assert ((1 + u) * 1 <= (1 + u) * (1 + u) ^ k) by (apply Rmult_le_compat_l; lra). lra. Qed.
Lemma inv_add k c C t t' : inv (S k) c C -> 0 <= t -> (1 - u) * t <= t' <= (1 + u) * t -> (t' = 0 \/ tiny <= t') -> inv (S (S k)) (fadd c t') (C + t).
Proof.
  intros ((A & B) & Z & P) T0 (L & H) Z'. assert (U := u_pos). assert (V := u_small). assert (Lo := pow_lo k). assert (Hi := pow_hi k). assert (TP := tiny_pos).
  assert (X1 : (1 - u) ^ S k * (C + t) <= c + t') by (assert ((1 - u) ^ S k * t <= (1 - u) * t) by (apply Rmult_le_compat_r; lra); lra).
  assert (X2 : c + t' <= (1 + u) ^ S k * (C + t)) by (assert ((1 + u) * t <= (1 + u) ^ S k * t) by (apply Rmult_le_compat_r; lra); lra).
  assert (Nn : 0 <= C + t) by lra. assert (Dc : c + t' = 0 \/ tiny <= c + t') by (destruct Z as [Z|Z], Z' as [Z'|Z']; lra).
  unfold inv, fadd. split; [|split; [|exact Nn]].
  - destruct Dc as [E|G].
    + rewrite E, rnd_0. rewrite E in X1, X2. cbn [pow] in *. set (a := (1 - u) ^ k) in *. set (b := (1 + u) ^ k) in *. split.
      * rewrite Rmult_assoc. rewrite <- (Rmult_0_r (1 - u)). apply Rmult_le_compat_l; lra.
      * apply Rmult_le_pos; [|exact Nn]. apply Rmult_le_pos; [lra|]. lra.
    + destruct (rnd_rel (c + t')) as (e & He & E); [rewrite Rabs_pos_eq by lra; exact G|]. apply Rabs_le_inv in He. rewrite E. split.
      * apply Rle_trans with ((1 - u) * (c + t')); [|rewrite Rmult_comm; apply Rmult_le_compat_l; lra]. change ((1 - u) ^ S (S k)) with ((1 - u) * (1 - u) ^ S k). rewrite Rmult_assoc. apply Rmult_le_compat_l; lra.
      * apply Rle_trans with ((1 + u) * (c + t')); [rewrite Rmult_comm; apply Rmult_le_compat_r; lra|]. change ((1 + u) ^ S (S k)) with ((1 + u) * (1 + u) ^ S k). rewrite Rmult_assoc. apply Rmult_le_compat_l; lra.
  - destruct Dc as [E|G]; [left; rewrite E; apply rnd_0|right]. apply rnd_ge_fmt; [exact fmt_tiny|exact G].
Qed.
(** Half a double of at least 1 is exact. *)
Lemma half_exact x : fmt x -> 1 <= x -> fmt (/ 2 * x).
Proof.
  intros F L. apply FLT_format_generic in F; [|reflexivity]. destruct F as [[m e] E Hm He]. cbn [Fnum Fexp] in *. unfold F2R in E. cbn [Fnum Fexp] in E.
  assert (Ee : (-53 < e)%Z).
  { apply Z.nle_gt. intros C. assert (bpow radix2 e <= bpow radix2 (-53)) by (apply bpow_le; exact C). assert (IZR m < bpow radix2 53).
    { change (bpow radix2 53) with (IZR (2 ^ 53)). apply IZR_lt. change (radix2 ^ 53)%Z with (2 ^ 53)%Z in Hm. lia. }
    assert (P := bpow_gt_0 radix2 e). assert (Q := bpow_gt_0 radix2 53). assert (bpow radix2 53 * bpow radix2 (-53) = 1) by (rewrite <- bpow_plus; reflexivity).
    assert (Mp : 0 < IZR m) by nra. assert (IZR m * bpow radix2 e < bpow radix2 53 * bpow radix2 (-53)) by nra. lra. }
  replace (/ 2 * x) with (IZR m * bpow radix2 (e - 1)).
  - apply fmt_scaled; [exact Hm|lia].
  - rewrite E. unfold Zminus. rewrite bpow_plus. change (bpow radix2 (- (1))) with (/ 2). ring.
Qed.
Lemma term_error d : (0 <= d)%Z -> let t := 1 / 2 * sqrt (IZR d) in let t' := fmul (/ 2) (fsqrt (IZR d)) in 0 <= t /\ (1 - u) * t <= t' <= (1 + u) * t /\ (t' = 0 \/ tiny <= t').
Proof.
  intros H t t'. assert (U := u_pos). assert (T1 := tiny_le_1). assert (TP := tiny_pos). destruct (Z.eq_dec d 0) as [->|Nz].
  { unfold t, t', fmul. rewrite fsqrt_0, Rmult_0_r, rnd_0, sqrt_0, Rmult_0_r. split; [lra|]. split; [lra|left; reflexivity]. }
  assert (S1 : 1 <= sqrt (IZR d)) by (rewrite <- sqrt_1; apply sqrt_le_1_alt; apply (IZR_le 1); lia).
  assert (F1 : 1 <= fsqrt (IZR d)) by (apply rnd_ge_fmt; [apply fmt_1|exact S1]).
  assert (E : t' = / 2 * fsqrt (IZR d)) by (unfold t', fmul; apply rnd_id, half_exact; [apply rnd_fmt|exact F1]).
  destruct (rnd_rel (sqrt (IZR d))) as (e & He & Er); [rewrite Rabs_pos_eq by lra; lra|]. apply Rabs_le_inv in He. fold (fsqrt (IZR d)) in Er.
  unfold t. rewrite E, Er. split; [lra|]. split; [split; nra|]. right. rewrite <- Er. lra.
Qed.
Definition active (b : image bool) (ps : list pixel) : nat := List.length (filter (fun p => px false b (snd p) (fst p)) ps).
Lemma cost_pixel_inv b look k c C p : inv (S k) c C -> inv (S (k + if px false b (snd p) (fst p) then 1 else 0)) (fcost_pixel oc b look c p) (C + term b look p).
Proof.
  intros I. unfold fcost_pixel, term. destruct (px false b (snd p) (fst p)).
  - rewrite Nat.add_1_r. destruct (look p) as [q|].
    + destruct (term_error (dist2 p q)) as (A & B & Z); [apply dist2_nonneg|]. apply inv_add; assumption.
    + assert (U := u_pos). assert (TP := tiny_pos). apply inv_add; [exact I|lra|split; nra|right; exact Oc].
  - rewrite Nat.add_0_r, Rplus_0_r. exact I.
Qed.
Lemma fold_inv b1 b2 look1 look2 ps : forall k c C, inv (S k) c C ->
  inv (S (k + active b1 ps + active b2 ps)) (fold_left (fun c p => fcost_pixel oc b2 look2 (fcost_pixel oc b1 look1 c p) p) ps c) (C + rsum (map (term b1 look1) ps) + rsum (map (term b2 look2) ps)).
Proof.
  induction ps as [|p ps IH]; intros k c C I.
  - cbn [fold_left map rsum fold_right active filter List.length]. unfold active. cbn [filter List.length]. rewrite !Nat.add_0_r, !Rplus_0_r. exact I.
  - cbn [fold_left map]. apply (cost_pixel_inv b1 look1 k c C p) in I. apply (cost_pixel_inv b2 look2) with (p := p) in I. apply IH in I. clear IH.
    unfold active in *. cbn [filter]. unfold rsum in *. cbn [fold_right]. fold (rsum (map (term b1 look1) ps)) in *. fold (rsum (map (term b2 look2) ps)) in *.
    replace (C + (term b1 look1 p + rsum (map (term b1 look1) ps)) + (term b2 look2 p + rsum (map (term b2 look2) ps))) with (C + term b1 look1 p + term b2 look2 p + rsum (map (term b1 look1) ps) + rsum (map (term b2 look2) ps)) by ring.
    match type of I with inv ?n _ _ => match goal with |- inv ?m _ _ => replace m with n; [exact I|] end end.
    clear. destruct (px false b1 (snd p) (fst p)), (px false b2 (snd p) (fst p)); cbn [List.length]; lia.
Qed.
Lemma cost_side_value h w b look : rsum (map (term b look) (colmajor h w)) = cost_value oc (cost_side h w b look).
Proof.
  unfold cost_value, cost_side. cbn [c_outliers c_halves]. induction (colmajor h w) as [|p l IH]; [cbn; ring|]. cbn [map filter]. unfold rsum at 1. cbn [fold_right]. fold (rsum (map (term b look) l)). rewrite IH. clear IH. unfold term at 1.
  destruct (px false b (snd p) (fst p)); [|ring]. cbn [filter flat_map]. destruct (look p) as [q|].
  - cbn [app map]. unfold rsum at 2. cbn [fold_right]. fold (rsum (map (fun d => 1 / 2 * sqrt (IZR d)) (flat_map (fun p0 => match look p0 with Some q0 => [dist2 p0 q0] | None => [] end) (filter (fun p0 => px false b (snd p0) (fst p0)) l)))). ring.
  - cbn [List.length app]. rewrite S_INR. ring.
Qed.
Lemma cost_value_add a b : cost_value oc (cost_add a b) = cost_value oc a + cost_value oc b.
Proof. unfold cost_value, cost_add. cbn [c_outliers c_halves]. rewrite plus_INR, map_app, rsum_app. ring. Qed.
Lemma active_count b : wf b -> active b (colmajor (ht b) (wd b)) = count_true b.
Proof.
  intros W. rewrite count_true_fg by exact W. unfold fg_list, active. rewrite (Permutation_length (Permutation_filter_p _ _ _ (coords_colmajor (ht b) (wd b)))).
  induction (colmajor (ht b) (wd b)) as [|[x y] l IH]; [reflexivity|]. cbn [filter map swap fst snd]. destruct (px false b y x); cbn [List.length]; rewrite IH; reflexivity.
Qed.
Lemma pow_linear k : IZR (Z.of_nat k) * u <= / 4 -> 1 - 2 * IZR (Z.of_nat k) * u <= (1 - u) ^ k /\ (1 + u) ^ k <= 1 + 2 * IZR (Z.of_nat k) * u.
Proof.
  assert (U := u_pos). assert (V := u_small). induction k as [|k IH]; intros H; [cbn; lra|]. rewrite Nat2Z.inj_succ in *. unfold Z.succ in *. rewrite plus_IZR in *. assert (K0 : 0 <= IZR (Z.of_nat k)) by (apply IZR_le; lia).
  destruct IH as [A B]; [lra|]. assert (P : 0 < (1 - u) ^ k) by (apply pow_lt; lra). cbn [pow]. set (n := IZR (Z.of_nat k)) in *. clearbody n. split.
  - apply Rle_trans with ((1 - u) * (1 - 2 * n * u)); [|apply Rmult_le_compat_l; lra]. assert (0 <= n * u * u) by (apply Rmult_le_pos; [apply Rmult_le_pos; lra|lra]). lra.
  - apply Rle_trans with ((1 + u) * (1 + 2 * n * u)); [apply Rmult_le_compat_l; lra|]. assert (n * u * u <= / 4 * u) by (apply Rmult_le_compat_r; lra). lra.
Qed.
Lemma fcost_error b1 b2 look1 look2 : wf b1 -> wf b2 -> same_shape b1 b2 -> let n := IZR (Z.of_nat (S (count_true b1 + count_true b2))) in
  let C := cost_value oc (cost_add (cost_side (ht b1) (wd b1) b1 look1) (cost_side (ht b1) (wd b1) b2 look2)) in n * u <= / 4 ->
  Rabs (fcost (ht b1) (wd b1) b1 b2 oc look1 look2 - C) <= 2 * n * u * C /\ 0 <= C.
Proof.
  intros W1 W2 [S1 S2] n C Hn. assert (I : inv 1 0 0) by (unfold inv; cbn [pow]; split; [lra|]; split; [left; reflexivity|lra]).
  apply (fold_inv b1 b2 look1 look2 (colmajor (ht b1) (wd b1)) 0) in I. fold (fcost (ht b1) (wd b1) b1 b2 oc look1 look2) in I. rewrite !cost_side_value, Rplus_0_l, <- cost_value_add in I. fold C in I.
  assert (E2 : active b2 (colmajor (ht b1) (wd b1)) = count_true b2) by (rewrite S1, S2; apply active_count, W2). rewrite (active_count b1 W1), E2, Nat.add_0_l in I.
  destruct I as ((A & B) & _ & Cn). destruct (pow_linear _ Hn) as [L H]. split; [|exact Cn]. fold n in L, H. set (c := fcost _ _ _ _ _ _ _) in *. clearbody c.
  assert (X : (1 - 2 * n * u) * C <= c) by (eapply Rle_trans; [|exact A]; apply Rmult_le_compat_r; lra). assert (Y : c <= (1 + 2 * n * u) * C) by (eapply Rle_trans; [exact B|]; apply Rmult_le_compat_r; lra).
  apply Rabs_le. lra.
Qed.
End Cost.
