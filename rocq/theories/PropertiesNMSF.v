(** C77: non-maximum suppression in binary64. *)
From Verif Require Import ModelNMSF ProofsNMS2 ProofsFloat.
From Flocq Require Import Relative.
From Coq Require Import Lia Lra Psatz.
Open Scope R_scope.

Lemma Rltb_spec a b : Rltb a b = true <-> a < b.
Proof. unfold Rltb. destruct (Rlt_dec a b); split; intros; try congruence; contradiction. Qed.
Lemma Rltb_false a b : Rltb a b = false <-> b <= a.
Proof. unfold Rltb. destruct (Rlt_dec a b); split; intros; try congruence; lra. Qed.

Definition sized (n : nat) : Prop := (2 <= Z.of_nat n <= 2 ^ 31)%Z.

Lemma lit1001_range : Rabs (lit1001 - 1001 / 1000) <= 2 * u.
Proof. unfold lit1001. rewrite (Rmult_comm 2). apply rnd_abs; [rewrite Rabs_pos_eq|]; lra. Qed.
Lemma top_range n : sized n -> IZR (Z.of_nat n) - 2 < fsub (IZR (Z.of_nat n)) lit1001 < IZR (Z.of_nat n) - 1.
Proof.
  intros [A B]. assert (L := lit1001_range). assert (U := u_small). assert (U0 := u_pos).
  apply IZR_le in A, B. simpl (2 ^ 31)%Z in B. set (z := IZR (Z.of_nat n)) in *. unfold fsub.
  apply Rabs_le_inv in L.
  assert (E : Rabs (rnd (z - lit1001) - (z - lit1001)) <= u * 2147483648).
  { apply rnd_abs; [|lra]. rewrite Rabs_pos_eq; lra. }
  apply Rabs_le_inv in E. assert (u * 2147483648 <= / 4000) by (unfold u; lra). lra.
Qed.
Lemma fclamp_range n v : sized n -> 0 <= fclamp (Z.of_nat n) v < IZR (Z.of_nat n) - 1.
Proof.
  intros H. assert (T := top_range n H). destruct H as [A B]. apply IZR_le in A. unfold fclamp. cbn zeta.
  set (t := fsub _ _) in *. destruct (Rltb v 0) eqn:E1; [lra|]. apply Rltb_false in E1.
  destruct (Rltb t v) eqn:E2; [lra|]. apply Rltb_false in E2. lra.
Qed.
Lemma trunc_range n v : 0 <= v < IZR (Z.of_nat n) - 1 -> (0 <= Ztrunc v <= Z.of_nat n - 2)%Z /\ 0 <= v - IZR (Ztrunc v) <= 1.
Proof.
  intros [A B]. rewrite Ztrunc_floor by exact A. assert (L := Zfloor_lb v). assert (G := Zfloor_ub v). split; [|lra]. split.
  - apply Zfloor_lub. exact A.
  - assert (IZR (Zfloor v) < IZR (Z.of_nat n - 1)) as C by (rewrite minus_IZR; lra). apply lt_IZR in C. lia.
Qed.
Lemma weights v k : 0 <= v - IZR k <= 1 -> 0 <= fsub v (IZR k) <= 1 /\ 0 <= fsub 1 (fsub v (IZR k)) <= 1 /\ fsub v (IZR k) + fsub 1 (fsub v (IZR k)) <= 1 + u.
Proof.
  intros H. unfold fsub at 1. assert (A : 0 <= fsub v (IZR k) <= 1) by (split; [apply rnd_nonneg; lra|apply rnd_le_1; lra]).
  split; [exact A|]. set (a := fsub v (IZR k)) in *. assert (E := rnd_abs1 (1 - a) ltac:(lra)). apply Rabs_le_inv in E. unfold fsub.
  split; [split; [apply rnd_nonneg; lra|apply rnd_le_1; lra]|lra].
Qed.

(** Rounding of non-negative numbers from above. *)
Definition t0 : R := bpow radix2 (-1074).
Lemma t0_pos : 0 < t0. Proof. apply bpow_gt_0. Qed.
Lemma rnd_err x : 0 <= x -> x * (1 - u) - t0 <= rnd x <= x * (1 + u) + t0.
Proof.
  intros P. destruct (error_N_FLT radix2 (-1074) 53 ltac:(lia) (fun x => negb (Z.even x)) x) as (e & h & He & Hh & Z & Hx).
  fold (rnd x) in Hx. rewrite u_eq in He. assert (T := t0_pos). fold t0 in Hh. apply Rabs_le_inv in He, Hh. rewrite Hx. split; nra.
Qed.
Lemma term a e p q : 0 <= a <= e -> 0 <= p <= 1 -> 0 <= q <= 1 ->
  0 <= fmul (fmul a p) q <= e * (p * q) * ((1 + u) * (1 + u)) + 3 * t0.
Proof.
  intros A P Q. assert (U := u_small). assert (U0 := u_pos). assert (T := t0_pos). unfold fmul.
  assert (N1 : 0 <= a * p) by nra. assert (N2 := rnd_nonneg _ N1). assert (N3 : 0 <= rnd (a * p) * q) by nra.
  split; [apply rnd_nonneg, N3|]. destruct (rnd_err _ N1) as [_ E1], (rnd_err _ N3) as [_ E2].
  assert (a * p <= e * p) by nra. assert (rnd (a * p) <= e * p * (1 + u) + t0) by nra.
  assert (rnd (a * p) * q <= (e * p * (1 + u) + t0) * q) by nra.
  assert (t0 * q <= t0) by nra. assert (rnd (a * p) * q <= e * (p * q) * (1 + u) + t0) by nra.
  assert (t0 * (1 + u) <= 2 * t0) by nra.
  assert ((rnd (a * p) * q) * (1 + u) <= (e * (p * q) * (1 + u) + t0) * (1 + u)) by nra. nra.
Qed.
Lemma plus a b : 0 <= a -> 0 <= b -> 0 <= fadd a b <= (a + b) * (1 + u) + t0.
Proof. intros A B. unfold fadd. split; [apply rnd_nonneg; lra|]. apply rnd_err. lra. Qed.

Lemma fmget_ok im y x : inb (ht im) (wd im) y x = true -> fmget im y x = Ok (px 0 im y x).
Proof. intros H. unfold fmget. rewrite H. reflexivity. Qed.
Definition nonneg (im : image R) : Prop := forall y x, inb (ht im) (wd im) y x = true -> 0 <= px 0 im y x.

Definition K : R := (1 + u) * (1 + u) * ((1 + u) * (1 + u)) * ((1 + u) * (1 + u)) * (1 + u).
Lemma K_le : 0 <= K <= 1 + 8 * u.
Proof. unfold K, u. split; lra. Qed.

Lemma collect k t e T1 T2 T3 T4 s1 s2 s3 : 1 <= k <= 1 + / 1000000000 -> 0 < t -> 0 <= T1 -> 0 <= T2 -> 0 <= T3 -> 0 <= T4 ->
  s1 <= (T1 + T2) * k + t -> s2 <= (s1 + T3) * k + t -> s3 <= (s2 + T4) * k + t ->
  T1 + T2 + T3 + T4 <= e + 12 * t -> s3 <= e * (k * k * k) + 40 * t.
Proof.
  intros Hk Ht P1 P2 P3 P4 S1 S2 S3 SUM.
  assert (K2 : 1 <= k * k <= 1 + / 100000000) by nra.
  assert (K3 : 1 <= k * k * k <= 1 + / 10000000) by nra.
  assert (C2 : s2 <= (T1 + T2 + T3) * (k * k) + 3 * t).
  { assert ((s1 + T3) * k <= ((T1 + T2) * k + t + T3) * k) by (apply Rmult_le_compat_r; lra).
    assert (T3 * k <= T3 * (k * k)) by (apply Rmult_le_compat_l; nra).
    assert (t * k <= t * 2) by (apply Rmult_le_compat_l; lra). lra. }
  assert (C3 : s3 <= (T1 + T2 + T3 + T4) * (k * k * k) + 8 * t).
  { assert ((s2 + T4) * k <= ((T1 + T2 + T3) * (k * k) + 3 * t + T4) * k) by (apply Rmult_le_compat_r; lra).
    assert (T4 * k <= T4 * (k * k * k)) by (apply Rmult_le_compat_l; nra).
    assert (t * k <= t * 2) by (apply Rmult_le_compat_l; lra). lra. }
  assert ((T1 + T2 + T3 + T4) * (k * k * k) <= (e + 12 * t) * (k * k * k)) by (apply Rmult_le_compat_r; lra).
  assert (t * (k * k * k) <= t * 2) by (apply Rmult_le_compat_l; lra). lra.
Qed.
Lemma finterp_ok im x y : sized (ht im) -> sized (wd im) ->
  exists v, finterp im (Z.of_nat (ht im)) (Z.of_nat (wd im)) x y = Ok v /\
    (forall e, (forall y x, inb (ht im) (wd im) y x = true -> 0 <= px 0 im y x <= e) -> v <= e * K + 40 * t0).
Proof.
  intros Hh Hw. unfold finterp. cbn zeta. assert (Cx := fclamp_range _ x Hw). assert (Cy := fclamp_range _ y Hh).
  set (cx := fclamp (Z.of_nat (wd im)) x) in *. set (cy := fclamp (Z.of_nat (ht im)) y) in *.
  destruct (trunc_range _ _ Cx) as [Tx Dx], (trunc_range _ _ Cy) as [Ty Dy].
  assert (I00 : inb (ht im) (wd im) (Ztrunc cy) (Ztrunc cx) = true) by (apply inb_spec; lia).
  assert (I01 : inb (ht im) (wd im) (Ztrunc cy) (Ztrunc cx + 1) = true) by (apply inb_spec; lia).
  assert (I10 : inb (ht im) (wd im) (Ztrunc cy + 1) (Ztrunc cx) = true) by (apply inb_spec; lia).
  assert (I11 : inb (ht im) (wd im) (Ztrunc cy + 1) (Ztrunc cx + 1) = true) by (apply inb_spec; lia).
  rewrite !fmget_ok by assumption. cbn [bind]. eexists. split; [reflexivity|]. intros e B.
  apply B in I00, I01, I10, I11. clear B.
  destruct (weights _ _ Dx) as (P0 & P1 & PS), (weights _ _ Dy) as (Q0 & Q1 & QS).
  set (p0 := fsub cx (IZR (Ztrunc cx))) in *. set (p1 := fsub 1 p0) in *. set (q0 := fsub cy (IZR (Ztrunc cy))) in *. set (q1 := fsub 1 q0) in *.
  assert (A1 := term _ _ _ _ I00 P1 Q1). assert (A2 := term _ _ _ _ I01 P0 Q1). assert (A3 := term _ _ _ _ I10 P1 Q0). assert (A4 := term _ _ _ _ I11 P0 Q0).
  assert (E0 : 0 <= e) by lra. clear I00 I01 I10 I11.
  set (T1 := fmul (fmul _ p1) q1) in *. set (T2 := fmul (fmul _ p0) q1) in *. set (T3 := fmul (fmul _ p1) q0) in *. set (T4 := fmul (fmul _ p0) q0) in *.
  assert (S1 := plus T1 T2 ltac:(lra) ltac:(lra)). set (s1 := fadd T1 T2) in *.
  assert (S2 := plus s1 T3 ltac:(lra) ltac:(lra)). set (s2 := fadd s1 T3) in *.
  assert (S3 := plus s2 T4 ltac:(lra) ltac:(lra)). set (s3 := fadd s2 T4) in *.
  assert (U := u_small). assert (U0 := u_pos). assert (T := t0_pos).
  set (k := 1 + u) in *. assert (Hk : 1 <= k <= 1 + / 1000000000) by (unfold k; lra).
  assert (PQ : 0 <= (p0 + p1) * (q0 + q1) <= k * k).
  { split; [apply Rmult_le_pos; lra|apply Rmult_le_compat; lra]. }
  apply Rle_trans with ((e * (k * k) * (k * k)) * (k * k * k) + 40 * t0).
  2:{ unfold K. fold k. lra. }
  apply (collect k t0 _ T1 T2 T3 T4 s1 s2 s3); try apply S1; try apply S2; try apply S3; try lra.
  apply Rle_trans with (e * ((p0 + p1) * (q0 + q1)) * (k * k) + 12 * t0); [lra|].
  apply Rplus_le_compat_r. apply Rmult_le_compat_r; [nra|]. apply Rmult_le_compat_l; [exact E0|apply PQ].
Qed.

(** The value interpolated at distance [d] along the direction with cosine [co] and sine [si]. *)
Definition along (edge : image R) (y x : Z) (co si : R) (d : Z) (v : R) : Prop :=
  finterp edge (Z.of_nat (ht edge)) (Z.of_nat (wd edge)) (fadd (IZR x) (fmul (IZR d) co)) (fadd (IZR y) (fmul (IZR d) si)) = Ok v.
Lemma fsurvives_ok im e x y co si ds : sized (ht im) -> sized (wd im) ->
  exists k, fsurvives im (Z.of_nat (ht im)) (Z.of_nat (wd im)) e x y co si ds = Ok k /\
    (k = true <-> forall d v, In d ds -> along im y x co si d v -> v <= e).
Proof.
  intros Hh Hw. induction ds as [|d ds IH]; cbn [fsurvives].
  - exists true. split; [reflexivity|]. split; [intros _ d v []|reflexivity].
  - unfold along in *. destruct (finterp_ok im (fadd (IZR x) (fmul (IZR d) co)) (fadd (IZR y) (fmul (IZR d) si)) Hh Hw) as (v & E & _). rewrite E. cbn [bind].
    destruct (Rltb e v) eqn:L.
    + apply Rltb_spec in L. exists false. split; [reflexivity|]. split; [discriminate|]. intros H. specialize (H d v (or_introl eq_refl) E). lra.
    + apply Rltb_false in L. destruct IH as (k & -> & IK). exists k. split; [reflexivity|]. rewrite IK. split.
      * intros H d' v' [<-|I] E'; [rewrite E in E'; injection E' as <-; exact L|apply (H d' v' I E')].
      * intros H d' v' I. apply H. right. exact I.
Qed.
(** A pixel is at least (up to the factor [m]) every value at distance 1..r on both sides. *)
Definition fmaximal (edge : image R) (r : Z) (m co si : R) (y x : Z) : Prop :=
  forall d v, (- r <= d <= r)%Z -> d <> 0%Z -> along edge y x co si d v -> v <= fmul (px 0 edge y x) m.
Lemma fnms_pixel_ok cosf sinf edge ori r m y x : sized (ht edge) -> sized (wd edge) ->
  exists v, fnms_pixel cosf sinf edge ori r m y x = Ok v /\
    (fmaximal edge r m (cosf (px 0 ori y x)) (sinf (px 0 ori y x)) y x -> v = px 0 edge y x) /\
    (~ fmaximal edge r m (cosf (px 0 ori y x)) (sinf (px 0 ori y x)) y x -> v = 0) /\
    (v = px 0 edge y x \/ v = 0).
Proof.
  intros Hh Hw. unfold fnms_pixel. cbn zeta. destruct (Req_EM_T (px 0 edge y x) 0) as [Z|Z].
  - exists (px 0 edge y x). repeat split; auto.
  - destruct (fsurvives_ok edge (fmul (px 0 edge y x) m) x y (cosf (px 0 ori y x)) (sinf (px 0 ori y x)) (offsets r) Hh Hw) as (k & -> & H). cbn [bind].
    assert (H' : k = true <-> fmaximal edge r m (cosf (px 0 ori y x)) (sinf (px 0 ori y x)) y x).
    { rewrite H. unfold fmaximal. split; [intros A d v B N; apply A, in_offsets; split; assumption|intros A d v I; apply in_offsets in I; apply A; apply I]. }
    destruct k; eexists; (split; [reflexivity|]); (split; [|split]); auto; try (intros N; exfalso; apply N, H'; reflexivity).
    intros L. apply H' in L. discriminate L.
Qed.

(** The border. *)
Lemma fscale_all_ok h w ws : (forall y x q, In (y, x, q) ws -> inb h w y x = true /\ 0 <= q <= 1) ->
  forall out, ht out = h -> wd out = w -> wf out ->
  exists out', fscale_all out ws = Ok out' /\ wf out' /\ ht out' = h /\ wd out' = w /\
    forall y x, inb h w y x = true -> 0 <= px 0 out y x -> fmt (px 0 out y x) ->
      0 <= px 0 out' y x <= px 0 out y x /\ fmt (px 0 out' y x) /\
      (In (y, x, 0) ws -> px 0 out' y x = 0) /\
      ((forall q, ~ In (y, x, q) ws) -> px 0 out' y x = px 0 out y x).
Proof.
  induction ws as [|[[y0 x0] q] ws IH]; intros B out Hh Hw W; cbn [fscale_all].
  - exists out. split; [reflexivity|]. split; [exact W|]. split; [exact Hh|]. split; [exact Hw|]. intros y x I P F. split; [lra|]. split; [exact F|]. split; [intros []|reflexivity].
  - destruct (B y0 x0 q (or_introl eq_refl)) as [B0 Q]. unfold fscale_at. rewrite Hh, Hw, B0. cbn [bind].
    edestruct IH as (out' & E & W' & Hh' & Hw' & P); [intros; apply B; right; eassumption| | | |exists out'; split; [exact E|split; [exact W'|split; [exact Hh'|split; [exact Hw'|]]]]]; try reflexivity; [apply wf_tab|].
    intros y x I N F. specialize (P y x I). rewrite px_tab, I in P.
    destruct (((y =? y0) && (x =? x0))%Z) eqn:D.
    + apply andb_true_iff in D. destruct D as [D1 D2]. apply Z.eqb_eq in D1, D2. subst y0 x0. unfold fmul in P.
      assert (M0 : 0 <= px 0 out y x * q <= px 0 out y x) by nra.
      assert (R0 : 0 <= rnd (px 0 out y x * q) <= px 0 out y x) by (split; [apply rnd_nonneg, M0|apply rnd_le_fmt; [exact F|apply M0]]).
      destruct (P (proj1 R0) (rnd_fmt _)) as (P1 & P2 & P3 & _). split; [lra|]. split; [exact P2|]. split.
      * intros [E0|J]; [|exact (P3 J)]. injection E0 as ->. rewrite Rmult_0_r, rnd_0 in P1. lra.
      * intros H. exfalso. apply (H q). left. reflexivity.
    + destruct (P N F) as (P1 & P2 & P3 & P4). split; [exact P1|]. split; [exact P2|]. split.
      * intros [E0|J]; [|exact (P3 J)]. injection E0 as <- <- _. rewrite !Z.eqb_refl in D. discriminate D.
      * intros H. apply P4. intros q' J. apply (H q'). right. exact J.
Qed.
Lemma fratio_range k s : (0 <= k < s)%Z -> 0 <= fratioZ k s <= 1.
Proof.
  intros H. unfold fratioZ, fdiv. assert (A : 0 <= IZR k) by (apply IZR_le; lia). assert (B : IZR k <= IZR s) by (apply IZR_le; lia). assert (C : 0 < IZR s) by (apply IZR_lt; lia).
  assert (D : IZR k / IZR s = IZR k * / IZR s) by reflexivity. assert (E : 0 < / IZR s) by (apply Rinv_0_lt_compat, C).
  split; [apply rnd_nonneg; rewrite D; nra|apply rnd_le_1]. rewrite D. apply Rmult_le_reg_r with (IZR s); [exact C|]. rewrite Rmult_assoc, Rinv_l by lra. lra.
Qed.
Lemma fratio_0 s : fratioZ 0 s = 0.
Proof. unfold fratioZ, fdiv. unfold Rdiv. rewrite Rmult_0_l. apply rnd_0. Qed.
Lemma fborder_spec h w s : fborder h w s = Z.min s (Z.min (Z.of_nat h / 2) (Z.of_nat w / 2)).
Proof. unfold fborder. destruct (Z.ltb_spec (Z.of_nat w / 2) s); destruct (Z.ltb_spec (Z.of_nat h / 2) (Z.of_nat w / 2)); destruct (Z.ltb_spec (Z.of_nat h / 2) s); lia. Qed.
Lemma fborder_half h w s : (2 * fborder h w s <= Z.of_nat h)%Z /\ (2 * fborder h w s <= Z.of_nat w)%Z.
Proof. rewrite fborder_spec. assert (A := Z.mul_div_le (Z.of_nat h) 2 ltac:(lia)). assert (B := Z.mul_div_le (Z.of_nat w) 2 ltac:(lia)). lia. Qed.
Lemma in_writes h w s y x q : In (y, x, q) (fborder_writes h w s) <->
  exists k, (0 <= k < fborder h w s)%Z /\ q = fratioZ k (fborder h w s) /\
    (((x = k \/ x = Z.of_nat w - 1 - k) /\ 0 <= y < Z.of_nat h) \/ ((y = k \/ y = Z.of_nat h - 1 - k) /\ 0 <= x < Z.of_nat w))%Z.
Proof.
  unfold fborder_writes. cbn zeta. set (b := fborder h w s). rewrite in_app_iff, !in_flat_map. split.
  - intros [(a & Ia & I)|(a & Ia & I)]; apply in_flat_map in I; destruct I as (c & Ic & I); apply in_zseq in Ia; apply in_zseq in Ic.
    + exists a. split; [lia|]. destruct I as [E|[E|[]]]; injection E as <- <- <-; (split; [reflexivity|]); left; lia.
    + exists c. split; [lia|]. destruct I as [E|[E|[]]]; injection E as <- <- <-; (split; [reflexivity|]); right; lia.
  - intros (k & Hk & -> & [[D Y]|[D X]]); [left|right].
    + exists k. split; [apply in_zseq; lia|]. apply in_flat_map. exists y. split; [apply in_zseq; lia|]. destruct D as [->| ->]; [left|right; left]; reflexivity.
    + exists x. split; [apply in_zseq; lia|]. apply in_flat_map. exists k. split; [apply in_zseq; lia|]. destruct D as [->| ->]; [left|right; left]; reflexivity.
Qed.
Lemma writes_ok h w s y x q : In (y, x, q) (fborder_writes h w s) -> inb h w y x = true /\ 0 <= q <= 1.
Proof.
  intros I. apply in_writes in I. destruct I as (k & Hk & -> & D). destruct (fborder_half h w s). split; [apply inb_spec; lia|apply fratio_range, Hk].
Qed.

(** The array holds doubles ([fmt]: binary64 numbers). *)
Definition doubles (im : image R) : Prop := forall y x, inb (ht im) (wd im) y x = true -> fmt (px 0 im y x).

(** No image access outside the array, for every orientation map, radius, border width and multiplier and
    whatever cosine and sine return: the call returns an array of the same shape. *)
Theorem nms64_total : forall cosf sinf edge ori r s m, same_shape edge ori -> sized (ht edge) -> sized (wd edge) ->
  nonneg edge -> doubles edge ->
  exists out, fnms cosf sinf edge ori r s m = Ok out /\ wf out /\ same_shape edge out /\
  let b := fborder (ht edge) (wd edge) s in
  forall y x, inb (ht edge) (wd edge) y x = true ->
    let keep := fmaximal edge r m (cosf (px 0 ori y x)) (sinf (px 0 ori y x)) y x in
    let inner := (b <= x < Z.of_nat (wd edge) - b /\ b <= y < Z.of_nat (ht edge) - b)%Z in
    (0 <= px 0 out y x <= px 0 edge y x) /\ fmt (px 0 out y x) /\
    (~ keep -> px 0 out y x = 0) /\
    (keep -> inner -> px 0 out y x = px 0 edge y x) /\
    ((1 <= b)%Z -> (x = 0 \/ x = Z.of_nat (wd edge) - 1 \/ y = 0 \/ y = Z.of_nat (ht edge) - 1)%Z -> px 0 out y x = 0).
Proof.
  intros cosf sinf edge ori r s m [S1 S2] Hh Hw N F. unfold fnms. rewrite S1, S2, !Nat.eqb_refl. cbn [andb negb]. rewrite <- S1, <- S2.
  destruct (tabM_choice (ht edge) (wd edge) (fnms_pixel cosf sinf edge ori r m) (fun y x v =>
    (fmaximal edge r m (cosf (px 0 ori y x)) (sinf (px 0 ori y x)) y x -> v = px 0 edge y x) /\
    (~ fmaximal edge r m (cosf (px 0 ori y x)) (sinf (px 0 ori y x)) y x -> v = 0) /\ (v = px 0 edge y x \/ v = 0)) 0) as (kept & E & Wk & Hk & Kw & P).
  { intros y x _. apply fnms_pixel_ok; assumption. }
  rewrite E. cbn [bind].
  destruct (fscale_all_ok (ht edge) (wd edge) (fborder_writes (ht edge) (wd edge) s) (fun y x q I => writes_ok _ _ _ _ _ _ I) kept Hk Kw Wk) as (out & E' & Wo & Ho & Wd & Q).
  exists out. split; [exact E'|]. split; [exact Wo|]. split; [split; congruence|]. cbv zeta. set (b := fborder (ht edge) (wd edge) s) in *. intros y x I.
  destruct (P y x I) as (P1 & P2 & P3). assert (NN := N y x I). assert (FF := F y x I).
  destruct (Q y x I) as (Q1 & Q2 & Q3 & Q4).
  { destruct P3 as [->| ->]; lra. }
  { destruct P3 as [->| ->]; [exact FF|apply fmt_0]. }
  split; [destruct P3 as [P3|P3]; rewrite P3 in Q1; lra|]. split; [exact Q2|]. split; [|split].
  - intros K'. rewrite (P2 K') in Q1. lra.
  - intros K' In'. rewrite Q4; [apply P1, K'|]. intros q J. apply in_writes in J. destruct J as (k & Hk' & _ & D). fold b in Hk'. lia.
  - intros B D. apply Q3. apply in_writes. apply inb_spec in I. exists 0%Z. split; [fold b; lia|]. split; [symmetry; apply fratio_0|]. lia.
Qed.
Print Assumptions nms64_total.

(** A pixel with the largest value of the image survives suppression in binary64 for every direction:
    the rounding errors of the interpolation stay below the margin of the multiplier. *)
Definition smallest : R := bpow radix2 (-900).
Lemma t0_small e : smallest <= e -> 41 * t0 <= e * u.
Proof.
  intros H. assert (A : 64 * t0 <= smallest * u).
  { unfold t0, smallest. replace 64 with (bpow radix2 6) by reflexivity. replace u with (bpow radix2 (-53)) by (unfold u; simpl; lra).
    rewrite <- !bpow_plus. apply bpow_le. lia. }
  assert (U := u_pos). assert (T := t0_pos). assert (smallest * u <= e * u) by (apply Rmult_le_compat_r; lra). lra.
Qed.
Lemma maximum_maximal edge r m co si y x : sized (ht edge) -> sized (wd edge) -> inb (ht edge) (wd edge) y x = true ->
  (forall y' x', inb (ht edge) (wd edge) y' x' = true -> 0 <= px 0 edge y' x' <= px 0 edge y x) ->
  smallest <= px 0 edge y x -> 1 + / 10 ^ 14 <= m -> fmaximal edge r m co si y x.
Proof.
  intros Hh Hw I B S M d v _ _ A. unfold along in A. set (e := px 0 edge y x) in *.
  destruct (finterp_ok edge (fadd (IZR x) (fmul (IZR d) co)) (fadd (IZR y) (fmul (IZR d) si)) Hh Hw) as (v' & E & V).
  rewrite E in A. injection A as ->. specialize (V e B). assert (T := t0_small e S). assert (U0 := u_pos). assert (K1 := K_le).
  assert (E0 : 0 < e) by (eapply Rlt_le_trans; [|exact S]; apply bpow_gt_0).
  assert (N : 0 <= e * m) by nra. destruct (rnd_err _ N) as [L _]. fold (fmul e m) in L.
  eapply Rle_trans; [exact V|]. eapply Rle_trans; [|exact L].
  assert (M' : 1 + 40 * u <= m) by (unfold u; lra).
  assert (e * K <= e * (1 + 8 * u)) by (apply Rmult_le_compat_l; lra).
  assert (e * (1 + 40 * u) * (1 - u) <= e * m * (1 - u)). { apply Rmult_le_compat_r; [unfold u; lra|]. apply Rmult_le_compat_l; lra. }
  assert (e * (1 + 30 * u) <= e * (1 + 40 * u) * (1 - u)). { rewrite Rmult_assoc. apply Rmult_le_compat_l; [lra|]. unfold u. lra. }
  nra.
Qed.
Theorem nms64_keeps_maximum : forall cosf sinf edge ori r s m out y x,
  same_shape edge ori -> sized (ht edge) -> sized (wd edge) -> doubles edge ->
  inb (ht edge) (wd edge) y x = true ->
  (forall y' x', inb (ht edge) (wd edge) y' x' = true -> 0 <= px 0 edge y' x' <= px 0 edge y x) ->
  smallest <= px 0 edge y x -> 1 + / 10 ^ 14 <= m ->
  (s <= x < Z.of_nat (wd edge) - s)%Z -> (s <= y < Z.of_nat (ht edge) - s)%Z ->
  fnms cosf sinf edge ori r s m = Ok out -> px 0 out y x = px 0 edge y x.
Proof.
  intros cosf sinf edge ori r s m out y x Sh Hh Hw F I B S M X Y E.
  assert (N : nonneg edge) by (intros y' x' I'; apply B, I').
  destruct (nms64_total cosf sinf edge ori r s m Sh Hh Hw N F) as (out' & E' & _ & _ & P). rewrite E in E'. injection E' as <-.
  cbn zeta in P. destruct (P y x I) as (_ & _ & _ & P4 & _). apply P4.
  - apply maximum_maximal; assumption.
  - assert (Q := fborder_spec (ht edge) (wd edge) s). lia.
Qed.
Print Assumptions nms64_keeps_maximum.

(** A 3 x 3 image with a bright centre, the default multiplier, any direction: the centre stays, the frame goes. *)
Definition spot : image R := tab 3 3 (fun y x => if ((y =? 1) && (x =? 1))%Z then 1 else / 2).
Lemma fmt_half : fmt (/ 2).
Proof. replace (/ 2) with (bpow radix2 (-1)) by (simpl; lra). apply fmt_bpow. lia. Qed.
Example spot_hypotheses : sized (ht spot) /\ sized (wd spot) /\ nonneg spot /\ doubles spot.
Proof.
  split; [unfold sized; simpl; lia|]. split; [unfold sized; simpl; lia|].
  split; intros y x I; unfold spot; rewrite px_tab; simpl (inb _ _ _ _) in I; destruct (inb 3 3 y x) eqn:J;
    try (destruct ((y =? 1) && (x =? 1))%Z); try lra; try apply fmt_1; try apply fmt_half; try apply fmt_0.
Qed.
Example spot_result : forall cosf sinf ori r, same_shape spot ori ->
  exists out, fnms cosf sinf spot ori r 1 (rnd (101 / 100)) = Ok out /\ px 0 out 1 1 = 1 /\ px 0 out 0 1 = 0 /\ px 0 out 2 2 = 0.
Proof.
  intros cosf sinf ori r Sh. destruct spot_hypotheses as (Hh & Hw & N & F).
  destruct (nms64_total cosf sinf spot ori r 1 (rnd (101 / 100)) Sh Hh Hw N F) as (out & E & _ & _ & P). exists out. split; [exact E|]. split; [|split].
  - replace 1 with (px 0 spot 1 1) at 2 by reflexivity. apply (nms64_keeps_maximum cosf sinf spot ori r 1 (rnd (101 / 100)) out 1 1); auto; try (simpl; lia).
    + intros y x I. split; [apply N, I|]. unfold spot. rewrite !px_tab. change (inb (ht spot) (wd spot) y x) with (inb 3 3 y x) in I. rewrite I. simpl. destruct ((y =? 1) && (x =? 1))%Z; lra.
    + change (px 0 spot 1 1) with 1. unfold smallest. change 1 with (bpow radix2 0). apply bpow_le. lia.
    + assert (A := rnd_abs (101 / 100) 2 ltac:(rewrite Rabs_pos_eq; lra) ltac:(lra)). apply Rabs_le_inv in A. unfold u in A. lra.
  - apply P; [reflexivity|vm_compute; discriminate|]. right. right. left. reflexivity.
  - apply P; [reflexivity|vm_compute; discriminate|]. right. left. reflexivity.
Qed.
Print Assumptions spot_result.

(** Arrays of different shapes are refused. *)
Theorem nms64_shapes : forall cosf sinf edge ori r s m, ~ same_shape edge ori -> fnms cosf sinf edge ori r s m = Err ValueError.
Proof.
  intros cosf sinf edge ori r s m N. unfold fnms. destruct (Nat.eqb_spec (ht edge) (ht ori)), (Nat.eqb_spec (wd edge) (wd ori)); try reflexivity.
  exfalso. apply N. split; assumption.
Qed.
Print Assumptions nms64_shapes.

(** The interpolated value is the bilinear interpolation up to a few roundings. *)
Lemma small_prod d q c : - c <= d <= c -> 0 <= q <= 1 -> - c <= d * q <= c /\ - c <= q * d <= c.
Proof. intros D Q. rewrite (Rmult_comm q d). assert (- c <= d * q <= c); [|split; assumption]. split; nra. Qed.
Lemma term_err a e p q p' q' : 0 <= a <= e -> 0 <= p <= 1 -> 0 <= q <= 1 -> 0 <= p' <= 1 -> 0 <= q' <= 1 ->
  Rabs (p - p') <= 2 * u -> Rabs (q - q') <= 2 * u -> Rabs (fmul (fmul a p) q - a * p' * q') <= 7 * (u * e) + 3 * t0 /\ 0 <= fmul (fmul a p) q <= 2 * e + 3 * t0.
Proof.
  intros A P Q P' Q' D1 D2. assert (U := u_small). assert (U0 := u_pos). assert (T := t0_pos).
  destruct (term a a p q ltac:(lra) P Q) as [N UB]. unfold fmul in *. set (X := a * (p * q)) in *.
  assert (X0 : 0 <= X <= a) by (unfold X; split; [apply Rmult_le_pos; [lra|apply Rmult_le_pos; lra]|rewrite <- (Rmult_1_r a) at 2; apply Rmult_le_compat_l; [lra|nra]]).
  assert (N1 : 0 <= a * p) by nra. assert (N2 := rnd_nonneg _ N1). assert (N3 : 0 <= rnd (a * p) * q) by nra.
  destruct (rnd_err _ N1) as [E1 _], (rnd_err _ N3) as [E2 _].
  assert (LB : X * (1 - 2 * u) - 3 * t0 <= rnd (rnd (a * p) * q)).
  { assert (B1 : (a * p * (1 - u) - t0) * q <= rnd (a * p) * q) by (apply Rmult_le_compat_r; lra).
    assert (B2 : X * (1 - u) - t0 <= rnd (a * p) * q) by (unfold X; nra).
    assert (B3 : (X * (1 - u) - t0) * (1 - u) <= rnd (a * p) * q * (1 - u)) by (apply Rmult_le_compat_r; lra). nra. }
  assert (UX : 0 <= u * X <= u * e) by (split; [apply Rmult_le_pos; lra|apply Rmult_le_compat_l; lra]).
  assert (UUX : u * (u * X) <= 1 * (u * X)) by (apply Rmult_le_compat_r; lra).
  assert (UE : X * ((1 + u) * (1 + u)) <= X + 3 * (u * e)).
  { replace (X * ((1 + u) * (1 + u))) with (X + 2 * (u * X) + u * (u * X)) by ring. lra. }
  assert (LE : X - 2 * (u * e) <= X * (1 - 2 * u)). { replace (X * (1 - 2 * u)) with (X - 2 * (u * X)) by ring. lra. }
  assert (XD : Rabs (X - a * p' * q') <= 4 * (u * e)).
  { unfold X. replace (a * (p * q) - a * p' * q') with (a * ((p - p') * q + p' * (q - q'))) by ring. apply Rabs_le_inv in D1, D2.
    assert (Z1 := small_prod (p - p') q (2 * u) ltac:(lra) Q). assert (Z2 := small_prod (q - q') p' (2 * u) ltac:(lra) P').
    assert (Rabs ((p - p') * q + p' * (q - q')) <= 4 * u) by (apply Rabs_le; lra).
    rewrite Rabs_mult, (Rabs_pos_eq a) by lra. assert (W := Rabs_pos ((p - p') * q + p' * (q - q'))). nra. }
  apply Rabs_le_inv in XD. assert (0 <= u * e) by nra. assert (u * e <= e / 3) by nra. split; [apply Rabs_le; lra|]. split; [exact N|]. lra.
Qed.
Lemma plus_err a b B : 0 <= a -> 0 <= b -> a + b <= B -> 0 <= fadd a b /\ Rabs (fadd a b - (a + b)) <= u * B + t0.
Proof.
  intros A C H. unfold fadd. split; [apply rnd_nonneg; lra|]. destruct (rnd_err (a + b) ltac:(lra)) as [L R]. assert (u * (a + b) <= u * B) by (apply Rmult_le_compat_l; [apply Rlt_le, u_pos|exact H]). apply Rabs_le. lra.
Qed.
Lemma weights_err v k : 0 <= v - IZR k <= 1 -> Rabs (fsub v (IZR k) - (v - IZR k)) <= 2 * u /\ Rabs (fsub 1 (fsub v (IZR k)) - (1 - (v - IZR k))) <= 2 * u.
Proof.
  intros H. assert (U0 := u_pos). assert (E := rnd_abs1 _ H). fold (fsub v (IZR k)) in E. destruct (weights v k H) as (A & _ & _).
  assert (E2 := rnd_abs1 (1 - fsub v (IZR k)) ltac:(lra)). fold (fsub 1 (fsub v (IZR k))) in E2. apply Rabs_le_inv in E, E2. split; apply Rabs_le; lra.
Qed.
Theorem nms64_interpolation : forall im x y e, sized (ht im) -> sized (wd im) ->
  0 <= x <= IZR (Z.of_nat (wd im)) - 2 -> 0 <= y <= IZR (Z.of_nat (ht im)) - 2 ->
  (forall y x, inb (ht im) (wd im) y x = true -> 0 <= px 0 im y x <= e) ->
  let i := Zfloor y in let j := Zfloor x in let a := y - IZR i in let b := x - IZR j in
  exists v, finterp im (Z.of_nat (ht im)) (Z.of_nat (wd im)) x y = Ok v /\
    Rabs (v - ((1 - a) * (1 - b) * px 0 im i j + (1 - a) * b * px 0 im i (j + 1) +
               a * (1 - b) * px 0 im (i + 1) j + a * b * px 0 im (i + 1) (j + 1))) <= / 2 ^ 47 * e + 64 * bpow radix2 (-1074).
Proof.
  intros im x y e Hh Hw X Y B. cbv zeta. unfold finterp. cbv zeta.
  assert (Cx : fclamp (Z.of_nat (wd im)) x = x).
  { unfold fclamp. cbv zeta. assert (T := top_range _ Hw). destruct (Rltb x 0) eqn:E1; [apply Rltb_spec in E1; lra|]. destruct (Rltb _ x) eqn:E2; [apply Rltb_spec in E2; lra|reflexivity]. }
  assert (Cy : fclamp (Z.of_nat (ht im)) y = y).
  { unfold fclamp. cbv zeta. assert (T := top_range _ Hh). destruct (Rltb y 0) eqn:E1; [apply Rltb_spec in E1; lra|]. destruct (Rltb _ y) eqn:E2; [apply Rltb_spec in E2; lra|reflexivity]. }
  rewrite Cx, Cy. clear Cx Cy.
  destruct (trunc_range (wd im) x ltac:(lra)) as [Tx Dx], (trunc_range (ht im) y ltac:(lra)) as [Ty Dy].
  rewrite !Ztrunc_floor in * by lra. set (j := Zfloor x) in *. set (i := Zfloor y) in *.
  assert (I00 : inb (ht im) (wd im) i j = true) by (apply inb_spec; lia).
  assert (I01 : inb (ht im) (wd im) i (j + 1) = true) by (apply inb_spec; lia).
  assert (I10 : inb (ht im) (wd im) (i + 1) j = true) by (apply inb_spec; lia).
  assert (I11 : inb (ht im) (wd im) (i + 1) (j + 1) = true) by (apply inb_spec; lia).
  rewrite !fmget_ok by assumption. cbn [bind]. eexists. split; [reflexivity|].
  apply B in I00, I01, I10, I11. clear B.
  destruct (weights _ _ Dx) as (P0 & P1 & _), (weights _ _ Dy) as (Q0 & Q1 & _).
  destruct (weights_err _ _ Dx) as (PE0 & PE1), (weights_err _ _ Dy) as (QE0 & QE1).
  set (p0 := fsub x (IZR j)) in *. set (p1 := fsub 1 p0) in *. set (q0 := fsub y (IZR i)) in *. set (q1 := fsub 1 q0) in *.
  set (b := x - IZR j) in *. set (a := y - IZR i) in *.
  destruct (term_err _ e p1 q1 (1 - b) (1 - a) I00 P1 Q1 ltac:(lra) ltac:(lra) PE1 QE1) as [A1 R1].
  destruct (term_err _ e p0 q1 b (1 - a) I01 P0 Q1 ltac:(lra) ltac:(lra) PE0 QE1) as [A2 R2].
  destruct (term_err _ e p1 q0 (1 - b) a I10 P1 Q0 ltac:(lra) ltac:(lra) PE1 QE0) as [A3 R3].
  destruct (term_err _ e p0 q0 b a I11 P0 Q0 ltac:(lra) ltac:(lra) PE0 QE0) as [A4 R4].
  assert (E0 : 0 <= e) by lra. clear I00 I01 I10 I11 PE0 PE1 QE0 QE1.
  set (T1 := fmul (fmul _ p1) q1) in *. set (T2 := fmul (fmul _ p0) q1) in *. set (T3 := fmul (fmul _ p1) q0) in *. set (T4 := fmul (fmul _ p0) q0) in *.
  assert (U := u_small). assert (U0 := u_pos). assert (T := t0_pos).
  assert (UE : 0 <= u * e <= e / 1000000000) by (split; nra).
  assert (UT : 0 <= u * t0 <= t0 / 1000000000) by (split; nra).
  destruct (plus_err T1 T2 (4 * e + 6 * t0) ltac:(lra) ltac:(lra) ltac:(lra)) as [N1 S1]. set (s1 := fadd T1 T2) in *. apply Rabs_le_inv in S1.
  destruct (plus_err s1 T3 (7 * e + 12 * t0) ltac:(lra) ltac:(lra) ltac:(lra)) as [N2 S2]. set (s2 := fadd s1 T3) in *. apply Rabs_le_inv in S2.
  destruct (plus_err s2 T4 (10 * e + 18 * t0) ltac:(lra) ltac:(lra) ltac:(lra)) as [N3 S3]. set (s3 := fadd s2 T4) in *. apply Rabs_le_inv in S3.
  apply Rabs_le_inv in A1, A2, A3, A4. fold t0. replace (/ 2 ^ 47) with (64 * u) by (unfold u; lra).
  apply Rabs_le. lra.
Qed.
Print Assumptions nms64_interpolation.
