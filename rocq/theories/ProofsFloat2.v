(** The whole summary with binary64 numbers against the exact one. *)
From Verif Require Export ProofsFloat SpecRounding ProofsMetrics2.
From Coq Require Import Lia Lra Psatz Qreals.
Open Scope R_scope.
Open Scope list_scope.

Lemma eps_u : eps = u. Proof. unfold eps, u. simpl. lra. Qed.
Lemma max_close a b a' b' d : Rabs (a - a') <= d -> Rabs (b - b') <= d -> Rabs (Rmax a b - Rmax a' b') <= d.
Proof. intros A B. apply Rabs_le_inv in A, B. apply Rabs_le. unfold Rmax. destruct (Rle_dec a b), (Rle_dec a' b'); lra. Qed.

(** *** argmax *)
Lemma fargmax_from_spec l : forall best bv i pre, List.length pre = i -> (best < i)%nat -> nth best pre 0 = bv -> (forall j, (j < i)%nat -> nth j pre 0 <= bv) ->
  let k := fargmax_from best bv i l in (k < List.length (pre ++ l))%nat /\ forall j, (j < List.length (pre ++ l))%nat -> nth j (pre ++ l) 0 <= nth k (pre ++ l) 0.
Proof.
  induction l as [|v l IH]; intros best bv i pre L B E M; cbn [fargmax_from].
  - rewrite app_nil_r. split; [lia|]. intros j J. rewrite E. apply M. lia.
  - replace (pre ++ v :: l) with ((pre ++ [v]) ++ l) by (rewrite <- app_assoc; reflexivity). destruct (Rlt_dec bv v) as [G|G].
    + apply IH; [rewrite app_length; cbn; lia|lia|rewrite app_nth2 by lia; rewrite L, Nat.sub_diag; reflexivity|]. intros j J. destruct (Nat.eq_dec j i) as [->|N]; [rewrite app_nth2 by lia; rewrite L, Nat.sub_diag; cbn; lra|]. rewrite app_nth1 by lia. specialize (M j ltac:(lia)). lra.
    + apply IH; [rewrite app_length; cbn; lia|lia|rewrite app_nth1 by lia; exact E|]. intros j J. destruct (Nat.eq_dec j i) as [->|N]; [rewrite app_nth2 by lia; rewrite L, Nat.sub_diag; cbn; lra|]. rewrite app_nth1 by lia. apply M. lia.
Qed.
Lemma fargmax_spec l : l <> [] -> exists k, fargmax l = Some k /\ (k < List.length l)%nat /\ forall j, (j < List.length l)%nat -> nth j l 0 <= nth k l 0.
Proof.
  destruct l as [|v l]; [congruence|]. intros _. exists (fargmax_from 0 v 1 l). split; [reflexivity|]. apply (fargmax_from_spec l 0%nat v 1%nat [v]); [reflexivity|lia|reflexivity|]. intros j J. replace j with 0%nat by lia. cbn. lra.
Qed.

(** *** sums of counts *)
Lemma fadd_int a b : (Z.abs (a + b) <= 2 ^ 53)%Z -> fadd (IZR a) (IZR b) = IZR (a + b).
Proof. intros H. unfold fadd. rewrite <- plus_IZR. apply rnd_int, H. Qed.
Lemma map2_fadd a : forall b, (forall i, (Z.abs (nth i a 0 + nth i b 0) <= 2 ^ 53)%Z) -> map2 fadd (map IZR a) (map IZR b) = map IZR (add_arr a b).
Proof.
  induction a as [|x a IH]; intros [|y b] H; try reflexivity. unfold add_arr, map2. cbn [map combine fst snd]. rewrite (fadd_int x y) by apply (H 0%nat). f_equal. apply IH. intros i. apply (H (S i)).
Qed.
Definition bounded (c : counts) : Prop := forall i, (0 <= nth i (count_r c) 0 <= nth i (sum_r c) 0)%Z /\ (nth i (sum_r c) 0 <= 2 ^ 53)%Z /\ (0 <= nth i (count_p c) 0 <= nth i (sum_p c) 0)%Z /\ (nth i (sum_p c) 0 <= 2 ^ 53)%Z.
Lemma fadd_counts_exact n a b : shaped n a -> shaped n b -> bounded (add_counts a b) -> bounded a -> fadd_counts (freal a) (freal b) = freal (add_counts a b).
Proof.
  intros Sa Sb B Ba. unfold fadd_counts, freal. cbn [fcount_r fsum_r fcount_p fsum_p]. destruct Sa as (a1 & a2 & a3 & a4), Sb as (b1 & b2 & b3 & b4).
  assert (K : forall i, (nth i (count_r (add_counts a b)) 0 = nth i (count_r a) 0 + nth i (count_r b) 0 /\ nth i (sum_r (add_counts a b)) 0 = nth i (sum_r a) 0 + nth i (sum_r b) 0 /\ nth i (count_p (add_counts a b)) 0 = nth i (count_p a) 0 + nth i (count_p b) 0 /\ nth i (sum_p (add_counts a b)) 0 = nth i (sum_p a) 0 + nth i (sum_p b) 0)%Z).
  { intros i. unfold add_counts. cbn [count_r sum_r count_p sum_p]. split; [apply (nth_add_arr _ _ n); assumption|]. split; [apply (nth_add_arr _ _ n); assumption|]. split; apply (nth_add_arr _ _ n); assumption. }
  unfold add_counts. cbn [count_r sum_r count_p sum_p]. f_equal; apply map2_fadd; intros i; destruct (K i) as (K1 & K2 & K3 & K4); specialize (B i); lia.
Qed.

(** *** scores of counts *)
Lemma nth_map2R (f : R -> R -> R) a b i : (i < List.length a)%nat -> (i < List.length b)%nat -> nth i (map2 f a b) 0 = f (nth i a 0) (nth i b 0).
Proof. revert b i. induction a as [|x a IH]; intros [|y b] i A B; cbn in *; try lia. destruct i as [|i]; [reflexivity|]. apply IH; lia. Qed.
Lemma map2_lengthR {A B C} (f : A -> B -> C) a b n : List.length a = n -> List.length b = n -> List.length (map2 f a b) = n.
Proof. intros A1 B1. unfold map2. rewrite map_length, combine_length. lia. Qed.
Section Scores.
Variables (n : nat) (c : counts).
Hypotheses (S : shaped n c) (B : bounded c).
Lemma frecs_length : List.length (frecs (freal c)) = n.
Proof using S. destruct S as (A1 & A2 & _). apply map2_lengthR; cbn; rewrite map_length; assumption. Qed.
Lemma fprecs_length : List.length (fprecs (freal c)) = n.
Proof using S. destruct S as (_ & _ & A1 & A2). apply map2_lengthR; cbn; rewrite map_length; assumption. Qed.
Lemma ff1s_length : List.length (ff1s (freal c)) = n.
Proof using S. apply map2_lengthR; [apply fprecs_length|apply frecs_length]. Qed.
Lemma nth_map_IZR l i : nth i (map IZR l) 0 = IZR (nth i l 0%Z).
Proof using Type. clear. change 0 with (IZR 0%Z) at 1. apply map_nth. Qed.
Lemma nth_frecs i : (i < n)%nat -> nth i (frecs (freal c)) 0 = fratio (IZR (nth i (count_r c) 0%Z)) (IZR (nth i (sum_r c) 0%Z)).
Proof using S. intros H. destruct S as (A1 & A2 & _). unfold frecs, freal. cbn [fcount_r fsum_r]. rewrite nth_map2R by (rewrite map_length; lia). rewrite !nth_map_IZR. reflexivity. Qed.
Lemma nth_fprecs i : (i < n)%nat -> nth i (fprecs (freal c)) 0 = fratio (IZR (nth i (count_p c) 0%Z)) (IZR (nth i (sum_p c) 0%Z)).
Proof using S. intros H. destruct S as (_ & _ & A1 & A2). unfold fprecs, freal. cbn [fcount_p fsum_p]. rewrite nth_map2R by (rewrite map_length; lia). rewrite !nth_map_IZR. reflexivity. Qed.
Lemma frec_spec i : (i < n)%nat -> ratio_like (nth i (frecs (freal c)) 0) /\ Rabs (nth i (frecs (freal c)) 0 - Q2R (rec_at c i)) <= u /\ 0 <= Q2R (rec_at c i) <= 1.
Proof using S B. intros H. rewrite nth_frecs by exact H. destruct (B i) as (B1 & B2 & _). unfold rec_at. rewrite Q2R_recall by exact B1. destruct (fratio_spec _ _ B1 B2) as [F E]. split; [exact F|]. split; [exact E|apply fraction_range, B1]. Qed.
Lemma fprec_spec i : (i < n)%nat -> ratio_like (nth i (fprecs (freal c)) 0) /\ Rabs (nth i (fprecs (freal c)) 0 - Q2R (prec_at c i)) <= u /\ 0 <= Q2R (prec_at c i) <= 1.
Proof using S B. intros H. rewrite nth_fprecs by exact H. destruct (B i) as (_ & _ & B1 & B2). unfold prec_at. change precision with recall. rewrite Q2R_recall by exact B1. destruct (fratio_spec _ _ B1 B2) as [F E]. split; [exact F|]. split; [exact E|apply fraction_range, B1]. Qed.
Lemma ff1_spec i : (i < n)%nat -> nth i (ff1s (freal c)) 0 = ff1 (nth i (fprecs (freal c)) 0) (nth i (frecs (freal c)) 0) /\ Rabs (nth i (ff1s (freal c)) 0 - Q2R (f1_at c i)) <= 8 * u /\ 0 <= nth i (ff1s (freal c)) 0 <= 1.
Proof using S B.
  intros H. destruct (frec_spec i H) as (F1 & E1 & R1). destruct (fprec_spec i H) as (F2 & E2 & R2). unfold ff1s. rewrite nth_map2R by (rewrite ?fprecs_length, ?frecs_length; exact H). split; [reflexivity|]. split.
  - unfold f1_at. rewrite Q2R_f1 by tauto. assert (X := ff1_close _ _ _ _ u (ratio_like_score _ F2) (ratio_like_score _ F1) (proj1 R2) (proj1 R1) E2 E1). lra.
  - apply ff1_range; apply ratio_like_score; assumption.
Qed.
Lemma best_close : (0 < n)%nat -> exists i, fargmax (ff1s (freal c)) = Some i /\ (i < n)%nat /\ Rabs (nth i (ff1s (freal c)) 0 - Q2R (f1_at c (best_idx c))) <= 8 * u.
Proof using S B.
  intros N. destruct (fargmax_spec (ff1s (freal c))) as (i & E & I & M). { intros C. assert (L := ff1s_length). rewrite C in L. cbn in L. lia. }
  rewrite ff1s_length in I, M. exists i. split; [exact E|]. split; [exact I|]. destruct (best_idx_spec n c N S) as [_ (J & Mx & _)]. rewrite (f1s_length n c S) in J, Mx.
  set (j := best_idx c) in *. destruct (ff1_spec i I) as (_ & Ei & _). destruct (ff1_spec j J) as (_ & Ej & _). specialize (M j J). specialize (Mx i I). rewrite !(nth_f1s n c) in Mx by assumption. apply Qle_Rle in Mx. fold (f1_at c i) in Mx. fold (f1_at c j) in Mx.
  apply Rabs_le_inv in Ei, Ej. apply Rabs_le. lra.
Qed.
End Scores.

(** *** ODS *)
Lemma ims_points_in n i k : In (i, k) (ims_points n) -> (1 <= i < n)%nat /\ (0 <= k <= 100)%Z.
Proof.
  unfold ims_points. rewrite in_flat_map. intros (j & J & I). apply in_map_iff in I. destruct I as (k' & E & I). injection E as -> ->. apply in_seq in J. unfold zseq in I. apply in_map_iff in I. destruct I as (m & <- & I). apply in_seq in I. lia.
Qed.
Lemma Q2R_lerp x i k : Q2R (lerp x i k) = Q2R (nth i x 0%Q) * (IZR k / 100) + Q2R (nth (i - 1) x 0%Q) * (1 - IZR k / 100).
Proof.
  unfold lerp. assert (K : Q2R (inject_Z k / 100) = IZR k / 100). { rewrite Q2R_div by discriminate. rewrite Q2R_IZR. f_equal. unfold Q2R. cbn. lra. }
  rewrite Q2R_plus, !Q2R_mult, Q2R_minus, K, Q2R_1. reflexivity.
Qed.
Section ODS.
Variables (n : nat) (th : list Q) (thf : list R) (rec0 prec0 : list Q) (rec prec : list R).
Hypothesis Hr : forall i, (i < n)%nat -> ratio_like (nth i rec 0) /\ Rabs (nth i rec 0 - Q2R (nth i rec0 0%Q)) <= u /\ 0 <= Q2R (nth i rec0 0%Q) <= 1.
Hypothesis Hp : forall i, (i < n)%nat -> ratio_like (nth i prec 0) /\ Rabs (nth i prec 0 - Q2R (nth i prec0 0%Q)) <= u /\ 0 <= Q2R (nth i prec0 0%Q) <= 1.
Definition point (b : fscore) (i : nat) (k : Z) : Prop :=
  Rabs (fs_r b - (Q2R (nth i rec0 0%Q) * (IZR k / 100) + Q2R (nth (i - 1) rec0 0%Q) * (1 - IZR k / 100))) <= 12 * u /\
  Rabs (fs_p b - (Q2R (nth i prec0 0%Q) * (IZR k / 100) + Q2R (nth (i - 1) prec0 0%Q) * (1 - IZR k / 100))) <= 12 * u /\
  ((forall i, 0 <= nth i thf 0 <= 1) -> Rabs (fs_t b - (nth i thf 0 * (IZR k / 100) + nth (i - 1) thf 0 * (1 - IZR k / 100))) <= 12 * u).
Definition good (b : fscore) : Prop := score_like (fs_r b) /\ score_like (fs_p b) /\ fs_f b = ff1 (fs_p b) (fs_r b) /\
  exists i k, (i < n)%nat /\ (0 <= k <= 100)%Z /\ point b i k.
Lemma ims_step_close best best0 i k : (1 <= i < n)%nat -> (0 <= k <= 100)%Z -> good best -> Rabs (fs_f best - Q2R (sc_f best0)) <= 52 * u ->
  good (fims_step thf rec prec best (i, k)) /\ Rabs (fs_f (fims_step thf rec prec best (i, k)) - Q2R (sc_f (ims_step th rec0 prec0 best0 (i, k)))) <= 52 * u.
Proof using Hr Hp.
  intros I K G D. destruct (Hr i ltac:(lia)) as (A1 & A2 & A3). destruct (Hr (i - 1)%nat ltac:(lia)) as (B1 & B2 & B3). destruct (Hp i ltac:(lia)) as (C1 & C2 & C3). destruct (Hp (i - 1)%nat ltac:(lia)) as (D1 & D2 & D3).
  destruct (flerp_spec rec i k _ _ K A1 B1 A2 B2 A3 B3) as (Sr & Er). destruct (flerp_spec prec i k _ _ K C1 D1 C2 D2 C3 D3) as (Sp & Ep). assert (PT : forall f, point (mkFS (flerp thf i k) (flerp rec i k) (flerp prec i k) f) i k).
  { intros f. split; [exact Er|]. split; [exact Ep|]. cbn [fs_t]. intros T. assert (U := u_pos). apply flerp_error; try apply T; try exact K; rewrite Rminus_eq_0, Rabs_R0; lra. }
  rewrite <- Q2R_lerp in Er, Ep.
  assert (Z : 0 <= IZR k / 100 <= 1). { assert (0 <= IZR k) by (apply IZR_le; lia). assert (IZR k <= 100) by (apply IZR_le; lia). lra. }
  assert (Nr : 0 <= Q2R (lerp rec0 i k)) by (rewrite Q2R_lerp; nra). assert (Np : 0 <= Q2R (lerp prec0 i k)) by (rewrite Q2R_lerp; nra).
  assert (F := ff1_close _ _ _ _ (12 * u) Sp Sr Np Nr Ep Er). rewrite <- Q2R_f1 in F by assumption.
  unfold fims_step, ims_step. set (f := ff1 (flerp prec i k) (flerp rec i k)) in *. set (f0 := f1 (lerp prec0 i k) (lerp rec0 i k)) in *.
  split; [destruct (Rlt_dec (fs_f best) f); [split; [exact Sr|]; split; [exact Sp|]; split; [reflexivity|]; exists i, k; split; [lia|]; split; [exact K|]; apply PT|exact G]|].
  apply Rabs_le_inv in F, D. assert (U := u_pos). destruct (Rlt_dec (fs_f best) f) as [L|L]; destruct (Qle_bool f0 (sc_f best0)) eqn:E; cbn [negb fs_f sc_f snd]; unfold sc_f in *; apply Rabs_le; try lra.
  - apply Qle_bool_iff, Qle_Rle in E. lra.
  - assert (E' : (snd best0 < f0)%Q) by (apply Qnot_le_lt; intros C; apply Qle_bool_iff in C; congruence). apply Qlt_Rlt in E'. lra.
Qed.
Lemma ims_fold_close l : (forall i k, In (i, k) l -> (1 <= i < n)%nat /\ (0 <= k <= 100)%Z) -> forall best best0, good best -> Rabs (fs_f best - Q2R (sc_f best0)) <= 52 * u ->
  good (fold_left (fims_step thf rec prec) l best) /\ Rabs (fs_f (fold_left (fims_step thf rec prec) l best) - Q2R (sc_f (fold_left (ims_step th rec0 prec0) l best0))) <= 52 * u.
Proof using Hr Hp.
  induction l as [|[i k] l IH]; intros H best best0 G D; [split; assumption|]. cbn [fold_left]. destruct (H i k (or_introl eq_refl)) as [I K]. destruct (ims_step_close best best0 i k I K G D) as [G' D'].
  apply IH; [intros; apply H; right; assumption|exact G'|exact D'].
Qed.
End ODS.

(** *** average precision *)
Lemma fmax0_close l l0 : Forall2 (fun x q => 0 <= x <= 1 /\ Rabs (x - Q2R q) <= u) l l0 -> 0 <= fmax0 l <= 1 /\ Rabs (fmax0 l - Q2R (max0 l0)) <= u.
Proof.
  unfold fmax0, max0. assert (U := u_pos). assert (G : forall m m0, 0 <= m <= 1 -> Rabs (m - Q2R m0) <= u -> Forall2 (fun x q => 0 <= x <= 1 /\ Rabs (x - Q2R q) <= u) l l0 ->
    0 <= fold_left (fun m v => if Rlt_dec m v then v else m) l m <= 1 /\ Rabs (fold_left (fun m v => if Rlt_dec m v then v else m) l m - Q2R (fold_left (fun m v => if negb (Qle_bool v m) then v else m) l0 m0)) <= u).
  { intros m m0 M D F. revert m m0 M D. induction F as [|x q l l0 [Hx Hq] F IH]; intros m m0 M D; [split; assumption|]. cbn [fold_left]. apply IH.
    - destruct (Rlt_dec m x); assumption.
    - apply Rabs_le_inv in D, Hq. destruct (Rlt_dec m x) as [L|L]; destruct (Qle_bool q m0) eqn:E; cbn [negb]; apply Rabs_le; try lra.
      + apply Qle_bool_iff, Qle_Rle in E. lra.
      + assert (E' : (m0 < q)%Q) by (apply Qnot_le_lt; intros C; apply Qle_bool_iff in C; congruence). apply Qlt_Rlt in E'. lra. }
  apply G; [lra|rewrite Q2R_0, Rminus_0_r, Rabs_R0; lra].
Qed.
Lemma fmax0_range l : Forall (fun x => 0 <= x <= 1) l -> 0 <= fmax0 l <= 1.
Proof.
  unfold fmax0. intros F. assert (G : forall m, 0 <= m <= 1 -> 0 <= fold_left (fun m v => if Rlt_dec m v then v else m) l m <= 1); [|apply G; lra].
  induction F as [|x l Hx F IH]; intros m M; [exact M|]. cbn [fold_left]. apply IH. destruct (Rlt_dec m x); assumption.
Qed.
Lemma fap_at_range t rec prec : Forall (fun x => 0 <= x <= 1) prec -> 0 <= fap_at t rec prec <= 1.
Proof.
  intros F. apply fmax0_range. apply Forall_forall. intros x I. apply in_map_iff in I. destruct I as ([r p] & <- & I). apply filter_In in I. destruct I as [I _]. apply in_combine_r in I. rewrite Forall_forall in F. apply F, I.
Qed.
Lemma fdiv101 m : 0 <= m <= 1 -> 0 <= fdiv m 101 <= 163 / 16384 /\ Rabs (fdiv m 101 - m / 101) <= u.
Proof.
  intros M. unfold fdiv. assert (X : 0 <= m / 101 <= / 101) by (split; lra). split; [split; [apply rnd_nonneg; lra|]|apply rnd_abs1; lra].
  apply rnd_le_fmt; [|lra]. replace (163 / 16384) with (IZR 163 * bpow radix2 (-14)) by (simpl; lra). apply fmt_scaled; lia.
Qed.
Lemma ap_fold_range (g : R -> R) l : (forall t, 0 <= g t <= 1) -> forall a m, 0 <= a <= IZR m * (163 / 16384) -> (0 <= m)%Z -> (m + Z.of_nat (List.length l) <= 1000)%Z ->
  0 <= fold_left (fun a t => fadd a (fdiv (g t) 101)) l a <= IZR (m + Z.of_nat (List.length l)) * (163 / 16384).
Proof.
  intros G. induction l as [|t l IH]; intros a m A M L; [cbn [fold_left List.length]; rewrite Z.add_0_r; exact A|]. cbn [fold_left List.length] in *. destruct (fdiv101 (g t) (G t)) as [D _].
  replace (m + Z.of_nat (S (List.length l)))%Z with ((m + 1) + Z.of_nat (List.length l))%Z by lia. apply IH; [|lia|lia]. unfold fadd. split; [apply rnd_nonneg; lra|].
  rewrite plus_IZR. apply rnd_le_fmt; [|lra]. replace ((IZR m + 1) * (163 / 16384)) with (IZR ((m + 1) * 163) * bpow radix2 (-14)) by (change (bpow radix2 (-14)) with (/ 16384); rewrite mult_IZR, plus_IZR; field). apply fmt_scaled; lia.
Qed.
Lemma fgrid_length : List.length fgrid = 100%nat. Proof. reflexivity. Qed.
Lemma fap_range rec prec : Forall (fun x => 0 <= x <= 1) prec -> 0 <= faverage_precision rec prec <= 100 * (163 / 16384).
Proof.
  intros F. unfold faverage_precision. assert (X := ap_fold_range (fun t => fap_at t rec prec) fgrid (fun t => fap_at_range t rec prec F) 0 0%Z ltac:(lra) ltac:(lia)).
  rewrite fgrid_length in X. specialize (X ltac:(lia)). exact X.
Qed.
Lemma ap_fold_close (g : R -> R) (g0 : Q -> Q) l l0 : (forall t, 0 <= g t <= 1) -> Forall2 (fun t t0 => Rabs (g t - Q2R (g0 t0)) <= u) l l0 -> forall a a0 m, 0 <= a <= IZR m * (163 / 16384) -> (0 <= m)%Z -> (m + Z.of_nat (List.length l) <= 100)%Z ->
  Rabs (a - Q2R a0) <= IZR m * (3 * u) ->
  Rabs (fold_left (fun a t => fadd a (fdiv (g t) 101)) l a - Q2R (fold_left (fun a t => a + g0 t / 101)%Q l0 a0)) <= IZR (m + Z.of_nat (List.length l)) * (3 * u).
Proof.
  intros G F. induction F as [|t t0 l l0 H F IH]; intros a a0 m A M L D; [cbn [fold_left List.length]; rewrite Z.add_0_r; exact D|]. cbn [fold_left List.length] in *. destruct (fdiv101 (g t) (G t)) as [D1 D2].
  replace (m + Z.of_nat (S (List.length l)))%Z with ((m + 1) + Z.of_nat (List.length l))%Z by lia. assert (U := u_pos). assert (M99 : IZR m <= 99) by (apply IZR_le; lia). assert (M0 : 0 <= IZR m) by (apply IZR_le; lia). apply IH; [|lia|lia|].
  - unfold fadd. split; [apply rnd_nonneg; lra|]. rewrite plus_IZR. apply rnd_le_fmt; [|lra]. replace ((IZR m + 1) * (163 / 16384)) with (IZR ((m + 1) * 163) * bpow radix2 (-14)) by (change (bpow radix2 (-14)) with (/ 16384); rewrite mult_IZR, plus_IZR; field). apply fmt_scaled; lia.
  - rewrite Q2R_plus, Q2R_div by discriminate. replace (Q2R 101) with 101 by (unfold Q2R; cbn; lra). unfold fadd.
    assert (E := rnd_abs1 (a + fdiv (g t) 101) ltac:(lra)). rewrite plus_IZR. apply Rabs_le_inv in E, D, D2, H. apply Rabs_le.
    assert (H1 : g t / 101 - Q2R (g0 t0) / 101 <= u) by lra. assert (H2 : - u <= g t / 101 - Q2R (g0 t0) / 101) by lra. lra.
Qed.

Lemma ap_filter t t0 rec rec0 prec prec0 : Forall2 (fun r q => t <= r <-> Q2R t0 <= Q2R q) rec rec0 -> Forall2 (fun x q => 0 <= x <= 1 /\ Rabs (x - Q2R q) <= u) prec prec0 ->
  Rabs (fap_at t rec prec - Q2R (ap_at t0 rec0 prec0)) <= u.
Proof.
  intros F G. apply fmax0_close. revert prec prec0 G. induction F as [|r q rec rec0 H F IH]; intros prec prec0 G; [constructor|]. inversion G as [|p p0 prec' prec0' Hp G']; subst; [constructor|]. cbn [combine filter map fst snd].
  specialize (IH _ _ G'). destruct (Rle_dec t r) as [L|L]; destruct (Qle_bool t0 q) eqn:E; cbn [map snd].
  - constructor; assumption.
  - exfalso. apply H in L. apply Rle_Qle, Qle_bool_iff in L. congruence.
  - exfalso. apply Qle_bool_iff, Qle_Rle in E. apply L, H, E.
  - exact IH.
Qed.
Lemma Forall2_nth {A B} (P : A -> B -> Prop) (da : A) (db : B) l m n : List.length l = n -> List.length m = n -> (forall i, (i < n)%nat -> P (nth i l da) (nth i m db)) -> Forall2 P l m.
Proof.
  revert m n. induction l as [|x l IH]; intros [|y m] n L M H; cbn in *; subst; try discriminate; [constructor|]. constructor; [apply (H 0%nat); lia|]. apply (IH m (List.length l)); [reflexivity|lia|]. intros i I. apply (H (S i)). lia.
Qed.
Lemma Forall2_map_map {A B C} (P : B -> C -> Prop) (f : A -> B) (g : A -> C) l : (forall x, In x l -> P (f x) (g x)) -> Forall2 P (map f l) (map g l).
Proof. induction l as [|x l IH]; intros H; [constructor|]. cbn [map]. constructor; [apply H; left; reflexivity|apply IH; intros; apply H; right; assumption]. Qed.
Lemma level_sides k r q : (0 <= k <= 99)%Z -> 0 <= r -> 0 <= q -> Rabs (r - q) <= u -> ((1 <= k)%Z -> 3 * u < Rabs (q - IZR k / 100)) -> fstep k <= r <-> IZR k / 100 <= q.
Proof.
  intros K Hr Hq D S. destruct (Z.eq_dec k 0) as [->|N]; [rewrite fstep_0; lra|]. specialize (S ltac:(lia)). destruct (fstep_spec k ltac:(lia)) as (_ & _ & E & _). apply Rabs_le_inv in E, D. unfold Rabs in S. destruct (Rcase_abs (q - IZR k / 100)); lra.
Qed.

(** *** the loop over the samples *)
Definition real_best (b : best4) : fbest := mkFB (IZR (b_cr b)) (IZR (b_sr b)) (IZR (b_cp b)) (IZR (b_sp b)).
Definition sound_best (b : best4) : Prop := (0 <= b_cr b <= b_sr b /\ 0 <= b_cp b <= b_sp b)%Z.
Lemma nth_freal_r c i : nth i (fcount_r (freal c)) 0 = IZR (nth i (count_r c) 0%Z) /\ nth i (fsum_r (freal c)) 0 = IZR (nth i (sum_r c) 0%Z) /\ nth i (fcount_p (freal c)) 0 = IZR (nth i (count_p c) 0%Z) /\ nth i (fsum_p (freal c)) 0 = IZR (nth i (sum_p c) 0%Z).
Proof. unfold freal. cbn. rewrite !nth_map_IZR. auto. Qed.
Lemma fadd_best_exact b c i : sound_best (add_best b c i) -> (b_sr (add_best b c i) <= 2 ^ 53)%Z -> (b_sp (add_best b c i) <= 2 ^ 53)%Z -> fadd_best (real_best b) (freal c) i = real_best (add_best b c i).
Proof.
  intros [S1 S2] H1 H2. unfold fadd_best, real_best. destruct (nth_freal_r c i) as (-> & -> & -> & ->). unfold add_best in *. cbn [b_cr b_sr b_cp b_sp fb_cr fb_sr fb_cp fb_sp] in *. f_equal; apply fadd_int; lia.
Qed.
Lemma sane_pick c i : sane c -> (0 <= nth i (count_r c) 0 <= nth i (sum_r c) 0 /\ 0 <= nth i (count_p c) 0 <= nth i (sum_p c) 0)%Z.
Proof. intros S. apply S. Qed.
Lemma chosen_nonneg samples : (forall s, In s samples -> sane (snd s)) -> forall choice, (0 <= chosen sum_r samples choice /\ 0 <= chosen sum_p samples choice)%Z.
Proof.
  induction samples as [|s l IH]; intros H [|i choice]; cbn [chosen]; try lia. destruct (IH ltac:(intros; apply H; right; assumption) choice). destruct (H s (or_introl eq_refl) i). lia.
Qed.
Lemma total_chosen f samples i : total f i samples = chosen f samples (repeat i (List.length samples)).
Proof. unfold total. induction samples as [|s l IH]; [reflexivity|]. cbn [map List.length repeat chosen]. rewrite <- IH. unfold zsum. reflexivity. Qed.
Lemma floop_ok thf : (0 < List.length thf)%nat -> forall samples th tot best rows, List.length th = List.length thf ->
  Forall (fun s => shaped (List.length thf) (snd s)) samples -> (forall s, In s samples -> sane (snd s)) -> shaped (List.length thf) tot -> sound_best best ->
  (forall i, (0 <= nth i (count_r tot) 0 <= nth i (sum_r tot) 0 /\ 0 <= nth i (count_p tot) 0 <= nth i (sum_p tot) 0)%Z) ->
  (forall i, (nth i (sum_r tot) 0 + total sum_r i samples <= 2 ^ 53 /\ nth i (sum_p tot) 0 + total sum_p i samples <= 2 ^ 53)%Z) ->
  (forall choice, List.length choice = List.length samples -> (b_sr best + chosen sum_r samples choice <= 2 ^ 53 /\ b_sp best + chosen sum_p samples choice <= 2 ^ 53)%Z) ->
  exists choice frows, List.length choice = List.length samples /\
    fsample_loop thf samples (freal tot) (real_best best) rows = Ok (freal (fold_left add_counts (map snd samples) tot),
      real_best (mkBest (b_cr best + chosen count_r samples choice) (b_sr best + chosen sum_r samples choice) (b_cp best + chosen count_p samples choice) (b_sp best + chosen sum_p samples choice)), rows ++ frows) /\
    rows_near thf samples (map (row_of th) samples) frows choice.
Proof.
  intros Hn. set (n := List.length thf) in *. induction samples as [|[name c] samples IH]; intros th tot best rows Lth Sh Sa St Sb Sn Bt Bc.
  - exists [], []. split; [reflexivity|]. cbn [fsample_loop map fold_left chosen rows_near]. rewrite !Z.add_0_r, app_nil_r. split; [destruct best; reflexivity|exact I].
  - inversion Sh as [|? ? S1 S2]; subst. cbn [snd] in S1. cbn [fsample_loop map fold_left]. fold n. rewrite (proj2 (shaped_dec n c) S1). cbn [negb].
    assert (Sc : sane c) by (apply (Sa (name, c)); left; reflexivity). assert (Sr : forall s, In s samples -> sane (snd s)) by (intros; apply Sa; right; assumption).
    assert (Tot0 : forall i, (0 <= total sum_r i samples /\ 0 <= total sum_p i samples)%Z) by (intros i; rewrite !total_chosen; apply chosen_nonneg, Sr).
    assert (Bi : forall i, (nth i (sum_r tot) 0 + (nth i (sum_r c) 0 + total sum_r i samples) <= 2 ^ 53 /\ nth i (sum_p tot) 0 + (nth i (sum_p c) 0 + total sum_p i samples) <= 2 ^ 53)%Z) by (intros i; destruct (Bt i) as [X Y]; unfold total in X, Y; cbn [map zsum fold_right snd] in X, Y; unfold total; split; assumption).
    assert (Bc1 : bounded c). { intros i. destruct (Sc i) as [X Y]. specialize (Bi i). specialize (Tot0 i). specialize (Sn i). lia. }
    assert (Btot : bounded tot). { intros i. specialize (Bi i). specialize (Tot0 i). specialize (Sn i). destruct (Sc i). lia. }
    destruct (best_close n c S1 Bc1 Hn) as (i & Ei & Ii & Ci). rewrite Ei.
    assert (Nadd : forall j, (nth j (count_r (add_counts tot c)) 0 = nth j (count_r tot) 0 + nth j (count_r c) 0 /\ nth j (sum_r (add_counts tot c)) 0 = nth j (sum_r tot) 0 + nth j (sum_r c) 0 /\ nth j (count_p (add_counts tot c)) 0 = nth j (count_p tot) 0 + nth j (count_p c) 0 /\ nth j (sum_p (add_counts tot c)) 0 = nth j (sum_p tot) 0 + nth j (sum_p c) 0)%Z).
    { intros j. destruct St as (a1 & a2 & a3 & a4), S1 as (b1 & b2 & b3 & b4). unfold add_counts. cbn [count_r sum_r count_p sum_p]. split; [apply (nth_add_arr _ _ n); assumption|]. split; [apply (nth_add_arr _ _ n); assumption|]. split; apply (nth_add_arr _ _ n); assumption. }
    assert (Badd : bounded (add_counts tot c)). { intros j. destruct (Nadd j) as (-> & -> & -> & ->). specialize (Bi j). specialize (Tot0 j). specialize (Sn j). destruct (Sc j). lia. }
    rewrite (fadd_counts_exact n tot c St S1 Badd Btot).
    assert (Sab : sound_best (add_best best c i)). { destruct Sb. destruct (Sc i). unfold sound_best, add_best. cbn. lia. }
    assert (Bsum : (b_sr best + nth i (sum_r c) 0 <= 2 ^ 53 /\ b_sp best + nth i (sum_p c) 0 <= 2 ^ 53)%Z).
    { destruct (Bc (i :: repeat 0%nat (List.length samples))) as [X Y]; [cbn; rewrite repeat_length; reflexivity|]. cbn [chosen snd] in X, Y. destruct (chosen_nonneg samples Sr (repeat 0%nat (List.length samples))). lia. }
    rewrite (fadd_best_exact best c i Sab) by (unfold add_best; cbn; lia).
    destruct (IH th (add_counts tot c) (add_best best c i) (rows ++ [mkFRow name (nth i thf 0) (nth i (frecs (freal c)) 0) (nth i (fprecs (freal c)) 0) (nth i (ff1s (freal c)) 0)]) Lth S2 Sr) as (choice & frows & Lc & E & R).
    + apply add_counts_shaped; assumption.
    + exact Sab.
    + intros j. destruct (Nadd j) as (-> & -> & -> & ->). specialize (Sn j). destruct (Sc j). lia.
    + intros j. destruct (Nadd j) as (_ & -> & _ & ->). specialize (Bi j). lia.
    + intros choice Lc. destruct (Bc (i :: choice)) as [X Y]; [cbn; congruence|]. cbn [chosen snd] in X, Y. unfold add_best. cbn [b_sr b_sp]. lia.
    + exists (i :: choice), (mkFRow name (nth i thf 0) (nth i (frecs (freal c)) 0) (nth i (fprecs (freal c)) 0) (nth i (ff1s (freal c)) 0) :: frows). split; [cbn; congruence|]. split.
      * rewrite E. cbn [chosen snd]. unfold add_best. cbn [b_cr b_sr b_cp b_sp]. rewrite <- app_assoc, <- !Z.add_assoc. reflexivity.
      * cbn [rows_near]. split; [|exact R]. destruct (frec_spec n c S1 Bc1 i Ii) as (F1 & E1 & _). destruct (fprec_spec n c S1 Bc1 i Ii) as (F2 & E2 & _). destruct (ff1_spec n c S1 Bc1 i Ii) as (_ & E3 & R3).
        unfold row_near, near, in_unit. rewrite eps_u, Rmult_1_l. cbn [f_name f_thr f_rec f_prec f_f1 fst snd]. split; [reflexivity|]. split; [exact Ii|]. split; [reflexivity|]. split; [exact E1|]. split; [exact E2|]. split; [exact E3|].
        split; [|split; [apply ratio_like_range, F1|]; split; [apply ratio_like_range, F2|exact R3]]. unfold row_of. cbn [snd r_f1]. destruct (best_idx_spec n c Hn S1) as [_ (J & _)]. rewrite (f1s_length n c S1) in J. rewrite (nth_f1s n c) by assumption. exact Ci.
Qed.
