(** Theorems for C73: the bar that is drawn. *)
From Verif Require Import ModelIter ProofsFloat.
From Coq Require Import Lia Lra Psatz.
Open Scope Z_scope.
Open Scope list_scope.

Lemma frac_bounds c n : 0 <= c <= n -> 0 < n -> (0 <= IZR c / IZR n <= 1)%R.
Proof.
  intros Hc Hn. apply IZR_lt in Hn. destruct Hc as [H0 H1]. apply IZR_le in H0, H1. split.
  - apply Rmult_le_pos; [lra|]. left. apply Rinv_0_lt_compat. lra.
  - apply Rmult_le_reg_r with (IZR n); [lra|]. unfold Rdiv. rewrite Rmult_assoc, Rinv_l, Rmult_1_r by lra. lra.
Qed.
Lemma ratio_bounds c n : 0 <= c <= n -> 0 < n -> (0 <= fdiv (IZR c) (IZR n) <= 1)%R.
Proof.
  intros Hc Hn. destruct (frac_bounds c n Hc Hn) as [A B]. unfold fdiv. split; [apply rnd_nonneg, A|apply rnd_le_1, B].
Qed.
Lemma product_bounds w c n : 0 <= w <= 2 ^ 53 -> 0 <= c <= n -> 0 < n ->
  (0 <= fmul (IZR w) (fdiv (IZR c) (IZR n)) <= IZR w)%R.
Proof.
  intros Hw Hc Hn. destruct (ratio_bounds c n Hc Hn) as [A B]. assert (W : (0 <= IZR w)%R) by (apply IZR_le; lia).
  unfold fmul. split; [apply rnd_nonneg, Rmult_le_pos; assumption|].
  apply rnd_le_fmt; [apply fmt_int; lia|]. rewrite <- (Rmult_1_r (IZR w)) at 2. apply Rmult_le_compat_l; assumption.
Qed.
Lemma trunc_floor x : (0 <= x)%R -> Ztrunc x = Zfloor x.
Proof. apply Ztrunc_floor. Qed.

(** The bar has between no and all cells marked, and never fewer after more tasks. *)
Theorem marks_in_bar : forall w c n, 0 <= w <= 2 ^ 53 -> 0 <= c <= n -> 0 < n -> 0 <= mark_cells w c n <= w.
Proof.
  intros w c n Hw Hc Hn. destruct (product_bounds w c n Hw Hc Hn) as [A B]. unfold mark_cells. rewrite trunc_floor by exact A.
  split; [apply Zfloor_lub; exact A|]. apply Z.le_trans with (Zfloor (IZR w)); [apply Zfloor_le, B|rewrite Zfloor_IZR; lia].
Qed.
Print Assumptions marks_in_bar.
Theorem marks_grow : forall w c c' n, 0 <= w -> 0 <= c <= c' -> 0 < n -> mark_cells w c n <= mark_cells w c' n.
Proof.
  intros w c c' n Hw Hc Hn. assert (W : (0 <= IZR w)%R) by (apply IZR_le; lia). apply IZR_lt in Hn. destruct Hc as [H0 H1]. apply IZR_le in H0, H1.
  assert (L : (IZR c / IZR n <= IZR c' / IZR n)%R) by (apply Rmult_le_compat_r; [left; apply Rinv_0_lt_compat; lra|exact H1]).
  assert (P : (0 <= IZR c / IZR n)%R) by (apply Rmult_le_pos; [exact H0|left; apply Rinv_0_lt_compat; lra]).
  assert (Q : (0 <= fdiv (IZR c) (IZR n) <= fdiv (IZR c') (IZR n))%R) by (unfold fdiv; split; [apply rnd_nonneg, P|apply rnd_le, L]).
  assert (M : (fmul (IZR w) (fdiv (IZR c) (IZR n)) <= fmul (IZR w) (fdiv (IZR c') (IZR n)))%R) by (apply rnd_le, Rmult_le_compat_l; [exact W|apply Q]).
  unfold mark_cells. rewrite !trunc_floor; [apply Zfloor_le, M| |]; (unfold fmul; apply rnd_nonneg, Rmult_le_pos; [exact W|lra]).
Qed.
Print Assumptions marks_grow.

(** One less than a full bar: the doubles just below an integer. *)
Lemma half_gap w : 0 < w <= 2 ^ 53 -> fmt (IZR w) /\ (IZR w - pred radix2 (FLT_exp (-1074) 53) (IZR w) < 2 * (IZR w * u))%R.
Proof.
  intros Hw. assert (F : fmt (IZR w)) by (apply fmt_int; lia). split; [exact F|].
  assert (P : (1 <= IZR w)%R) by (apply IZR_le; lia).
  set (e := mag radix2 (IZR w)). assert (E1 : (bpow radix2 (e - 1) <= IZR w)%R) by (pose proof (bpow_mag_le radix2 (IZR w) ltac:(lra)) as E0; rewrite Rabs_pos_eq in E0 by lra; exact E0).
  assert (E2 : (1 <= e)%Z).
  { unfold e. apply mag_ge_bpow. rewrite Rabs_pos_eq by lra. simpl. lra. }
  assert (U : u = bpow radix2 (-53)) by (unfold u; simpl; lra).
  rewrite pred_eq_pos by lra. unfold pred_pos. fold e.
  destruct (Req_bool_spec (IZR w) (bpow radix2 (e - 1))) as [Q|Q].
  - unfold FLT_exp. rewrite Z.max_l by lia. rewrite U. assert (W : (IZR w * bpow radix2 (-53) = bpow radix2 (e - 1 - 53))%R) by (transitivity (bpow radix2 (e - 1) * bpow radix2 (-53))%R; [f_equal; exact Q|rewrite <- bpow_plus; f_equal; lia]). rewrite W.
    pose proof (bpow_gt_0 radix2 (e - 1 - 53)). lra.
  - rewrite ulp_neq_0 by lra. unfold cexp. fold e. unfold FLT_exp. rewrite Z.max_l by lia.
    assert (S : (bpow radix2 (e - 53) = 2 * (bpow radix2 (e - 1) * u))%R).
    { rewrite U, <- bpow_plus. replace (e - 53)%Z with (1 + (e - 1 + -53))%Z by lia. rewrite bpow_plus. simpl (bpow radix2 1). lra. }
    rewrite S. assert (X : (bpow radix2 (e - 1) < IZR w)%R) by lra. pose proof u_pos. nra.
Qed.
(** The bar is full exactly when all tasks are done: rounding never fills it early. *)
Theorem bar_full_exactly_at_the_end : forall w c n, 0 < w <= 2 ^ 53 -> 0 <= c <= n -> 0 < n <= 2 ^ 53 ->
  (mark_cells w c n = w <-> c = n).
Proof.
  intros w c n Hw Hc Hn. split.
  - intros H. destruct (Z.eq_dec c n) as [E|E]; [exact E|exfalso].
    destruct (product_bounds w c n ltac:(lia) Hc ltac:(lia)) as [A B]. unfold mark_cells in H. rewrite trunc_floor in H by exact A.
    assert (L : (IZR w <= fmul (IZR w) (fdiv (IZR c) (IZR n)))%R) by (pose proof (Zfloor_lb (fmul (IZR w) (fdiv (IZR c) (IZR n)))) as Z0; rewrite H in Z0; exact Z0).
    destruct (half_gap w Hw) as [F G]. assert (P : (1 <= IZR w)%R) by (apply IZR_le; lia).
    assert (R1 : (fdiv (IZR c) (IZR n) <= 1 - u)%R).
    { apply rnd_le_fmt.
      - replace (1 - u)%R with (IZR (2 ^ 53 - 1) * bpow radix2 (-53))%R; [apply fmt_scaled; lia|]. unfold u. simpl bpow. replace (IZR (2 ^ 53 - 1)) with 9007199254740991%R by (f_equal; reflexivity). lra.
      - assert (N0 : (0 < IZR n)%R) by (apply IZR_lt; lia). assert (N1 : (IZR n <= 9007199254740992)%R) by (replace 9007199254740992%R with (IZR (2 ^ 53)) by reflexivity; apply IZR_le; lia).
        assert (C1 : (IZR c <= IZR n - 1)%R) by (rewrite <- minus_IZR; apply IZR_le; lia).
        apply Rmult_le_reg_r with (IZR n); [exact N0|]. unfold Rdiv. rewrite Rmult_assoc, Rinv_l, Rmult_1_r by lra.
        assert (K : (u * IZR n <= 1)%R) by (unfold u; lra). lra. }
    set (p := pred radix2 (FLT_exp (-1074) 53) (IZR w)) in *.
    assert (Fp : fmt p) by (apply generic_format_pred; [typeclasses eauto|exact F]).
    assert (Lp : (fmul (IZR w) (fdiv (IZR c) (IZR n)) <= p)%R).
    { unfold fmul, rnd. apply round_N_le_midp; [typeclasses eauto|exact Fp|]. unfold p. rewrite succ_pred by (try typeclasses eauto; exact F). fold p.
      apply Rle_lt_trans with (IZR w * (1 - u))%R; [apply Rmult_le_compat_l; [lra|exact R1]|]. lra. }
    assert (pw : (p < IZR w)%R) by (apply pred_lt_id; lra). lra.
  - intros ->. unfold mark_cells, fdiv. assert (N0 : (0 < IZR n)%R) by (apply IZR_lt; lia).
    replace (IZR n / IZR n)%R with 1%R by (field; lra). rewrite rnd_1. unfold fmul. rewrite Rmult_1_r, rnd_int by lia. apply Ztrunc_IZR.
Qed.
Print Assumptions bar_full_exactly_at_the_end.

(** The marks are the share of the tasks done, rounded down, up to a millionth of a cell. *)
Theorem marks_are_proportional : forall w c n, 0 <= w <= 1000 -> 0 <= c <= n -> 0 < n ->
  n * (1000000 * mark_cells w c n - 1) <= 1000000 * (w * c) < n * (1000000 * (mark_cells w c n + 1) + 1).
Proof.
  intros w c n Hw Hc Hn. destruct (product_bounds w c n ltac:(lia) Hc Hn) as [A B]. destruct (frac_bounds c n Hc Hn) as [F0 F1]. destruct (ratio_bounds c n Hc Hn) as [G0 G1].
  assert (W : (0 <= IZR w <= 1000)%R) by (split; apply IZR_le; lia). pose proof u_small as U. pose proof u_pos as U0.
  pose proof (rnd_abs1 (IZR c / IZR n) ltac:(lra)) as E1. apply Rabs_le_inv in E1. change (rnd (IZR c / IZR n)) with (fdiv (IZR c) (IZR n)) in E1.
  set (r := fdiv (IZR c) (IZR n)) in *. assert (P : (0 <= IZR w * r <= 1000)%R) by (split; [apply Rmult_le_pos; lra|apply Rle_trans with (IZR w * 1)%R; [apply Rmult_le_compat_l; lra|lra]]).
  pose proof (rnd_abs (IZR w * r) 1000 ltac:(rewrite Rabs_pos_eq by lra; lra) ltac:(lra)) as E2. apply Rabs_le_inv in E2.
  change (rnd (IZR w * r)) with (fmul (IZR w) r) in E2. set (x := fmul (IZR w) r) in *.
  assert (M : mark_cells w c n = Zfloor x) by (unfold mark_cells; rewrite trunc_floor by exact A; reflexivity). rewrite M.
  pose proof (Zfloor_lb x) as Z1. pose proof (Zfloor_ub x) as Z2. set (k := Zfloor x) in *. clearbody k.
  assert (D : (IZR w * (IZR c / IZR n) - 1 / 1000000 < x < IZR w * (IZR c / IZR n) + 1 / 1000000)%R).
  { assert (D1 : (IZR w * (IZR c / IZR n - u) <= IZR w * r <= IZR w * (IZR c / IZR n + u))%R) by (split; apply Rmult_le_compat_l; lra). assert (Wu : (IZR w * u <= 1000 * u)%R) by (apply Rmult_le_compat_r; lra). assert (Us : (1000 * u <= 1 / 4000000)%R) by (unfold u; lra). rewrite Rmult_minus_distr_l, Rmult_plus_distr_l in D1. lra. }
  assert (N0 : (0 < IZR n)%R) by (apply IZR_lt; lia).
  assert (Q : (IZR w * (IZR c / IZR n) * IZR n = IZR w * IZR c)%R) by (field; lra). set (q := (IZR w * (IZR c / IZR n))%R) in *. clearbody q.
  split.
  - apply le_IZR. rewrite !mult_IZR, minus_IZR, !mult_IZR. rewrite <- Q. nra.
  - apply lt_IZR. rewrite !mult_IZR, plus_IZR, !mult_IZR, plus_IZR. rewrite <- Q. nra.
Qed.
Print Assumptions marks_are_proportional.

(** Number of columns a line takes: its characters. *)
Lemma bar_chars_length w m : 0 <= m <= w -> Z.of_nat (length (bar_chars w m)) = w.
Proof. intros H. unfold bar_chars. rewrite app_length, !repeat_length. lia. Qed.
Lemma cells_bounds bw term len : 2 <= bar_cells bw term len <= Z.max 2 (Z.min bw (term - len + 2)).
Proof. unfold bar_cells. lia. Qed.

(** A line that can fit at all (message without bar, plus a bar of two cells) does not reach the last column of the
    terminal, and its bar has at most [bar_width] cells. *)
Theorem line_fits_terminal : forall bw term c n timing, bw <= 2 ^ 53 -> 0 <= c <= n -> 0 < n ->
  4 + Z.of_nat (length (bar_tail c n timing)) <= term ->
  Z.of_nat (length (bar_line bw term c n timing)) <= term - 1.
Proof.
  intros bw term c n timing Hb Hc Hn Ht. unfold bar_line. set (len := 4 + Z.of_nat (length (bar_tail c n timing))) in *.
  pose proof (cells_bounds bw term len) as B. rewrite !app_length, !Nat2Z.inj_add. rewrite bar_chars_length.
  - cbn [length lit String.list_ascii_of_string]. fold len. lia.
  - apply marks_in_bar; lia.
Qed.
Print Assumptions line_fits_terminal.

(** What is drawn: a bracket, the marks, the blanks up to the bar's cells, then the count; only marks at the end and only then. *)
Theorem line_shape : forall bw term c n timing, bw <= 2 ^ 53 -> 0 <= c <= n -> 0 < n <= 2 ^ 53 ->
  exists marks blanks, bar_line bw term c n timing
     = lit "[" ++ repeat ">"%char marks ++ repeat " "%char blanks ++ lit "] " ++ str_nat c ++ lit "/" ++ str_nat n ++ lit ", " ++ timing /\
   (2 <= marks + blanks)%nat /\ Z.of_nat (marks + blanks) <= Z.max 2 bw /\ (blanks = 0%nat <-> c = n).
Proof.
  intros bw term c n timing Hb Hc Hn. unfold bar_line. set (len := 4 + Z.of_nat (length (bar_tail c n timing))).
  pose proof (cells_bounds bw term len) as B. set (w := bar_cells bw term len) in *.
  assert (M : 0 <= mark_cells w c n <= w) by (apply marks_in_bar; lia).
  exists (Z.to_nat (mark_cells w c n)), (Z.to_nat (w - mark_cells w c n)). split; [|split; [|split]].
  - unfold bar_chars, bar_tail. rewrite <- app_assoc. reflexivity.
  - lia.
  - lia.
  - rewrite <- (bar_full_exactly_at_the_end w c n) by lia. lia.
Qed.
Print Assumptions line_shape.

(** With a declared number that is too small the bar outgrows its cells and the line the terminal. *)
Lemma marks_double w : 0 <= w <= 2 ^ 52 -> mark_cells w 2 1 = 2 * w.
Proof.
  intros H. unfold mark_cells, fdiv. replace (2 / 1)%R with (IZR 2) by lra. rewrite rnd_int by lia. unfold fmul. rewrite <- mult_IZR, rnd_int by lia. rewrite Ztrunc_IZR. lia.
Qed.
Lemma six_tenths t : 0 <= t <= 1000 -> (t * 6 <= 10 * (Ztrunc (fmul (IZR t) (rnd (6 / 10))) + 1))%Z.
Proof.
  intros H. assert (T : (0 <= IZR t <= 1000)%R) by (split; apply IZR_le; lia).
  pose proof (rnd_abs1 (6 / 10) ltac:(lra)) as A. apply Rabs_le_inv in A. pose proof u_small as U. pose proof u_pos as U0.
  assert (A1 : (IZR t * (6 / 10 - u) <= IZR t * rnd (6 / 10) <= IZR t * (6 / 10 + u))%R) by (split; apply Rmult_le_compat_l; lra).
  pose proof (rnd_abs (IZR t * rnd (6 / 10)) 1000) as Bd. assert (N : (0 <= rnd (6 / 10))%R) by (apply rnd_nonneg; lra).
  assert (P0 : (0 <= IZR t * rnd (6 / 10))%R) by (apply Rmult_le_pos; lra).
  specialize (Bd ltac:(rewrite Rabs_pos_eq by exact P0; nra) ltac:(lra)). apply Rabs_le_inv in Bd.
  set (x := rnd (IZR t * rnd (6 / 10))) in *. change (fmul (IZR t) (rnd (6 / 10))) with x.
  assert (X0 : (0 <= x)%R) by (apply rnd_nonneg, P0). rewrite Ztrunc_floor by exact X0. pose proof (Zfloor_ub x) as Fl.
  assert (K : (IZR (t * 6) - 1 / 1000 < IZR (10 * (Zfloor x + 1)))%R).
  { rewrite !mult_IZR, plus_IZR. nra. }
  apply Znot_gt_le. intros G. assert (G1 : (10 * (Zfloor x + 1) + 1 <= t * 6)%Z) by lia. apply IZR_le in G1. rewrite plus_IZR in G1. lra.
Qed.
Lemma six_tenths_le t : 0 <= t <= 1000 -> (10 * Ztrunc (fmul (IZR t) (rnd (6 / 10))) <= t * 6)%Z.
Proof.
  intros H. assert (T : (0 <= IZR t <= 1000)%R) by (split; apply IZR_le; lia).
  pose proof (rnd_abs1 (6 / 10) ltac:(lra)) as A. apply Rabs_le_inv in A. pose proof u_small as U. pose proof u_pos as U0.
  assert (A1 : (IZR t * (6 / 10 - u) <= IZR t * rnd (6 / 10) <= IZR t * (6 / 10 + u))%R) by (split; apply Rmult_le_compat_l; lra).
  pose proof (rnd_abs (IZR t * rnd (6 / 10)) 1000) as Bd. assert (N : (0 <= rnd (6 / 10))%R) by (apply rnd_nonneg; lra).
  assert (P0 : (0 <= IZR t * rnd (6 / 10))%R) by (apply Rmult_le_pos; lra).
  specialize (Bd ltac:(rewrite Rabs_pos_eq by exact P0; nra) ltac:(lra)). apply Rabs_le_inv in Bd.
  set (x := rnd (IZR t * rnd (6 / 10))) in *. change (fmul (IZR t) (rnd (6 / 10))) with x.
  assert (X0 : (0 <= x)%R) by (apply rnd_nonneg, P0). rewrite Ztrunc_floor by exact X0. pose proof (Zfloor_lb x) as Fl.
  assert (K : (IZR (10 * Zfloor x) < IZR (t * 6) + 1 / 1000)%R).
  { rewrite !mult_IZR. nra. }
  apply Znot_gt_le. intros G. assert (G1 : (t * 6 + 1 <= 10 * Zfloor x)%Z) by lia. apply IZR_le in G1. rewrite plus_IZR in G1. lra.
Qed.
(** How wide the bar is: unless it has only two cells it keeps within [bar_width], within six tenths of the terminal and
    leaves the last column free; and with one more cell it would not. *)
Theorem bar_as_wide_as_allowed : forall bw term c n timing marks blanks, bw <= 2 ^ 53 -> 0 <= c <= n -> 0 < n -> 0 <= term <= 1000 ->
  let line := bar_line bw term c n timing in
  line = lit "[" ++ repeat ">"%char marks ++ repeat " "%char blanks ++ lit "] " ++ str_nat c ++ lit "/" ++ str_nat n ++ lit ", " ++ timing ->
  let cells := Z.of_nat (marks + blanks) in
  (cells = 2 \/ (cells <= bw /\ 10 * cells <= 6 * term /\ Z.of_nat (length line) <= term - 1)) /\
  (bw < cells + 1 \/ 6 * term <= 10 * (cells + 1) \/ term - 1 < Z.of_nat (length line) + 1).
Proof.
  intros bw term c n timing marks blanks Hb Hc Hn Ht line E cells.
  pose proof (six_tenths term Ht) as S1. pose proof (six_tenths_le term Ht) as S2.
  assert (L : line = bar_line bw term c n timing) by reflexivity. unfold bar_line in L.
  set (len := 4 + Z.of_nat (length (bar_tail c n timing))) in *. set (w := bar_cells bw term len) in *.
  assert (M : 0 <= mark_cells w c n <= w) by (apply marks_in_bar; unfold w, bar_cells; lia).
  assert (Lw : Z.of_nat (length line) = 1 + w + (len - 4)).
  { rewrite L, !app_length, !Nat2Z.inj_add, bar_chars_length by exact M. unfold len. cbn [length lit String.list_ascii_of_string]. lia. }
  assert (Lc : Z.of_nat (length line) = 1 + cells + (len - 4)).
  { rewrite E. unfold len, bar_tail. rewrite !app_length, !repeat_length. unfold cells. cbn [length lit String.list_ascii_of_string]. lia. }
  assert (W : w = cells) by lia. unfold w, bar_cells in W. set (k := Ztrunc (fmul (IZR term) (rnd (6 / 10)))) in *. clearbody k line cells len. clear - W S1 S2 Lc. lia.
Qed.
Print Assumptions bar_as_wide_as_allowed.
Theorem line_fits_with_wrong_number_refuted :
  ~ (forall bw term c n timing, bw <= 2 ^ 53 -> 0 <= c -> 0 < n ->
       4 + Z.of_nat (length (bar_tail c n timing)) <= term -> Z.of_nat (length (bar_line bw term c n timing)) <= term - 1).
Proof.
  intros H. specialize (H 50 80 2 1 [] ltac:(lia) ltac:(lia) ltac:(lia)). unfold bar_line in H.
  replace (length (bar_tail 2 1 [])) with 7%nat in H by reflexivity. specialize (H ltac:(lia)).
  assert (C : 47 <= bar_cells 50 80 (4 + Z.of_nat 7) <= 50).
  { pose proof (six_tenths 80 ltac:(lia)). unfold bar_cells. lia. }
  set (w := bar_cells 50 80 (4 + Z.of_nat 7)) in *. rewrite marks_double in H by lia. unfold bar_chars in H. rewrite !app_length, !repeat_length in H.
  replace (length (bar_tail 2 1 [])) with 7%nat in H by reflexivity. cbn [length lit String.list_ascii_of_string] in H. lia.
Qed.
Print Assumptions line_fits_with_wrong_number_refuted.
(** The hypotheses of [line_fits_terminal] on an everyday case: 3 of 10 tasks, 80 columns. *)
Example ex_line_hyp : 4 + Z.of_nat (length (bar_tail 3 10 (lit "1.5 task/s, elapsed: 2s, ETA:     5s"))) = 48.
Proof. vm_compute. reflexivity. Qed.
Example ex_full : forall bw term timing, 2 <= bw <= 50 -> exists k, bar_line bw term 10 10 timing = lit "[" ++ repeat ">"%char k ++ lit "] 10/10, " ++ timing.
Proof.
  intros bw term timing H. destruct (line_shape bw term 10 10 timing ltac:(lia) ltac:(lia) ltac:(lia)) as (m & b & E & _ & _ & F).
  exists m. rewrite E, (proj2 F eq_refl). reflexivity.
Qed.
