(** Result files, PR curves: theorems. *)
From Verif Require Export ProofsResults SpecMetrics.
From Coq Require Import Lia ZifyBool ZifyNat Lqa.
Open Scope Z_scope.
Open Scope list_scope.

(** ** C09: result files *)
(** Every number, whatever its size and sign, is written so that it reads back within half a unit in
    the sixth decimal, and exactly if it has at most six decimals. *)
Theorem numbers_read_back : forall v, shows v (fixed6 v).
Proof. apply fixed6_shows. Qed.
Print Assumptions numbers_read_back.
Theorem six_decimals_read_back_exactly : forall v n, (v == inject_Z n / 1000000)%Q ->
  exists r, py_float (fixed6 v) = Ok (Fin r) /\ (r == v)%Q.
Proof.
  intros v n H. destruct (py_float_fixed6 v) as (r & E & R). exists r. split; [exact E|]. rewrite R. apply (read_back_exact v n). exact H.
Qed.
Print Assumptions six_decimals_read_back_exactly.
(** Reading back preserves the order of values. *)
Theorem read_back_keeps_order : forall v w a b, (v <= w)%Q ->
  py_float (fixed6 v) = Ok (Fin a) -> py_float (fixed6 w) = Ok (Fin b) -> (a <= b)%Q.
Proof.
  intros v w a b H Ea Eb. destruct (py_float_fixed6 v) as (a' & E & Ra). rewrite Ea in E. injection E as <-.
  destruct (py_float_fixed6 w) as (b' & E & Rb). rewrite Eb in E. injection E as <-. rewrite Ra, Rb. unfold read_back.
  assert (K : signed (is_neg v) (micros v) <= signed (is_neg w) (micros w)).
  { pose proof (micros_nonneg v). pose proof (micros_nonneg w).
    assert (Dv : is_neg v = true /\ (v < 0)%Q \/ is_neg v = false /\ (0 <= v)%Q).
    { unfold is_neg. destruct (Qle_bool 0 v) eqn:E; [right; apply Qle_bool_iff in E; auto|left; split; [reflexivity|]].
      apply Qnot_le_lt. intros C. apply Qle_bool_iff in C. congruence. }
    assert (Dw : is_neg w = true /\ (w < 0)%Q \/ is_neg w = false /\ (0 <= w)%Q).
    { unfold is_neg. destruct (Qle_bool 0 w) eqn:E; [right; apply Qle_bool_iff in E; auto|left; split; [reflexivity|]].
      apply Qnot_le_lt. intros C. apply Qle_bool_iff in C. congruence. }
    destruct Dv as [[Ev Pv]|[Ev Pv]], Dw as [[Ew Pw]|[Ew Pw]]; rewrite Ev, Ew; cbn [signed].
    - assert (micros w <= micros v); [|lia]. unfold micros. rewrite Ev, Ew. apply round_mono. apply Qmult_le_compat_r; [lra|unfold Qle; cbn; lia].
    - lia.
    - lra.
    - unfold micros. rewrite Ev, Ew. apply round_mono. apply Qmult_le_compat_r; [lra|unfold Qle; cbn; lia]. }
  unfold Qdiv. apply Qmult_le_compat_r; [rewrite <- Zle_Qle; exact K|]. unfold Qle; cbn; lia.
Qed.
Print Assumptions read_back_keeps_order.

(** The threshold file has one row of four numbers per threshold, in order. *)
Theorem threshold_file : forall root l s, exists t,
  save_threshold_metrics root l s (path_join root (lit "eval_bdry_thr.txt")) = Some t /\
  Forall2 (fun sc row => exists a b c d, row = [a; b; c; d] /\ shows (sc_t sc) a /\ shows (sc_r sc) b /\ shows (sc_p sc) c /\ shows (sc_f sc) d) l (table t).
Proof.
  intros root l s. unfold save_threshold_metrics. rewrite write_same. eexists. split; [reflexivity|].
  assert (E : map threshold_line l = map (fun t => t ++ [LF]) (map (fun sc => join_fields (map field [sc_t sc; sc_r sc; sc_p sc; sc_f sc])) l))
    by (rewrite map_map; reflexivity).
  rewrite E, table_lines.
  - clear E. induction l as [|sc l IH]; [constructor|]. rewrite map_map in *. cbn [map]. constructor; [|exact IH].
    assert (W := words_fields [sc_t sc; sc_r sc; sc_p sc; sc_f sc]). cbn [map] in W. rewrite W. do 4 eexists. split; [reflexivity|]. repeat split; apply fixed6_shows.
  - apply Forall_forall. intros u I. apply in_map_iff in I. destruct I as (sc & <- & _). apply plain_nolf, join_plain, fields_plain.
Qed.
Print Assumptions threshold_file.

(** The sample file has one row per sample, in order: the name and four numbers, provided names
    contain no white space. *)
Theorem sample_file : forall root l s, Forall (fun r => one_word (lit (r_name r))) l -> exists t,
  save_sample_metrics root l s (path_join root (lit "eval_bdry_img.txt")) = Some t /\
  Forall2 (fun r row => exists a b c d, row = [lit (r_name r); a; b; c; d] /\ shows (r_thr r) a /\ shows (r_rec r) b /\ shows (r_prec r) c /\ shows (r_f1 r) d) l (table t).
Proof.
  intros root l s H. unfold save_sample_metrics. rewrite write_same. eexists. split; [reflexivity|].
  assert (E : map sample_line l = map (fun t => t ++ [LF]) (map (fun r => join_fields (lit (r_name r) :: map field [r_thr r; r_rec r; r_prec r; r_f1 r])) l))
    by (rewrite map_map; reflexivity).
  rewrite E, table_lines.
  - clear E. induction H as [|r l Hr H IH]; [constructor|]. rewrite map_map in *. cbn [map]. constructor; [|exact IH].
    assert (W := words_name_fields (lit (r_name r)) [r_thr r; r_rec r; r_prec r; r_f1 r] Hr ltac:(discriminate)). cbn [map] in W. rewrite W. do 4 eexists. split; [reflexivity|]. repeat split; apply fixed6_shows.
  - apply Forall_forall. intros u I. apply in_map_iff in I. destruct I as (r & <- & I). apply join_forall; [reflexivity|].
    constructor; [apply nospace_nolf; rewrite Forall_forall in H; apply (H r I)|]. apply Forall_forall. intros x Ix. apply in_map_iff in Ix. destruct Ix as (v & <- & _).
    apply plain_nolf, field_plain.
Qed.
Print Assumptions sample_file.
(** A name with a space shifts the columns. *)
Theorem sample_file_any_name_refuted :
  ~ (forall root r s t, save_sample_metrics root [r] s (path_join root (lit "eval_bdry_img.txt")) = Some t ->
       Forall (fun row => List.length row = 5%nat) (table t)).
Proof.
  intros H. specialize (H [] (mkRow "a b" 0 0 0 0) (fun _ => None) _ eq_refl). vm_compute in H. inversion H as [|? ? E]. discriminate.
Qed.
Print Assumptions sample_file_any_name_refuted.

(** The overall file has a single row of nine numbers. *)
Theorem overall_file : forall root o name s, exists t row,
  save_overall_metric root o name s (path_join root name) = Some t /\ table t = [row] /\
  Forall2 shows [ODS_threshold o; ODS_recall o; ODS_precision o; ODS_f1 o; OIS_recall o; OIS_precision o; OIS_f1 o; AUC o; AP o] row.
Proof.
  intros root o name s. unfold save_overall_metric. rewrite write_same. eexists. exists (map fixed6 (overall_fields o)). split; [reflexivity|]. split.
  - unfold table. rewrite split_by_none by (apply plain_nolf, join_plain, fields_plain).
    assert (W := words_fields (overall_fields o)). set (u := join_fields (map field (overall_fields o))) in *. clearbody u.
    destruct u as [|c u]; [discriminate|]. cbn [drop_last_empty nonempty]. cbn [map]. rewrite W. reflexivity.
  - unfold overall_fields. cbn [map]. repeat (constructor; [apply fixed6_shows|]). constructor.
Qed.
Print Assumptions overall_file.

(** Which files [save_results] touches: each table is written if it is not empty, and nothing else
    changes. *)
Lemma startswith_app p t : startswith (p ++ t) p = true.
Proof. induction p as [|c p IH]; [destruct t; reflexivity|]. cbn [app startswith]. rewrite IH. rewrite (proj2 (Ascii.eqb_eq c c) eq_refl). reflexivity. Qed.
Lemma join_cases root n : startswith n (lit "/") = false -> exists p, path_join root n = p ++ n /\ forall m, startswith m (lit "/") = false -> path_join root m = p ++ m.
Proof.
  intros H. unfold path_join. rewrite H. destruct root as [|c r]; cbn [nonempty].
  - exists []. split; [reflexivity|]. intros m ->. reflexivity.
  - destruct (endswith (c :: r) (lit "/")).
    + exists (c :: r). split; [reflexivity|]. intros m ->. reflexivity.
    + exists ((c :: r) ++ ["/"%char]). split; [rewrite <- app_assoc; reflexivity|]. intros m ->. rewrite <- app_assoc. reflexivity.
Qed.
Lemma join_inj root a b : startswith a (lit "/") = false -> startswith b (lit "/") = false -> path_join root a = path_join root b -> a = b.
Proof.
  intros A B E. destruct (join_cases root a A) as (p & Ea & Eb). rewrite Ea, (Eb b B) in E. apply app_inv_head in E. exact E.
Qed.
Theorem save_results_writes : forall root samples ths o s q,
  save_results root samples ths o s q =
    if text_eqb q (path_join root (lit "eval_bdry.txt")) && (match o with Some _ => true | None => false end)
    then option_map (fun o => join_fields (map field (overall_fields o))) o
    else if text_eqb q (path_join root (lit "eval_bdry_thr.txt")) && nonempty ths then Some (List.concat (map threshold_line ths))
    else if text_eqb q (path_join root (lit "eval_bdry_img.txt")) && nonempty samples then Some (List.concat (map sample_line samples))
    else s q.
Proof.
  intros root samples ths o s q. unfold save_results.
  assert (D : forall a b, a <> b -> startswith a (lit "/") = false -> startswith b (lit "/") = false -> path_join root a <> path_join root b)
    by (intros a b N A B C; apply join_inj in C; auto).
  assert (W : forall p c s, write p c s q = if text_eqb q p then Some c else s q).
  { intros p c s0. unfold write, text_eqb. destruct (list_eq_dec ascii_dec p q), (list_eq_dec ascii_dec q p); congruence. }
  unfold save_overall_metric, save_threshold_metrics, save_sample_metrics. destruct o as [o|].
  - rewrite W. rewrite andb_true_r. cbn [option_map]. destruct (text_eqb q (path_join root (lit "eval_bdry.txt"))); [reflexivity|].
    destruct (nonempty ths); [rewrite W, andb_true_r; destruct (text_eqb q (path_join root (lit "eval_bdry_thr.txt"))); [reflexivity|]|rewrite andb_false_r];
    (destruct (nonempty samples); [rewrite W, andb_true_r; reflexivity|rewrite andb_false_r; reflexivity]).
  - rewrite andb_false_r.
    destruct (nonempty ths); [rewrite W, andb_true_r; destruct (text_eqb q (path_join root (lit "eval_bdry_thr.txt"))); [reflexivity|]|rewrite andb_false_r];
    (destruct (nonempty samples); [rewrite W, andb_true_r; reflexivity|rewrite andb_false_r; reflexivity]).
Qed.
Print Assumptions save_results_writes.

(** Different categories never share a directory. *)
Lemma digit_char_inj ds es : is_digits ds -> is_digits es -> map digit_char ds = map digit_char es -> ds = es.
Proof.
  intros H. revert es. induction H as [|d ds Hd H IH]; intros [|e es] G E; try discriminate; [reflexivity|]. inversion G; subst. cbn [map] in E.
  assert (E1 : digit_char d = digit_char e) by congruence. assert (E2 : map digit_char ds = map digit_char es) by congruence.
  f_equal; [|apply IH; assumption]. apply (f_equal code) in E1. rewrite !code_digit in E1 by assumption. lia.
Qed.
Theorem category_directories_distinct : forall root a b, 0 <= a -> 0 <= b -> category_dir root a = category_dir root b -> a = b.
Proof.
  intros root a b Ha Hb E. unfold category_dir in E. apply join_inj in E; [|reflexivity|reflexivity]. apply app_inv_head in E. unfold str_zfill in E.
  apply digit_char_inj in E; [|apply zfill_digits, digits_are_digits; assumption|apply zfill_digits, digits_are_digits; assumption].
  apply (f_equal undigits) in E. rewrite !undigits_zfill, !undigits_digits in E by assumption. exact E.
Qed.
Print Assumptions category_directories_distinct.

(** ** C10: plotting *)
(** numpy reads the numbers of the saved threshold file back (two or more thresholds). *)
Theorem threshold_file_loads : forall root l s, (2 <= List.length l)%nat -> exists t rows,
  save_threshold_metrics root l s (path_join root (lit "eval_bdry_thr.txt")) = Some t /\ loadtxt t = Ok (A2 rows) /\
  Forall2 (fun sc row => exists a b c d, row = [Fin a; Fin b; Fin c; Fin d] /\
     (Qabs (a - sc_t sc) <= 1 # 2000000)%Q /\ (Qabs (b - sc_r sc) <= 1 # 2000000)%Q /\ (Qabs (c - sc_p sc) <= 1 # 2000000)%Q /\ (Qabs (d - sc_f sc) <= 1 # 2000000)%Q) l rows.
Proof.
  intros root l s Hl. unfold save_threshold_metrics. rewrite write_same. set (ll := map (fun sc => [sc_t sc; sc_r sc; sc_p sc; sc_f sc]) l).
  assert (E : List.concat (map threshold_line l) = List.concat (map (fun u => u ++ [LF]) (map (fun l => join_fields (map field l)) ll))).
  { unfold ll. rewrite !map_map. reflexivity. }
  destruct (loadtxt_lines ll 4 (List.concat (map threshold_line l))) as (rss & El & F).
  - lia.
  - unfold ll. apply Forall_forall. intros x I. apply in_map_iff in I. destruct I as (sc & <- & _). reflexivity.
  - unfold ll. destruct l; [cbn in Hl; lia|discriminate].
  - left. exact E.
  - exists (List.concat (map threshold_line l)), (map (map Fin) rss). split; [reflexivity|]. split.
    + rewrite El. f_equal. unfold ll in F. destruct l as [|a [|b l]]; [cbn in Hl; lia|cbn in Hl; lia|]. clear - F. cbn [map] in F.
      inversion F as [|? ra ? rss' Fa F']; subst. inversion F' as [|? rb ? rss'' Fb F'']; subst. apply F2_length in Fa.
      destruct ra as [|x [|y ra]]; [discriminate|discriminate|]. reflexivity.
    + unfold ll in F. clear - F. remember (map (fun sc => [sc_t sc; sc_r sc; sc_p sc; sc_f sc]) l) as ll eqn:E. revert l E.
      induction F as [|x y ll rss H F IH]; intros [|sc l] E; try discriminate; [constructor|]. injection E as -> E. cbn [map]. constructor; [|apply IH, E].
      inversion H as [|? a ? ? Ra H1]; subst. inversion H1 as [|? b ? ? Rb H2]; subst. inversion H2 as [|? c ? ? Rc H3]; subst. inversion H3 as [|? d ? ? Rd H4]; subst. inversion H4; subst.
      exists a, b, c, d. split; [reflexivity|]. rewrite Ra, Rb, Rc, Rd. repeat split; apply read_back_close.
Qed.
Print Assumptions threshold_file_loads.

(** The points that are plotted: the rows of the file, in order, whose recall (the second number) is at
    least 0.001; in particular every threshold with recall at least 0.0010005 and none with recall below
    0.0009995. *)
Theorem plotted_points : forall root l s, (2 <= List.length l)%nat -> exists full : list (Q * Q * Q * Q),
  Forall2 (fun sc row => let '(a, b, c, d) := row in (Qabs (a - sc_t sc) <= 1 # 2000000)%Q /\ (Qabs (b - sc_r sc) <= 1 # 2000000)%Q /\
     (Qabs (c - sc_p sc) <= 1 # 2000000)%Q /\ (Qabs (d - sc_f sc) <= 1 # 2000000)%Q) l full /\
  load_threshold_data (save_threshold_metrics root l s) (path_join root (lit "eval_bdry_thr.txt"))
  = Ok (map (fun row => let '(a, b, c, d) := row in [Fin a; Fin b; Fin c; Fin d]) (filter (fun row => let '(_, recall, _, _) := row in Qle_bool (1 # 1000) recall) full)).
Proof.
  intros root l s Hl. destruct (threshold_file_loads root l s Hl) as (t & rows & E & L & F). unfold load_threshold_data, open_text. rewrite E. cbn [bind]. rewrite L. cbn [bind]. clear - F.
  assert (X : exists full : list (Q * Q * Q * Q), Forall2 (fun sc row => let '(a, b, c, d) := row in (Qabs (a - sc_t sc) <= 1 # 2000000)%Q /\ (Qabs (b - sc_r sc) <= 1 # 2000000)%Q /\
     (Qabs (c - sc_p sc) <= 1 # 2000000)%Q /\ (Qabs (d - sc_f sc) <= 1 # 2000000)%Q) l full /\ rows = map (fun row => let '(a, b, c, d) := row in [Fin a; Fin b; Fin c; Fin d]) full).
  { induction F as [|sc row l rows (a & b & c & d & -> & A & B & C & D) F (full & G & ->)]; [exists []; split; [constructor|reflexivity]|].
    exists ((a, b, c, d) :: full). split; [constructor; [auto|exact G]|reflexivity]. }
  destruct X as (full & G & ->). exists full. split; [exact G|].
  replace (forallb _ _) with true.
  2:{ symmetry. apply forallb_forall. intros r I. apply in_map_iff in I. destruct I as ([[[a b] c] d] & <- & _). reflexivity. }
  f_equal. clear. induction full as [|[[[a b] c] d] full IH]; [reflexivity|]. cbn [map filter nth pf_ge]. destruct (Qle_bool (1 # 1000) b); cbn [map]; rewrite IH; reflexivity.
Qed.
Print Assumptions plotted_points.

(** The plotting code never succeeds on the files written by [save_results], whatever the results:
    with two or more thresholds the overall file has nine numbers where eight are expected
    (ValueError), with a single threshold the threshold file is read as a vector (IndexError), and
    without thresholds there is no file. *)
Theorem saved_results_cannot_be_plotted : forall root samples ths o s,
  (forall q, s q = None) ->
  load_algorithm (save_results root samples ths (Some o) s) (path_join root (lit "eval_bdry_thr.txt")) (path_join root (lit "eval_bdry.txt"))
  = Err match ths with [] => AssertionError | [_] => IndexError | _ => ValueError end.
Proof.
  intros root samples ths o s Hs. unfold load_algorithm, load_threshold_data, open_text.
  assert (N : forall a b, a <> b -> startswith a (lit "/") = false -> startswith b (lit "/") = false -> text_eqb (path_join root a) (path_join root b) = false).
  { intros a b D A B. destruct (text_eqb _ _) eqn:E; [|reflexivity]. apply text_eqb_spec in E. apply join_inj in E; [contradiction|assumption|assumption]. }
  rewrite !save_results_writes. rewrite (N (lit "eval_bdry_thr.txt") (lit "eval_bdry.txt")) by (solve [discriminate|reflexivity]). rewrite text_eqb_refl. cbn [andb].
  destruct ths as [|a [|b ths]].
  - cbn [nonempty andb]. rewrite (N (lit "eval_bdry_thr.txt") (lit "eval_bdry_img.txt")) by (solve [discriminate|reflexivity]). cbn [andb]. rewrite Hs. reflexivity.
  - cbn [nonempty bind].
    destruct (loadtxt_lines [[sc_t a; sc_r a; sc_p a; sc_f a]] 4 (List.concat (map threshold_line [a]))) as (rss & El & F);
      [lia|repeat constructor|discriminate|left; reflexivity|].
    rewrite El. cbn [bind]. inversion F as [|? ra ? ? Fa F']; subst. inversion F'; subst. apply F2_length in Fa. destruct ra as [|x [|y ra]]; [discriminate|discriminate|]. reflexivity.
  - cbn [nonempty bind].
    destruct (loadtxt_lines (map (fun sc => [sc_t sc; sc_r sc; sc_p sc; sc_f sc]) (a :: b :: ths)) 4 (List.concat (map threshold_line (a :: b :: ths)))) as (rss & El & F).
    + lia.
    + apply Forall_forall. intros x I. apply in_map_iff in I. destruct I as (sc & <- & _). reflexivity.
    + discriminate.
    + left. rewrite !map_map. reflexivity.
    + rewrite El. cbn [bind map] in *. inversion F as [|? ra ? rss' Fa F']; subst. inversion F' as [|? rb ? rss'' Fb F'']; subst. assert (La := F2_length _ _ _ Fa).
      destruct ra as [|x [|y ra]]; [discriminate|discriminate|]. cbn [map squeeze List.length Nat.eqb].
      assert (B : forallb (fun r => Nat.ltb 1 (List.length r)) ((Fin x :: Fin y :: map Fin ra) :: map Fin rb :: map (map Fin) rss'') = true).
      { change ((Fin x :: Fin y :: map Fin ra) :: map Fin rb :: map (map Fin) rss'') with (map (map Fin) ((x :: y :: ra) :: rb :: rss'')).
        apply forallb_forall. intros r I. apply in_map_iff in I. destruct I as (r0 & <- & I). rewrite map_length.
        assert (L4 : List.length r0 = 4%nat); [|rewrite L4; reflexivity].
        clear - F I. change ([sc_t a; sc_r a; sc_p a; sc_f a] :: [sc_t b; sc_r b; sc_p b; sc_f b] :: map (fun sc => [sc_t sc; sc_r sc; sc_p sc; sc_f sc]) ths)
          with (map (fun sc => [sc_t sc; sc_r sc; sc_p sc; sc_f sc]) (a :: b :: ths)) in F.
        set (l := a :: b :: ths) in *. clearbody l. revert l F. generalize dependent ((x :: y :: ra) :: rb :: rss''). intros rss I l.
        revert l. induction rss as [|r rss IH]; intros l F; [destruct I|]. destruct l as [|sc l]; [inversion F|]. cbn [map] in F. inversion F; subst.
        destruct I as [->|I]; [|eapply IH; eassumption]. apply F2_length in H2. symmetry. exact H2. }
      rewrite B. cbn [bind]. unfold load_overall_row, open_text. rewrite !save_results_writes, text_eqb_refl. cbn [andb option_map bind].
      destruct (loadtxt_lines [overall_fields o] 9 (join_fields (map field (overall_fields o)))) as (rso & Elo & Fo);
        [lia|repeat constructor|discriminate|right; eexists; split; reflexivity|].
      rewrite Elo. cbn [bind]. inversion Fo as [|? ro ? ? Foo Fo']; subst. inversion Fo'; subst. apply F2_length in Foo. cbn [overall_fields List.length] in Foo.
      destruct ro as [|r0 [|r1 ro]]; [discriminate|discriminate|]. cbn [map squeeze List.length Nat.eqb bind]. cbn [List.length] in Foo.
      destruct ro as [|? [|? [|? [|? [|? [|? [|? ro]]]]]]]; try discriminate. reflexivity.
Qed.
Print Assumptions saved_results_cannot_be_plotted.
Theorem saved_results_plot_refuted :
  ~ (forall root samples ths o, (2 <= List.length ths)%nat ->
       exists r, load_algorithm (save_results root samples ths (Some o) (fun _ => None)) (path_join root (lit "eval_bdry_thr.txt")) (path_join root (lit "eval_bdry.txt")) = Ok r).
Proof.
  intros H. destruct (H [] [] [(0, 0, 0, 0); (0, 0, 0, 0)]%Q (mkOverall 0 0 0 0 0 0 0 0 0) (le_n 2)) as (r & E).
  rewrite saved_results_cannot_be_plotted in E by reflexivity. discriminate.
Qed.
Print Assumptions saved_results_plot_refuted.
(** A file with eight numbers, as written by the original MATLAB code, is accepted. *)
Theorem eight_columns_accepted : forall s p l, List.length l = 8%nat -> s p = Some (join_fields (map field l)) ->
  exists rs, load_overall_row s p = Ok (map Fin rs) /\ Forall2 (fun v r => Qabs (r - v) <= 1 # 2000000)%Q l rs.
Proof.
  intros s p l L H. unfold load_overall_row, open_text. rewrite H. cbn [bind].
  destruct (loadtxt_lines [l] 8 (join_fields (map field l))) as (rso & Elo & Fo);
    [lia|repeat constructor; assumption|discriminate|right; eexists; split; reflexivity|].
  rewrite Elo. cbn [bind]. inversion Fo as [|? ro ? ? Foo Fo']; subst. inversion Fo'; subst. exists ro. split.
  - assert (Lr := F2_length _ _ _ Foo). rewrite L in Lr. destruct ro as [|r0 [|r1 ro]]; [discriminate|discriminate|]. cbn [map squeeze]. cbn [List.length] in *. rewrite map_length.
    rewrite <- Lr. reflexivity.
  - clear - Foo. induction Foo as [|v r l ro H F IH]; [constructor|]. constructor; [|exact IH]. rewrite H. apply read_back_close.
Qed.
Print Assumptions eight_columns_accepted.

(** ** C45: curves of constant F1 *)
(** Every point of the curve of level f has F1 equal to f (the F-measure is that of
    SpecMetrics: 2pr/(p+r)), and lies in the unit square. *)
Lemma iso_levels_range f : In f iso_levels -> ((1 # 10) <= f <= (9 # 10))%Q.
Proof. unfold iso_levels. cbn [seq map In]. intros H. repeat destruct H as [<-|H]; try contradiction; split; vm_compute; discriminate. Qed.
Lemma f1_val p r : ~ (p + r == 0)%Q -> (f1 p r == 2 * p * r / (p + r))%Q.
Proof. intros H. unfold f1. destruct (Qeq_bool (p + r) 0) eqn:E; [apply Qeq_bool_iff in E; contradiction|]. rewrite Qplus_0_r. reflexivity. Qed.
Lemma f1_sym p r : (f1 p r == f1 r p)%Q.
Proof.
  destruct (Qeq_dec (p + r) 0) as [E|E].
  - unfold f1. assert (E1 : Qeq_bool (p + r) 0 = true) by (apply Qeq_bool_iff, E). assert (E2 : Qeq_bool (r + p) 0 = true) by (apply Qeq_bool_iff; lra).
    rewrite E1, E2, E. assert (E3 : (r + p == 0)%Q) by lra. rewrite E3. field.
  - rewrite !f1_val by lra. field. lra.
Qed.
Lemma iso_value f r : (0 < f)%Q -> (f <= r)%Q -> (0 < iso_p f r)%Q /\ (f1 (iso_p f r) r == f)%Q.
Proof.
  intros Hf Hr. assert (D : (0 < 2 * r - f)%Q) by lra. assert (P : (0 < iso_p f r)%Q).
  { unfold iso_p, Qdiv. apply Qmult_lt_0_compat; [apply Qmult_lt_0_compat; lra|apply Qinv_lt_0_compat, D]. }
  split; [exact P|]. rewrite f1_val by lra. assert (Ei : (iso_p f r * (2 * r - f) == f * r)%Q) by (unfold iso_p; field; lra).
  set (p := iso_p f r) in *. clearbody p. assert (N : (2 * p * r == f * (p + r))%Q).
  { assert (X : (p * (2 * r - f) == 2 * p * r - f * p)%Q) by ring. rewrite X in Ei. assert (Y : (f * (p + r) == f * p + f * r)%Q) by ring. rewrite Y. lra. }
  rewrite N. field. lra.
Qed.
Lemma iso_recall_range f r : ((1 # 10) <= f <= (9 # 10))%Q -> In r (iso_recalls f) -> (f <= r)%Q /\ (r < 101 # 100)%Q.
Proof.
  intros Hf I. unfold iso_recalls in I. apply in_map_iff in I. destruct I as (k & <- & I). apply in_seq in I.
  set (n := Qceiling (((101 # 100) - f) / (1 # 100))) in *. assert (C := Qceiling_lt (((101 # 100) - f) / (1 # 100))). fold n in C.
  assert (Ek : (inject_Z (Z.of_nat k) <= inject_Z (n - 1))%Q) by (rewrite <- Zle_Qle; lia).
  assert (E0 : (inject_Z 0 <= inject_Z (Z.of_nat k))%Q) by (rewrite <- Zle_Qle; lia). change (inject_Z 0) with 0%Q in E0.
  assert (E1 : (inject_Z (Z.of_nat k) / 100 == inject_Z (Z.of_nat k) * (1 # 100))%Q) by reflexivity.
  assert (E2 : (((101 # 100) - f) / (1 # 100) == ((101 # 100) - f) * 100)%Q) by reflexivity. rewrite E1. rewrite E2 in C. split; lra.
Qed.
Theorem iso_curve_has_constant_f1 : forall f r p, In f iso_levels -> In (r, p) (iso_curve f) \/ In (p, r) (iso_mirror f) ->
  (f1 p r == f)%Q /\ (f <= r < 101 # 100)%Q /\ (0 < p <= r)%Q.
Proof.
  intros f r p Hf H. apply iso_levels_range in Hf.
  assert (K : In r (iso_recalls f) /\ p = iso_p f r).
  { destruct H as [H|H]; apply in_map_iff in H; destruct H as (x & E & I); injection E as <- <-; auto. }
  destruct K as [I ->]. destruct (iso_recall_range f r Hf I) as [A B]. destruct (iso_value f r ltac:(lra) A) as [P V].
  split; [exact V|]. split; [split; assumption|]. split; [exact P|]. unfold iso_p. assert (D : (0 < 2 * r - f)%Q) by lra.
  apply Qle_shift_div_r; [exact D|]. assert (K : (0 <= r * (r - f))%Q) by (apply Qmult_le_0_compat; lra).
  assert (E : (r * (2 * r - f) == f * r + 2 * (r * (r - f)))%Q) by ring. rewrite E. lra.
Qed.
Print Assumptions iso_curve_has_constant_f1.
(** Swapping precision and recall: the mirrored points have the same F1. *)
Theorem iso_mirror_has_constant_f1 : forall f r p, In f iso_levels -> In (r, p) (iso_mirror f) -> (f1 p r == f)%Q.
Proof.
  intros f r p Hf H. destruct (iso_curve_has_constant_f1 f p r Hf (or_intror H)) as (V & B & P). rewrite <- V. apply f1_sym.
Qed.
Print Assumptions iso_mirror_has_constant_f1.
(** Together the two branches are the whole curve: a point with F1 = f and recall (or precision) on
    the sampled grid is drawn. *)
Theorem iso_curves_are_complete : forall f p r, (0 < f)%Q -> (0 <= p)%Q -> (0 <= r)%Q -> (f1 p r == f)%Q ->
  (f <= r)%Q /\ (p == iso_p f r)%Q \/ (f <= p)%Q /\ (r == iso_p f p)%Q.
Proof.
  assert (H : forall f p r, (0 < f)%Q -> (0 <= p)%Q -> (p <= r)%Q -> (f1 p r == f)%Q -> (f <= r)%Q /\ (p == iso_p f r)%Q).
  { intros f p r Hf Hp Hr E. destruct (Qeq_dec (p + r) 0) as [E0|S].
    - exfalso. assert (P0 : (p == 0)%Q) by lra. unfold f1 in E. assert (E1 : Qeq_bool (p + r) 0 = true) by (apply Qeq_bool_iff, E0).
      rewrite E1, E0, P0 in E. assert (Z0 : (2 * 0 * r / (0 + 1) == 0)%Q) by field. rewrite Z0 in E. lra.
    - rewrite f1_val in E by exact S. assert (S' : (0 < p + r)%Q) by lra.
      assert (M : (2 * p * r == f * (p + r))%Q) by (rewrite <- E; field; exact S).
      assert (F : (f <= r)%Q).
      { apply Qnot_lt_le. intros C. assert (K1 : (0 < (f - r) * (p + r))%Q) by (apply Qmult_lt_0_compat; lra).
        assert (K2 : (0 <= r * (r - p))%Q) by (apply Qmult_le_0_compat; lra).
        assert (K3 : ((f - r) * (p + r) == f * (p + r) - p * r - r * r)%Q) by ring. assert (K4 : (r * (r - p) == r * r - p * r)%Q) by ring. 
        assert (K5 : (2 * p * r == 2 * (p * r))%Q) by ring. lra. }
      split; [exact F|]. unfold iso_p. assert (D : (0 < 2 * r - f)%Q) by lra.
      assert (K : (p * (2 * r - f) == f * r)%Q). { assert (K1 : (p * (2 * r - f) == 2 * p * r - f * p)%Q) by ring. rewrite K1, M. ring. }
      rewrite <- K. field. lra. }
  intros f p r Hf Hp Hr E. destruct (Qlt_le_dec r p) as [L|L].
  - right. apply H; try assumption; try lra. rewrite <- E. apply f1_sym.
  - left. apply H; assumption.
Qed.
Print Assumptions iso_curves_are_complete.
Example ex_iso : List.length (iso_curve (1 # 2)) = 51%nat /\ In (1 # 2)%Q (map Qred iso_levels).
Proof. split; [vm_compute; reflexivity|]. vm_compute. tauto. Qed.
Example ex_line : threshold_line (1 # 2, 1 # 3, 2 # 3, 1 # 7000000)%Q = lit "0.500000   0.333333   0.666667   0.000000  " ++ [LF].
Proof. vm_compute. reflexivity. Qed.
Example ex_field : field (123456789 # 8) = lit "15432098.625000" /\ field (-5 # 2) = lit "-2.500000 ".
Proof. split; vm_compute; reflexivity. Qed.
