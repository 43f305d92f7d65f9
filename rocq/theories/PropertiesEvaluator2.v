(** Evaluating categories: theorems. *)
From Verif Require Export PropertiesEvaluator.
From Coq Require Import Lia ZifyBool ZifyNat Lqa Permutation.
Open Scope Z_scope.
Open Scope list_scope.

(** ** C36 *)
Lemma categories_of_spec n a l : categories_of n a = Ok l <-> requested n a l.
Proof.
  destruct a as [| |[|c l']|]; cbn [categories_of requested].
  - destruct n; split; intros H; [discriminate|destruct H; lia|injection H as <-; split; [reflexivity|lia]|destruct H as [-> _]; reflexivity].
  - split; intros H; [injection H as <-; reflexivity|subst; reflexivity].
  - split; [discriminate|intros [_ H]; congruence].
  - split; intros H; [injection H as <-; split; [reflexivity|discriminate]|destruct H as [-> _]; reflexivity].
  - split; [discriminate|contradiction].
Qed.
Lemma categories_of_err n a : (forall l, ~ requested n a l) -> categories_of n a = Err AssertionError.
Proof.
  intros H. destruct (categories_of n a) as [l|e] eqn:E; [exfalso; apply (H l), categories_of_spec, E|].
  destruct a as [| |[|c l']|]; cbn [categories_of] in E; try congruence. destruct n; congruence.
Qed.
Lemma valid_category_spec n c : (0 <? c) && (c <? Z.of_nat n + 1) = true <-> valid_category n c.
Proof. unfold valid_category. lia. Qed.

(** *** where the files are *)
Lemma endswith_slash p : endswith (p ++ ["/"%char]) (lit "/") = true.
Proof. unfold endswith. rewrite rev_app_distr. cbn. destruct (rev p); reflexivity. Qed.
Lemma endswith_last p c : endswith (p ++ [c]) (lit "/") = Ascii.eqb "/" c.
Proof. unfold endswith. rewrite rev_app_distr. cbn. destruct (rev p); apply andb_true_r. Qed.
Lemma zfill_last w n : 0 <= n -> exists ds d, zfill w (digits n) = ds ++ [d] /\ is_digits ds /\ 0 <= d <= 9.
Proof.
  intros H. assert (D := zfill_digits w _ (digits_are_digits n H)). assert (N : zfill w (digits n) <> []) by (apply zfill_nonempty, digits_nonempty, H).
  destruct (exists_last N) as (ds & d & E). exists ds, d. split; [exact E|]. rewrite E in D. apply Forall_app in D. destruct D as [A B]. inversion B; subst. auto.
Qed.
Lemma cat_file_eq dir : exists p, forall c name, 0 <= c -> startswith name (lit "/") = false ->
  cat_file dir c name = p ++ lit "class_" ++ str_zfill 3 c ++ "/"%char :: name.
Proof.
  destruct (join_cases dir (lit "class_") eq_refl) as (p & _ & K). exists p. intros c name Hc Hn. unfold cat_file, category_dir.
  rewrite (K (lit "class_" ++ str_zfill 3 c)) by reflexivity. unfold path_join. rewrite Hn.
  destruct (zfill_last 3 c Hc) as (ds & d & E & Hd & B). unfold str_zfill. rewrite E, map_app. cbn [map].
  assert (NE : nonempty (p ++ lit "class_" ++ map digit_char ds ++ [digit_char d]) = true) by (destruct p; reflexivity). rewrite NE.
  rewrite !app_assoc. rewrite endswith_last. destruct (Ascii.eqb_spec "/" (digit_char d)) as [C|C].
  - exfalso. assert (X := digit_is_digit d B). rewrite <- C in X. discriminate.
  - rewrite <- !app_assoc. reflexivity.
Qed.
Lemma digits_slash_inj ds es a b : is_digits ds -> is_digits es -> map digit_char ds ++ "/"%char :: a = map digit_char es ++ "/"%char :: b -> ds = es /\ a = b.
Proof.
  intros H. revert es. induction H as [|d ds Hd H IH]; intros [|e es] G E.
  - cbn in E. injection E as <-. auto.
  - inversion G; subst. cbn [map app] in E. exfalso. assert (X := digit_is_digit e ltac:(assumption)). assert (Y : "/"%char = digit_char e) by congruence. rewrite <- Y in X. discriminate.
  - cbn [map app] in E. exfalso. assert (X := digit_is_digit d Hd). assert (Y : digit_char d = "/"%char) by congruence. rewrite Y in X. discriminate.
  - inversion G; subst. cbn [map app] in E. assert (E1 : digit_char d = digit_char e) by congruence. assert (E2 : map digit_char ds ++ "/"%char :: a = map digit_char es ++ "/"%char :: b) by congruence.
    destruct (IH es ltac:(assumption) E2) as [-> ->]. split; [|reflexivity]. f_equal. apply (f_equal code) in E1. rewrite !code_digit in E1 by assumption. lia.
Qed.
Lemma cat_file_inj dir c c' n n' : 0 <= c -> 0 <= c' -> startswith n (lit "/") = false -> startswith n' (lit "/") = false ->
  cat_file dir c n = cat_file dir c' n' -> c = c' /\ n = n'.
Proof.
  intros Hc Hc' Hn Hn' E. destruct (cat_file_eq dir) as (p & K). rewrite !K in E by assumption. apply app_inv_head, app_inv_head in E. unfold str_zfill in E.
  apply digits_slash_inj in E; [|apply zfill_digits, digits_are_digits; assumption|apply zfill_digits, digits_are_digits; assumption]. destruct E as [E ->]. split; [|reflexivity].
  apply (f_equal undigits) in E. rewrite !undigits_zfill, !undigits_digits in E by assumption. exact E.
Qed.
Lemma overall_not_cat dir c n : 0 <= c -> startswith n (lit "/") = false -> path_join dir (lit "overall_eval_bdry.txt") <> cat_file dir c n.
Proof.
  intros Hc Hn E. destruct (join_cases dir (lit "class_") eq_refl) as (p & _ & K). unfold cat_file, category_dir in E.
  rewrite (K (lit "overall_eval_bdry.txt")) in E by reflexivity. rewrite (K (lit "class_" ++ str_zfill 3 c)) in E by reflexivity.
  unfold path_join in E. rewrite Hn in E. assert (NE : nonempty (p ++ lit "class_" ++ str_zfill 3 c) = true) by (destruct p; reflexivity). rewrite NE in E.
  destruct (endswith _ _); rewrite <- !app_assoc in E; apply app_inv_head in E; discriminate.
Qed.
Lemma names_ok : startswith (lit "eval_bdry.txt") (lit "/") = false /\ startswith (lit "eval_bdry_thr.txt") (lit "/") = false /\ startswith (lit "eval_bdry_img.txt") (lit "/") = false.
Proof. repeat split. Qed.

Definition is_cat_file (dir : text) (c : Z) (q : text) : Prop :=
  q = cat_file dir c (lit "eval_bdry.txt") \/ q = cat_file dir c (lit "eval_bdry_thr.txt") \/ q = cat_file dir c (lit "eval_bdry_img.txt").
Lemma text_eqb_false a b : a <> b -> text_eqb a b = false.
Proof. intros H. destruct (text_eqb a b) eqn:E; [apply text_eqb_spec in E; contradiction|reflexivity]. Qed.
Lemma save_category_holds dir c rows ths o s : 0 <= c -> holds_result (save_category_results dir c rows ths (Some o) s) dir c (rows, ths, o).
Proof.
  intros Hc. unfold save_category_results, holds_result. destruct names_ok as (N1 & N2 & N3). unfold cat_file.
  assert (D : forall a b, a <> b -> startswith a (lit "/") = false -> startswith b (lit "/") = false -> text_eqb (path_join (category_dir dir c) a) (path_join (category_dir dir c) b) = false)
    by (intros a b N A B; apply text_eqb_false; intros E; apply join_inj in E; auto).
  repeat split; [intros Nr|intros Nt|]; rewrite save_results_writes.
  - rewrite !D by (solve [assumption|discriminate]). rewrite text_eqb_refl. cbn [andb]. destruct rows; [congruence|reflexivity].
  - rewrite !D by (solve [assumption|discriminate]). rewrite text_eqb_refl. cbn [andb]. destruct ths; [congruence|reflexivity].
  - rewrite text_eqb_refl. reflexivity.
Qed.
Lemma save_category_other dir c rows ths o s q : ~ is_cat_file dir c q -> save_category_results dir c rows ths (Some o) s q = s q.
Proof.
  intros N. unfold save_category_results. rewrite save_results_writes. unfold is_cat_file, cat_file in N.
  rewrite !text_eqb_false by tauto. reflexivity.
Qed.

Section Loop.
Variables (n : nat) (compute : Z -> res cat_result).
Definition good (c : Z) (r : cat_result) : Prop := valid_category n c /\ compute c = Ok r.
(** The files after saving the given results. *)
Definition saved (dir : option text) (crs : list (Z * cat_result)) (s : fs) : fs :=
  match dir with
  | None => s
  | Some d => fold_left (fun s cr => let '(c, (rows, ths, o)) := cr in save_category_results d c rows ths (Some o) s) crs s
  end.
Lemma evaluate_category_good dir c r s : good c r -> evaluate_category n compute dir c s = (Ok (r_overall r), saved dir [(c, r)] s).
Proof.
  intros [V E]. unfold evaluate_category. rewrite (proj2 (valid_category_spec n c) V), E. destruct r as [[rows ths] o]. cbn. destruct dir; reflexivity.
Qed.
Lemma evaluate_category_bad dir c s : (forall r, ~ good c r) -> exists e, evaluate_category n compute dir c s = (Err e, s) /\ (~ valid_category n c -> e = AssertionError) /\ (valid_category n c -> compute c = Err e).
Proof.
  intros N. unfold evaluate_category. destruct ((0 <? c) && (c <? Z.of_nat n + 1)) eqn:V.
  - apply valid_category_spec in V. destruct (compute c) as [r|e] eqn:E; [exfalso; apply (N r); split; assumption|]. exists e. cbn. repeat split; tauto.
  - exists AssertionError. cbn. repeat split. intros C. apply valid_category_spec in C. congruence.
Qed.
Lemma saved_cons dir c r crs s : saved dir ((c, r) :: crs) s = saved dir crs (saved dir [(c, r)] s).
Proof. destruct dir; reflexivity. Qed.
Lemma loop_good dir cats rs : Forall2 good cats rs -> forall s, category_loop n compute dir cats s = (Ok (map r_overall rs), saved dir (combine cats rs) s).
Proof.
  induction 1 as [|c r cats rs G F IH]; intros s; [destruct dir; reflexivity|]. cbn [category_loop]. rewrite (evaluate_category_good dir c r s G), IH. cbn [map combine].
  rewrite (saved_cons dir c r (combine cats rs) s). reflexivity.
Qed.
Lemma loop_bad dir pre rs c post : Forall2 good pre rs -> (forall r, ~ good c r) -> forall s, exists e,
  category_loop n compute dir (pre ++ c :: post) s = (Err e, saved dir (combine pre rs) s) /\ (~ valid_category n c -> e = AssertionError) /\ (valid_category n c -> compute c = Err e).
Proof.
  intros F N. induction F as [|c' r pre rs G F IH]; intros s.
  - cbn [app category_loop]. destruct (evaluate_category_bad dir c s N) as (e & E & K). rewrite E. exists e. split; [destruct dir; reflexivity|exact K].
  - cbn [app category_loop]. rewrite (evaluate_category_good dir c' r s G). destruct (IH (saved dir [(c', r)] s)) as (e & E & K). rewrite E. exists e. split; [|exact K].
    cbn [combine]. rewrite (saved_cons dir c' r (combine pre rs) s). reflexivity.
Qed.
Lemma loop_split cats : (exists rs, Forall2 good cats rs) \/ exists pre rs c post, cats = pre ++ c :: post /\ Forall2 good pre rs /\ forall r, ~ good c r.
Proof.
  induction cats as [|c cats IH]; [left; exists []; constructor|].
  assert (D : (exists r, good c r) \/ forall r, ~ good c r).
  { unfold good. destruct ((0 <? c) && (c <? Z.of_nat n + 1)) eqn:V.
    - apply valid_category_spec in V. destruct (compute c) as [r|e]; [left; exists r; auto|right; intros r [_ C]; discriminate].
    - right. intros r [C _]. apply valid_category_spec in C. congruence. }
  destruct D as [[r G]|N].
  - destruct IH as [(rs & F)|(pre & rs & c' & post & -> & F & N)].
    + left. exists (r :: rs). constructor; assumption.
    + right. exists (c :: pre), (r :: rs), c', post. split; [reflexivity|]. split; [constructor; assumption|exact N].
  - right. exists [], [], c, cats. split; [reflexivity|]. split; [constructor|exact N].
Qed.
(** Saved results stay as they were written. *)
Lemma saved_other d q crs : (forall c r, In (c, r) crs -> ~ is_cat_file d c q) -> forall s, saved (Some d) crs s q = s q.
Proof.
  induction crs as [|[c r] crs IH]; intros H s; [reflexivity|]. rewrite (saved_cons (Some d) c r crs s), IH by (intros c' r' I; apply (H c' r'); right; exact I).
  destruct r as [[rows ths] o]. cbn. apply save_category_other. apply (H c (rows, ths, o)). left. reflexivity.
Qed.
Lemma saved_holds d cats rs : Forall2 good cats rs -> forall s c r, In (c, r) (combine cats rs) -> holds_result (saved (Some d) (combine cats rs) s) d c r.
Proof.
  induction 1 as [|c0 r0 cats rs G F IH]; intros s c r I; [contradiction|]. cbn [combine] in *. rewrite (saved_cons (Some d) c0 r0 (combine cats rs) s).
  destruct (in_dec Z.eq_dec c cats) as [J|J].
  - (* evaluated again later, with the same result *)
    assert (X : exists r', In (c, r') (combine cats rs)).
    { clear - J F. induction F as [|a b cats rs G F IH]; [contradiction|]. cbn [combine]. destruct J as [->|J]; [exists b; left; reflexivity|]. destruct (IH J) as [r' K]. exists r'. right. exact K. }
    destruct X as [r' X]. assert (r' = r); [|subst; apply IH, X].
    assert (Gr' : compute c = Ok r').
    { clear - F X. induction F as [|a b cats rs G F IH]; [contradiction|]. destruct X as [E|X]; [injection E as -> ->; apply G|apply IH, X]. }
    assert (Gr : compute c = Ok r).
    { destruct I as [E|I]; [injection E as -> ->; apply G|]. clear - F I. induction F as [|a b cats rs G F IH]; [contradiction|]. destruct I as [E|I]; [injection E as -> ->; apply G|apply IH, I]. }
    congruence.
  - destruct I as [E|I]; [|exfalso; apply J; apply in_combine_l in I; exact I]. injection E as -> ->. destruct G as [[Vl Vu] _]. destruct r as [[rows ths] o].
    pose proof (save_category_holds d c rows ths o s ltac:(lia)) as H. cbn [saved fold_left]. set (s1 := save_category_results d c rows ths (Some o) s) in *.
    assert (K : forall nm, startswith nm (lit "/") = false -> fold_left (fun s cr => let '(c, (rows, ths, o)) := cr in save_category_results d c rows ths (Some o) s) (combine cats rs) s1 (cat_file d c nm) = s1 (cat_file d c nm)).
    { intros nm Hn. apply (saved_other d (cat_file d c nm) (combine cats rs)). intros c' r' I' C. apply J. assert (I2 := in_combine_l _ _ _ _ I').
      assert (P' : 0 <= c'). { clear - F I2. induction F as [|a b cats rs G F IH]; [contradiction|]. destruct I2 as [->|I2]; [destruct G as [[? ?] _]; lia|apply IH, I2]. }
      destruct names_ok as (N1 & N2 & N3).
      destruct C as [C|[C|C]]; apply cat_file_inj in C; try assumption; try lia; destruct C as [-> _]; exact I2. }
    unfold holds_result in *. destruct names_ok as (N1 & N2 & N3). rewrite !K by assumption. exact H.
Qed.
End Loop.

(** A successful evaluation: the requested categories, all valid, are evaluated in order, the tables
    list them in order, the result of each is saved in its own directory, the averages are saved, and no
    other file changes. *)
Theorem categories_evaluated : forall n compute dir arg s tables s',
  evaluate n compute (Ok tt) (Some dir) arg s = (Ok tables, s') ->
  exists cats rs, requested n arg cats /\ Forall2 (fun c r => valid_category n c /\ compute c = Ok r) cats rs /\
    tables = (class_rows cats (map r_overall rs), summary (map r_overall rs)) /\
    (forall c r, In (c, r) (combine cats rs) -> holds_result s' dir c r) /\
    s' (path_join dir (lit "overall_eval_bdry.txt")) = Some (join_fields (map field (overall_fields (mean_overall (round_to 6) (map r_overall rs))))) /\
    (forall q, (forall c, In c cats -> ~ is_cat_file dir c q) -> q <> path_join dir (lit "overall_eval_bdry.txt") -> s' q = s q).
Proof.
  intros n compute dir arg s tables s' E. unfold evaluate in E. destruct (categories_of n arg) as [cats|] eqn:Ec; [|discriminate]. apply categories_of_spec in Ec.
  destruct (loop_split n compute cats) as [(rs & F)|(pre & rs & c & post & -> & F & N)].
  2: { destruct (loop_bad n compute (Some dir) pre rs c post F N s) as (e & El & _). rewrite El in E. discriminate. }
  rewrite (loop_good n compute (Some dir) cats rs F s) in E. injection E as <- <-. exists cats, rs. split; [exact Ec|]. split; [exact F|]. split; [reflexivity|].
  set (s1 := saved (Some dir) (combine cats rs) s) in *. unfold save_overall_metric. split; [|split; [apply write_same|]].
  - intros c r I. assert (H := saved_holds n compute dir cats rs F s c r I). fold s1 in H. assert (P : 0 <= c).
    { apply in_combine_l in I. clear - F I. induction F as [|a b cats rs G F IH]; [contradiction|]. destruct I as [->|I]; [destruct G as [[? ?] _]; lia|apply IH, I]. }
    destruct names_ok as (N1 & N2 & N3). destruct r as [[rows ths] o]. unfold holds_result in *.
    rewrite !write_other by (apply overall_not_cat; assumption). exact H.
  - intros q Hq Ho. rewrite write_other. 2: { intros X; apply Ho; symmetry; exact X. } apply saved_other. intros c r I. apply Hq. apply in_combine_l in I. exact I.
Qed.
Print Assumptions categories_evaluated.
(** It does succeed whenever every requested category is valid and can be computed. *)
Theorem valid_categories_succeed : forall n compute dir arg cats s, requested n arg cats ->
  Forall (fun c => valid_category n c /\ exists r, compute c = Ok r) cats ->
  exists tables s', evaluate n compute (Ok tt) dir arg s = (Ok tables, s').
Proof.
  intros n compute dir arg cats s R F. apply categories_of_spec in R. unfold evaluate. rewrite R.
  assert (X : exists rs, Forall2 (good n compute) cats rs).
  { clear R. induction F as [|c cats [V [r E]] F [rs IH]]; [exists []; constructor|]. exists (r :: rs). constructor; [split; assumption|exact IH]. }
  destruct X as [rs X]. rewrite (loop_good n compute dir cats rs X s). destruct dir; eauto.
Qed.
Print Assumptions valid_categories_succeed.
(** The first category that is out of range (or whose computation fails) ends the evaluation; what was
    saved for the preceding ones stays, nothing else is written. *)
Theorem invalid_category_stops : forall n compute dir arg s pre rs c post,
  requested n arg (pre ++ c :: post) -> Forall2 (fun c r => valid_category n c /\ compute c = Ok r) pre rs ->
  ~ valid_category n c \/ (exists e, compute c = Err e) ->
  exists e s', evaluate n compute (Ok tt) (Some dir) arg s = (Err e, s') /\
    (~ valid_category n c -> e = AssertionError) /\
    (forall c r, In (c, r) (combine pre rs) -> holds_result s' dir c r) /\
    (forall q, (forall c, In c pre -> ~ is_cat_file dir c q) -> s' q = s q).
Proof.
  intros n compute dir arg s pre rs c post R F H. apply categories_of_spec in R. unfold evaluate. rewrite R.
  assert (N : forall r, ~ good n compute c r). { intros r [V E]. destruct H as [H|[e H]]; [contradiction|congruence]. }
  destruct (loop_bad n compute (Some dir) pre rs c post F N s) as (e & E & K & _). rewrite E. exists e, (saved (Some dir) (combine pre rs) s). split; [reflexivity|]. split; [exact K|]. split.
  - intros c' r' I. apply (saved_holds n compute dir pre rs F s c' r' I).
  - intros q Hq. apply saved_other. intros c' r' I. apply Hq. apply in_combine_l in I. exact I.
Qed.
Print Assumptions invalid_category_stops.
(** An empty list, or an argument that is neither None, an int nor a list, and an evaluator that is
    not ready, are rejected before anything is evaluated or written. *)
Theorem bad_categories_rejected : forall n compute dir arg s, (forall l, ~ requested n arg l) ->
  evaluate n compute (Ok tt) dir arg s = (Err AssertionError, s).
Proof. intros n compute dir arg s H. unfold evaluate. rewrite (categories_of_err n arg H). reflexivity. Qed.
Print Assumptions bad_categories_rejected.
(** Without samples, without the directories, or before any call of [set_eval_params] was accepted
    (whatever was rejected before), nothing is evaluated or written; after any accepted call the
    evaluator is ready. *)
Lemma eval_params_err k thin a e : eval_params k thin a = Err e -> e = AttributeError.
Proof.
  unfold eval_params, getattr. destruct k, (a_scale a), (a_thinning a), (a_nms a), (a_dist a), (a_kill a), (a_skip a); cbn; intros H; congruence.
Qed.
Theorem unready_evaluator_rejected : forall k thin h names roots n compute dir arg s,
  let r := ready k thin names roots (after k h fresh) in
  (names = None \/ roots = false -> evaluate n compute r dir arg s = (Err AssertionError, s)) /\
  (names <> None -> roots = true -> Forall (fun c => ~ acceptable k c) h -> evaluate n compute r dir arg s = (Err AttributeError, s)) /\
  (names <> None -> roots = true -> Exists (acceptable k) h -> r = Ok tt).
Proof.
  intros k thin h names roots n compute dir arg s r. split; [|split].
  - intros [->| ->]; subst r; unfold ready; [reflexivity|]. destruct names; reflexivity.
  - intros N -> F. subst r. unfold ready. destruct names as [l|]; [|congruence].
    destruct (eval_params k thin (after k h fresh)) as [e|e] eqn:E.
    + exfalso. destruct (proj1 (params_readable_after_acceptance k thin h) (ex_intro _ e E)) as [c h' A|c h' A].
      * inversion F; subst. contradiction.
      * apply Exists_exists in A. destruct A as (x & I & A). rewrite Forall_forall in F. apply (F x); [right; exact I|exact A].
    + apply eval_params_err in E. subst e. reflexivity.
  - intros N -> X. subst r. unfold ready. destruct names as [l|]; [|congruence].
    apply (params_readable_after_acceptance k thin) in X. destruct X as [e ->]. reflexivity.
Qed.
Print Assumptions unready_evaluator_rejected.

(** The saved averages are the means of the per category values, within half a unit in the sixth
    decimal. *)
Lemma round_to_decimals v : exists m, (round_to 6 v == inject_Z m / 1000000)%Q /\ (Qabs (round_to 6 v - v) <= 1 # 2000000)%Q.
Proof.
  unfold round_to. change (10 ^ 6) with 1000000. change (inject_Z 1000000) with 1000000%Q. eexists. split; [reflexivity|].
  pose proof (round_spec (v * 1000000)) as R. set (m := round_half_even _) in *. apply Qabs_Qle_condition in R. apply Qabs_Qle_condition.
  assert (E : (inject_Z m / 1000000 == inject_Z m * (1 # 1000000))%Q) by reflexivity. rewrite E. split; lra.
Qed.
Lemma overall_line o : table (join_fields (map field (overall_fields o))) = [map fixed6 (overall_fields o)].
Proof.
  unfold table. rewrite split_by_none by (apply plain_nolf, join_plain, fields_plain).
  assert (W := words_fields (overall_fields o)). set (u := join_fields (map field (overall_fields o))) in *. clearbody u. destruct u as [|c u]; [discriminate|].
  cbn [drop_last_empty nonempty map]. congruence.
Qed.
Theorem saved_averages : forall l, exists row,
  table (join_fields (map field (overall_fields (mean_overall (round_to 6) l)))) = [row] /\
  Forall2 shows (map (fun g => mean (map g l)) [ODS_threshold; ODS_recall; ODS_precision; ODS_f1; OIS_recall; OIS_precision; OIS_f1; AUC; AP]) row.
Proof.
  intros l. exists (map fixed6 (overall_fields (mean_overall (round_to 6) l))). split; [apply overall_line|].
  cbn [overall_fields mean_overall ODS_threshold ODS_recall ODS_precision ODS_f1 OIS_recall OIS_precision OIS_f1 AUC AP map].
  assert (S : forall v, shows v (fixed6 (round_to 6 v))).
  { intros v. destruct (round_to_decimals v) as (m & Em & C). destruct (six_decimals_read_back_exactly (round_to 6 v) m Em) as (r & Er & Rr).
    exists r. split; [exact Er|]. rewrite Rr. exact C. }
  repeat (constructor; [apply S|]). constructor.
Qed.
Print Assumptions saved_averages.
(** The tables that are printed: per requested category the percentages of its ODS scores with three
    decimals and its ODS threshold with two; below, the percentages of the averages with three decimals. *)
Lemma round_to_shown d v : 0 <= d -> shown d v (round_to d v).
Proof.
  intros H. unfold shown, round_to. eexists. split; [reflexivity|]. assert (P : (0 < inject_Z (10 ^ d))%Q) by (change 0%Q with (inject_Z 0); rewrite <- Zlt_Qlt; apply Z.pow_pos_nonneg; lia).
  pose proof (round_spec (v * inject_Z (10 ^ d))) as R. set (m := round_half_even _) in *. set (p := inject_Z (10 ^ d)) in *. clearbody m p.
  assert (E : (inject_Z m / p - v == (inject_Z m - v * p) * / p)%Q) by (field; intros C; rewrite C in P; eapply Qlt_irrefl; eassumption).
  rewrite E, Qabs_Qmult, (Qabs_pos (/ p)) by (apply Qlt_le_weak, Qinv_lt_0_compat, P).
  assert (E2 : (1 / (2 * p) == (1 # 2) * / p)%Q) by (field; intros C; rewrite C in P; eapply Qlt_irrefl; eassumption).
  rewrite E2. apply Qmult_le_compat_r; [exact R|apply Qlt_le_weak, Qinv_lt_0_compat, P].
Qed.
Lemma shown_compat d v w r : (v == w)%Q -> shown d v r -> shown d w r.
Proof. intros E (m & A & B). exists m. split; [exact A|]. rewrite <- E. exact B. Qed.
Lemma mean_average l a : l <> [] -> average l a -> (mean l == a)%Q.
Proof.
  intros N A. unfold mean, average in *. assert (S : (qsum l == fold_right Qplus 0 l)%Q).
  { unfold qsum. assert (G : forall b, (fold_left Qplus l b == b + fold_right Qplus 0 l)%Q) by (clear; induction l as [|x l IH]; intros b; cbn [fold_left fold_right]; [ring|rewrite IH; ring]). rewrite G. ring. }
  rewrite S, <- A. field. intros C. destruct l; [congruence|]. unfold Qeq in C. cbn [inject_Z Qnum Qden List.length] in C. lia.
Qed.
Theorem printed_tables : forall n compute dir arg s rows sums s',
  evaluate n compute (Ok tt) dir arg s = (Ok (rows, sums), s') ->
  exists cats rs, requested n arg cats /\ Forall2 (fun c r => valid_category n c /\ compute c = Ok r) cats rs /\
    Forall2 (fun cr row => let '(c, (_, _, o)) := cr in let '(c', r, p, f, t) := row in
       c' = c /\ shown 3 (100 * ODS_recall o) r /\ shown 3 (100 * ODS_precision o) p /\ shown 3 (100 * ODS_f1 o) f /\ shown 2 (ODS_threshold o) t) (combine cats rs) rows /\
    Forall2 (fun g x => forall a, average (map (fun r => let '(_, _, o) := r in g o) rs) a -> shown 3 (100 * a) x)
      [ODS_recall; ODS_precision; ODS_f1; OIS_recall; OIS_precision; OIS_f1; AUC; AP] sums.
Proof.
  intros n compute dir arg s rows sums s' E. unfold evaluate in E. destruct (categories_of n arg) as [cats|] eqn:Ec; [|discriminate]. apply categories_of_spec in Ec.
  destruct (loop_split n compute cats) as [(rs & F)|(pre & rs & c & post & -> & F & N)].
  2: { destruct (loop_bad n compute dir pre rs c post F N s) as (e & El & _). rewrite El in E. discriminate. }
  rewrite (loop_good n compute dir cats rs F s) in E. assert (E1 : rows = class_rows cats (map r_overall rs) /\ sums = summary (map r_overall rs)) by (split; congruence). destruct E1 as [-> ->].
  exists cats, rs. split; [exact Ec|]. split; [exact F|]. split.
  - clear - F. unfold class_rows. induction F as [|c r cats rs _ F IH]; [constructor|]. cbn [map combine]. constructor; [|exact IH]. destruct r as [[a b] o]. cbn [r_overall].
    split; [reflexivity|]. split; [eapply shown_compat; [|apply round_to_shown; lia]; apply Qmult_comm|]. split; [eapply shown_compat; [|apply round_to_shown; lia]; apply Qmult_comm|]. split; [eapply shown_compat; [|apply round_to_shown; lia]; apply Qmult_comm|]. apply round_to_shown. lia.
  - assert (Ne : rs <> []). { intros ->. inversion F; subst. clear - Ec. unfold requested in Ec. destruct arg as [| | |]; [destruct Ec as [Ec Hn]; destruct n; [lia|discriminate]|discriminate|destruct Ec; congruence|exact Ec]. }
    unfold summary. assert (G : forall g a, average (map (fun r : list sample_row * list score * overall => let '(_, _, o) := r in g o) rs) a -> shown 3 (100 * a) (round_to 3 (mean (map g (map r_overall rs)) * 100))).
    { intros g a A. eapply shown_compat; [|apply round_to_shown; lia]. rewrite map_map.
      rewrite (map_ext (fun x => g (r_overall x)) (fun r : list sample_row * list score * overall => let '(_, _, o) := r in g o)) by (intros [[x y] o]; reflexivity).
      rewrite (mean_average _ a); [ring| |exact A]. destruct rs; [congruence|discriminate]. }
    cbn [map]. repeat (constructor; [intros a; apply G|]). constructor.
Qed.
Print Assumptions printed_tables.
(** The summary does not depend on the order of the categories. *)
Lemma qsum_acc l : forall a b, (a == b)%Q -> (fold_left Qplus l a == b + qsum l)%Q.
Proof.
  unfold qsum. induction l as [|x l IH]; intros a b E; cbn [fold_left]; [rewrite E; ring|]. rewrite (IH (a + x)%Q (b + x)%Q) by (rewrite E; reflexivity).
  rewrite (IH (0 + x)%Q x) by ring. ring.
Qed.
Lemma qsum_cons x l : (qsum (x :: l) == x + qsum l)%Q.
Proof. unfold qsum at 1. cbn [fold_left]. apply qsum_acc. ring. Qed.
Lemma qsum_perm l m : Permutation l m -> (qsum l == qsum m)%Q.
Proof.
  induction 1 as [|x l m H IH|x y l|l m o H1 IH1 H2 IH2]; [reflexivity| | |].
  - rewrite !qsum_cons, IH. reflexivity.
  - rewrite !qsum_cons. ring.
  - rewrite IH1. exact IH2.
Qed.
Theorem summary_ignores_category_order : forall l m, Permutation l m -> summary l = summary m /\ mean_overall (round_to 6) l = mean_overall (round_to 6) m.
Proof.
  intros l m P. assert (M : forall g, (mean (map g l) == mean (map g m))%Q).
  { intros g. unfold mean. rewrite (qsum_perm _ _ (Permutation_map g P)). rewrite !map_length, (Permutation_length P). reflexivity. }
  assert (R : forall d a b, (a == b)%Q -> round_to d a = round_to d b).
  { intros d a b E. unfold round_to. do 2 f_equal. apply round_compat. rewrite E. reflexivity. }
  split.
  - unfold summary. apply map_ext. intros g. apply R. rewrite (M g). reflexivity.
  - unfold mean_overall. f_equal; apply R, M.
Qed.
Print Assumptions summary_ignores_category_order.
(** The mean lies between the smallest and the largest value. *)
Lemma qsum_bounds l a b : Forall (fun v => a <= v <= b)%Q l -> (inject_Z (Z.of_nat (List.length l)) * a <= qsum l <= inject_Z (Z.of_nat (List.length l)) * b)%Q.
Proof.
  induction 1 as [|v l H F IH]; [change (qsum []) with 0%Q; change (inject_Z (Z.of_nat (List.length (@nil Q)))) with 0%Q; lra|]. rewrite qsum_cons. cbn [List.length].
  rewrite Nat2Z.inj_succ, <- Z.add_1_l, inject_Z_plus. change (inject_Z 1) with 1%Q. rewrite !Qmult_plus_distr_l. lra.
Qed.
Theorem mean_in_range : forall l a b, l <> [] -> Forall (fun v => a <= v <= b)%Q l -> (a <= mean l <= b)%Q.
Proof.
  intros l a b N F. pose proof (qsum_bounds l a b F) as [A B]. unfold mean. set (n := inject_Z (Z.of_nat (List.length l))) in *.
  assert (P : (0 < n)%Q) by (unfold n; change 0%Q with (inject_Z 0); rewrite <- Zlt_Qlt; destruct l; [congruence|cbn; lia]).
  split; [apply Qle_shift_div_l|apply Qle_shift_div_r]; try exact P; rewrite Qmult_comm; assumption.
Qed.
Print Assumptions mean_in_range.

(** Concrete case: three classes, categories [3; 1]. *)
Definition ex_compute (c : Z) : res cat_result :=
  Ok ([mkRow "img" (1 # 2) 1 1 1], [(1 # 2, 1, 1, 1)]%Q, mkOverall (1 # 2) (inject_Z c / 4) 1 1 1 1 1 1 1).
Example ex_evaluate : match evaluate 3 ex_compute (Ok tt) (Some (lit "out")) (CList [3; 1]) (fun _ => None) with
  | (Ok (rows, _), s) => map (fun r => fst (fst (fst (fst r)))) rows = [3; 1] /\
      s (lit "out/class_003/eval_bdry.txt") <> None /\ s (lit "out/class_002/eval_bdry.txt") = None /\
      s (lit "out/overall_eval_bdry.txt") = Some (lit "0.500000   0.500000   1.000000   1.000000   1.000000   1.000000   1.000000   1.000000   1.000000  ")
  | _ => False end.
Proof. vm_compute. repeat split; discriminate. Qed.
Example ex_evaluate_bad : match evaluate 3 ex_compute (Ok tt) (Some (lit "out")) (CList [3; 4; 1]) (fun _ => None) with
  | (Err e, s) => e = AssertionError /\ s (lit "out/class_003/eval_bdry.txt") <> None /\ s (lit "out/class_001/eval_bdry.txt") = None
  | _ => False end.
Proof. vm_compute. repeat split; discriminate. Qed.
