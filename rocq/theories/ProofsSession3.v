(** Proofs about evaluation runs over several categories. *)
From Verif Require Export ProofsSession.
From Verif Require Import ProofsSession2 PropertiesCategory PropertiesPrepare ProofsImage ProofsEval ProofsPaths ProofsText PropertiesMetrics PropertiesSamples PropertiesResults PropertiesCLI PropertiesEvaluator2 PropertiesFiles.
From Coq Require Import Lia ZifyBool ZifyNat Lqa.
Open Scope Z_scope.
Open Scope list_scope.

(** *** Where the files are *)
Lemma cat_dir out c : directory out -> 1 <= c <= 99 -> category_dir out c = class_dir out c /\ directory (class_dir out c).
Proof.
  intros D H. assert (C := class_component c H). unfold category_dir, class_dir. rewrite class_name by exact H. split.
  - rewrite join_directory; [reflexivity|exact D|apply component_relative, C].
  - change (directory (out ++ lit "/" ++ (lit "class_0" ++ [digit (c / 10); digit (c mod 10)]))). apply directory_join, component_directory, C.
Qed.
Lemma cat_files out c n : directory out -> 1 <= c <= 99 -> relative n -> cat_file out c n = in_dir (class_dir out c) n.
Proof. intros D H R. destruct (cat_dir out c D H) as [E D']. unfold cat_file. rewrite E. apply in_dir_join; assumption. Qed.
Lemma cat_result_files out c q : directory out -> 1 <= c <= 99 -> is_cat_file out c q <-> In q (result_files (class_dir out c)).
Proof.
  intros D H. unfold is_cat_file, result_files. rewrite !cat_files by (first [exact D|exact H|cbn; discriminate]). cbn [map In].
  split; [intros [E|[E|E]]|intros [E|[E|[E|[]]]]]; subst; auto.
Qed.
Lemma result_files_disjoint out c c' q : directory out -> 1 <= c <= 99 -> 1 <= c' <= 99 -> In q (result_files (class_dir out c)) -> In q (result_files (class_dir out c')) -> c = c'.
Proof.
  intros D H H' I I'. apply cat_result_files in I; [|assumption|assumption]. apply cat_result_files in I'; [|assumption|assumption]. destruct names_ok as (N1 & N2 & N3).
  destruct I as [->|[->| ->]]; destruct I' as [E|[E|E]]; apply cat_file_inj in E; try assumption; try lia; apply E.
Qed.
Lemma reports_ext f f' dir r : (forall q, In q (result_files dir) -> f' q = f q) -> reports f dir r -> reports f' dir r.
Proof.
  intros E. destruct r as [[rows trs] ov]. unfold reports, single_row. unfold result_files in E. cbn [map In] in E.
  rewrite !E by tauto. exact (fun x => x).
Qed.

(** *** The loop *)
Notation result := (list sample_row * list score * overall)%type.
Definition put (out : text) (c : Z) (r : result) (f : fs) : fs := let '(rows, ths, o) := r in save_category_results out c rows ths (Some o) f.
Lemma categories_deliver (one : nat -> nat -> nat -> Z -> session overall) out (P : Z -> result -> Prop) cats :
  (forall n c, In c cats -> forall f s, raw_values s -> session_delivers (fun F Q => one F Q n c) f s (fun o f' => exists r, P c r /\ o = snd r /\ f' = put out c r f)) ->
  forall f s, raw_values s -> session_delivers (fun F Q => categories_session (one F Q) cats) f s (fun os f' => exists rs, Forall2 P cats rs /\ os = map snd rs /\ f' = saved (Some out) (combine cats rs) f).
Proof.
  induction cats as [|c cats IH]; intros H f s V.
  - apply (sdelivers_ret ([] : list overall) f s _ V). exists []. split; [constructor|split; reflexivity].
  - eapply sdelivers_ext.
    2:{ eapply (sdelivers_then (fun F Q => one F Q (List.length cats) c) (fun F Q o => seq_session (categories_session (one F Q) cats) (fun os f r => (Ok (Some (o :: os, r)), f)))).
        - apply (H (List.length cats) c (or_introl eq_refl) f s V).
        - intros o f1 s1 V1 (r & Pr & Eo & Ef). eapply (sdelivers_then (fun F Q => categories_session (one F Q) cats)).
          + apply IH; [intros n c' I; apply H; right; exact I|exact V1].
          + intros os f2 s2 V2 (rs & F2 & Eos & Ef2). apply (sdelivers_ret (o :: os) f2 s2 _ V2). exists (r :: rs).
            split; [constructor; assumption|]. split; [cbn [map]; congruence|]. cbn [combine]. rewrite saved_cons, Ef2, Ef. destruct r as [[rows ths] o']. reflexivity. }
    intros F Q. unfold seq_session. cbn [categories_session]. destruct (one F Q (List.length cats) c f s) as [[[[o s1]|]|e] f1]; reflexivity.
Qed.

(** *** The files *)
Lemma saved_app out a b f : saved (Some out) (a ++ b) f = saved (Some out) b (saved (Some out) a f).
Proof. unfold saved. apply fold_left_app. Qed.
Lemma combine_at {A B} (l : list A) (m : list B) i a b : nth_error l i = Some a -> nth_error m i = Some b ->
  combine l m = combine (firstn i l) (firstn i m) ++ (a, b) :: combine (skipn (S i) l) (skipn (S i) m).
Proof.
  revert l m. induction i as [|i IH]; intros [|x l] [|y m]; cbn [nth_error]; intros E E'; try discriminate.
  - injection E as ->. injection E' as ->. reflexivity.
  - cbn [firstn combine app skipn]. f_equal. apply IH; assumption.
Qed.
Lemma saved_results out cats rs f i c r : directory out -> (forall c, In c cats -> 1 <= c <= 99) ->
  nth_error cats i = Some c -> nth_error rs i = Some r -> ~ In c (skipn (S i) cats) -> (let '(rows, trs, _) := r in rows <> [] /\ trs <> []) ->
  reports (saved (Some out) (combine cats rs) f) (class_dir out c) r.
Proof.
  intros D Hc Ec Er Nc Ne. rewrite (combine_at cats rs i c r Ec Er), saved_app, saved_cons.
  set (f0 := saved (Some out) (combine (firstn i cats) (firstn i rs)) f). clearbody f0.
  assert (Ic : In c cats) by (eapply nth_error_In; eassumption). destruct r as [[rows trs] ov].
  apply (reports_ext (put out c (rows, trs, ov) f0)).
  - intros q I. change (saved (Some out) [(c, (rows, trs, ov))] f0) with (put out c (rows, trs, ov) f0). apply saved_other.
    intros c' r' I' J. apply in_combine_l in I'. assert (Ic' : In c' cats) by (rewrite <- (firstn_skipn (S i) cats); apply in_or_app; right; exact I').
    apply cat_result_files in J; [|exact D|apply Hc, Ic']. apply Nc. rewrite (result_files_disjoint out c c' q D (Hc c Ic) (Hc c' Ic') I J). exact I'.
  - cbn [put]. unfold save_category_results. destruct (cat_dir out c D (Hc c Ic)) as [E D']. rewrite E. apply saved_reports; [exact D'|apply Ne|apply Ne].
Qed.
Lemma nine_averages_exist (l : list overall) : l <> [] -> exists v, nine_averages l v.
Proof.
  intros N. exists (map (fun g => mean (map g l)) [ODS_threshold; ODS_recall; ODS_precision; ODS_f1; OIS_recall; OIS_precision; OIS_f1; AUC; AP]).
  assert (A : forall g : overall -> Q, average (map g l) (mean (map g l))).
  { intros g. unfold average. set (m := map g l). assert (Nm : m <> []) by (unfold m; destruct l; [congruence|discriminate]). clearbody m.
    assert (P : ~ (inject_Z (Z.of_nat (List.length m)) == 0)%Q) by (destruct m; [congruence|]; unfold Qeq; cbn; lia).
    assert (E : (mean m == fold_right Qplus 0 m / inject_Z (Z.of_nat (List.length m)))%Q) by (apply mean_average; [exact Nm|unfold average; field; exact P]).
    rewrite E. field. exact P. }
  unfold nine_averages. cbn [map]. repeat (constructor; [apply A|]). constructor.
Qed.
Lemma shows_compat v w t : (v == w)%Q -> shows v t -> shows w t.
Proof. unfold shows. intros E (r & A & B). exists r. split; [exact A|]. rewrite <- E. exact B. Qed.
Lemma averages_file l v f path : nine_averages l v -> l <> [] -> f path = Some (join_fields (map field (overall_fields (mean_overall (round_to 6) l)))) -> single_row f path v.
Proof.
  intros A N E. destruct (saved_averages l) as (row & T & Sh). eexists. exists row. split; [exact E|]. split; [exact T|]. unfold shows_numbers.
  unfold nine_averages in A. clear - A Sh N. revert v row A Sh.
  generalize [ODS_threshold; ODS_recall; ODS_precision; ODS_f1; OIS_recall; OIS_precision; OIS_f1; AUC; AP]. induction l0 as [|g gs IH]; intros v row A Sh; inversion A; subst; inversion Sh; subst; constructor.
  - eapply shows_compat; [|eassumption]. apply mean_average; [destruct l; [congruence|discriminate]|assumption].
  - apply IH; assumption.
Qed.
Lemma tables_shown cats (ovs : list overall) : List.length cats = List.length ovs -> ovs <> [] -> tables cats ovs (class_rows cats ovs, summary ovs).
Proof.
  intros L N. split; cbn [fst snd].
  - unfold class_rows. generalize (combine cats ovs). induction l as [|[c o] l IH]; [constructor|]. cbn [map]. constructor; [|exact IH].
    split; [reflexivity|]. repeat split; try (eapply shown_compat; [|apply round_to_shown; lia]; apply Qmult_comm). apply round_to_shown. lia.
  - unfold summary. assert (G : forall g a, average (map g ovs) a -> shown 3 (100 * a) (round_to 3 (mean (map g ovs) * 100))).
    { intros g a A. eapply shown_compat; [|apply round_to_shown; lia]. rewrite (mean_average _ a); [ring|destruct ovs; [congruence|discriminate]|exact A]. }
    cbn [map]. repeat (constructor; [intros a; apply G|]). constructor.
Qed.
Lemma overall_no_result out c n q : directory out -> 1 <= c <= 99 -> component n -> ~ (exists r, n = lit "class_" ++ r) -> In q (result_files (class_dir out c)) -> q <> in_dir out n.
Proof.
  intros D H C N I E. subst q. unfold result_files in I. cbn [map In] in I. unfold in_dir, class_dir in I.
  assert (X : forall x y : text, (out ++ lit "/class_0" ++ x) ++ lit "/" ++ y <> out ++ lit "/" ++ n).
  { intros x y E. rewrite <- app_assoc in E. apply app_inv_head in E. cbn in E. injection E as E. apply N. exists ("0"%char :: x ++ "/"%char :: y). symmetry. exact E. }
  destruct I as [I|[I|[I|[]]]]; apply X in I; exact I.
Qed.
Lemma run_files pp out cats (rs : list result) f : directory out -> (forall c, In c cats -> 1 <= c <= 99) -> cats <> [] -> List.length cats = List.length rs ->
  (forall r, In r rs -> let '(rows, trs, _) := r in rows <> [] /\ trs <> []) ->
  let t := (class_rows cats (map snd rs), summary (map snd rs)) in
  run_reports pp out cats rs t f (save_pretty_metrics out (show_classes pp (fst t)) (show_summary pp (summary_columns (snd t)))
     (save_overall_metric out (mean_overall (round_to 6) (map snd rs)) (lit "overall_eval_bdry.txt") (saved (Some out) (combine cats rs) f))).
Proof.
  intros D Hc Nc L Ne t. set (f1 := saved (Some out) (combine cats rs) f).
  assert (No : map snd rs <> []) by (destruct rs; [destruct cats; [congruence|discriminate]|discriminate]).
  assert (J : forall n, relative n -> path_join out n = in_dir out n) by (intros n R; apply in_dir_join; assumption).
  unfold save_pretty_metrics, save_overall_metric. rewrite !J by (cbn; discriminate).
  assert (Nn : in_dir out (lit "results.txt") <> in_dir out (lit "overall_eval_bdry.txt")).
  { unfold in_dir. intros E. apply app_inv_head in E. discriminate. }
  assert (Cn : forall n, In n [lit "results.txt"; lit "overall_eval_bdry.txt"] -> component n /\ ~ exists r, n = lit "class_" ++ r).
  { intros n [<-|[<-|[]]]; (split; [split; [discriminate|vm_compute; intuition discriminate]|intros (r & E); discriminate]). }
  split; [|split; [|split]].
  - intros i c r Ec Er Nl. apply (reports_ext f1).
    + intros q I. assert (Ic : In c cats) by (eapply nth_error_In; eassumption). rewrite !write_other; [reflexivity| |].
      * intros E. destruct (Cn (lit "overall_eval_bdry.txt")) as [A B]; [cbn; tauto|]. apply (overall_no_result out c _ q D (Hc c Ic) A B I). congruence.
      * intros E. destruct (Cn (lit "results.txt")) as [A B]; [cbn; tauto|]. apply (overall_no_result out c _ q D (Hc c Ic) A B I). congruence.
    + apply (saved_results out cats rs f i c r D Hc Ec Er Nl). apply Ne. eapply nth_error_In; eassumption.
  - destruct (nine_averages_exist _ No) as (v & A). exists v. split; [exact A|]. apply (averages_file (map snd rs) v _ _ A No).
    rewrite write_other by exact Nn. apply write_same.
  - do 8 eexists. split; [reflexivity|]. apply write_same.
  - intros q Hq. cbn [In] in Hq. rewrite !write_other by (intros E; apply Hq; auto). apply saved_other.
    intros c r I J'. apply in_combine_l in I. apply Hq. right. right. apply in_flat_map. exists c. split; [exact I|]. apply (cat_result_files out c q D (Hc c I)), J'.
Qed.

(** *** The evaluation *)
Lemma sdelivers_finish {A} (a : A) (g : fs -> fs) f s (post : A -> fs -> Prop) : raw_values s -> post a (g f) -> session_delivers (fun _ _ f s => (Ok (Some (a, s)), g f)) f s post.
Proof.
  intros V H. split.
  - intros. exists (Some (a, s)), (g f). split; [reflexivity|]. intros ? ? E. injection E as <- <-. split; assumption.
  - exists O, O, a, s, (g f). reflexivity.
Qed.
Lemma evaluation_delivers lib pp m nproc pls k p names a thr out arg cats (P : Z -> result -> Prop) f s :
  directory out -> requested (n_classes_of k) arg cats -> (forall c, In c cats -> 1 <= c <= 99) -> roots_ok m k p = true ->
  (exists e, eval_params k (p_thin p) a = Ok e) ->
  (forall n c, In c cats -> forall s, raw_values s -> delivers (fun F Q => evaluate_category_run F Q lib (by_plan nproc (pls n)) (m_images m) k p true (Some names) a thr c) s (P c)) ->
  (forall c r, P c r -> let '(rows, trs, _) := r in rows <> [] /\ trs <> []) -> raw_values s ->
  session_delivers (fun F Q => evaluate_session F Q lib m pp nproc pls k p (Some names) a thr (Some out) arg) f s
    (fun t f' => exists rs, Forall2 P cats rs /\ tables cats (map snd rs) t /\ run_reports pp out cats rs t f f').
Proof.
  intros D R Hc Ro (e & Ee) H Ne V.
  assert (Nc : cats <> []).
  { intros ->. unfold requested in R. destruct arg as [| | |]; [destruct R as [R Hn]; destruct (n_classes_of k); [lia|discriminate]|discriminate|destruct R; congruence|exact R]. }
  eapply sdelivers_ext.
  2:{ eapply (sdelivers_then (fun F Q => categories_session (fun n => evaluate_category_session F Q lib m (by_plan nproc (pls n)) k p (Some names) a thr (Some out)) cats)
        (fun F Q l f r => let t := (class_rows cats l, summary l) in (Ok (Some (t, r)), save_pretty_metrics out (show_classes pp (fst t)) (show_summary pp (summary_columns (snd t)))
           (save_overall_metric out (mean_overall (round_to 6) l) (lit "overall_eval_bdry.txt") f)))).
      - apply (categories_deliver (fun F Q n => evaluate_category_session F Q lib m (by_plan nproc (pls n)) k p (Some names) a thr (Some out)) out P cats); [|exact V].
        intros n c I f1 s1 V1. unfold evaluate_category_session. rewrite Ro.
        eapply sdelivers_ext.
        2:{ apply (sdelivers_lift (fun F Q => evaluate_category_run F Q lib (by_plan nproc (pls n)) (m_images m) k p true (Some names) a thr c) (fun r => snd r) (fun r f => put out c r f) f1 s1 (P c)).
            - apply H; assumption.
            - intros r Pr. exists r. auto. }
        intros F Q. cbv beta. destruct (evaluate_category_run F Q lib (by_plan nproc (pls n)) (m_images m) k p true (Some names) a thr c s1) as [[[[[rows ths] o] s2]|]|]; reflexivity.
      - intros l f1 s1 V1 (rs & F2 & -> & ->).
        apply (sdelivers_finish (class_rows cats (map snd rs), summary (map snd rs)) (fun f0 => save_pretty_metrics out (show_classes pp (class_rows cats (map snd rs))) (show_summary pp (summary_columns (summary (map snd rs))))
           (save_overall_metric out (mean_overall (round_to 6) (map snd rs)) (lit "overall_eval_bdry.txt") f0))); [exact V1|].
        assert (L : List.length cats = List.length rs) by (clear - F2; induction F2; [reflexivity|cbn; congruence]).
        exists rs. split; [exact F2|]. split.
        + apply tables_shown; [rewrite map_length; exact L|]. destruct rs; [destruct cats; [congruence|discriminate]|discriminate].
        + apply (run_files pp out cats rs f D Hc Nc L). intros r I. clear - F2 I Ne. induction F2 as [|c r0 cats rs Pr F2 IH]; [destruct I|]. destruct I as [<-|I]; [apply (Ne c), Pr|apply IH, I]. }
  intros F Q. unfold evaluate_session, seq_session, ready. rewrite Ro, Ee. rewrite (proj2 (categories_of_spec _ _ _) R). reflexivity.
Qed.
