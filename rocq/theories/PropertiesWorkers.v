(** C63: evaluating with several processes. *)
From Verif Require Import SpecSession ProofsWorkers ProofsProgress ProofsEval PropertiesSamples ProofsSession2 ProofsSession3 PropertiesCLI PropertiesSession2.
From Coq Require Import Permutation Lia ZifyBool ZifyNat.
Open Scope Z_scope.
Open Scope list_scope.

(** *** Theorem 1: the order in which the workers finish does not matter: the result is the same, also when samples fail.
    (Which worker takes a sample decides which random numbers it sees.) *)
Theorem completion_order_is_irrelevant : forall F P lib nproc taker fin fin' d k p ro names a thr c s,
  (forall names', names = Some names' -> Permutation fin (seq 0 (List.length names')) /\ Permutation fin' (seq 0 (List.length names'))) ->
  evaluate_category_run F P lib (mkWorkers nproc taker fin) d k p ro names a thr c s = evaluate_category_run F P lib (mkWorkers nproc taker fin') d k p ro names a thr c s.
Proof.
  intros F P lib nproc taker fin fin' d k p ro names a thr c s H. unfold evaluate_category_run. destruct names as [names|]; [|reflexivity].
  destruct (H names eq_refl) as [P1 P2]. destruct (negb ro); [reflexivity|]. destruct (negb _); [reflexivity|].
  destruct (match names with [] => Ok false | _ :: _ => getattr (a_inst a) end) as [inst|]; [|reflexivity]. cbn [bind].
  destruct (build_samples (on_disk d) (eval_params k (p_thin p) a) k p inst c names) as [samples|] eqn:E; [|reflexivity]. cbn [bind].
  assert (L : List.length samples = List.length names).
  { clear - E. revert samples E. induction names as [|n names IH]; intros samples E; cbn [build_samples] in E; [injection E as <-; reflexivity|].
    cbv zeta in E. match type of E with (if ?b then _ else _) = _ => destruct b; [discriminate E|] end. destruct (eval_params k (p_thin p) a) as [e|]; [|discriminate E]. cbn [bind] in E.
    destruct (build_samples (on_disk d) (Ok e) k p inst c names) as [l|] eqn:E1; [|discriminate E]. injection E as <-. cbn [List.length]. f_equal. apply IH. reflexivity. }
  destruct samples as [|x samples]; [reflexivity|]. destruct (eval_params k (p_thin p) a) as [e|]; [|reflexivity]. cbn [bind]. unfold then_.
  assert (X : forall l r, List.length l = List.length names -> each (mkWorkers nproc taker fin) (eval_sample F P lib d k (Z.of_nat (n_classes_of k)) c thr e) l r =
     each (mkWorkers nproc taker fin') (eval_sample F P lib d k (Z.of_nat (n_classes_of k)) c thr e) l r).
  { intros l r Hl. unfold each. cbn [w_nproc w_taker w_finished]. destruct (1 <? nproc); [|reflexivity]. rewrite !pooled_in_order by (rewrite Hl; assumption). reflexivity. }
  rewrite X by exact L. reflexivity.
Qed.
Print Assumptions completion_order_is_irrelevant.

(** Samples evaluated one after the other or by workers: [w] is any number of processes. *)
Section Loop.
Context {A B : Type}.
Variables (task : A -> run B) (w : workers) (l : list A).
Hypothesis Fin : all_finished (List.length l) w.
(** A random generator a sample may meet: any that preserves [ok]. *)
Variable ok : stream -> Prop.
Hypothesis Step : forall a s b s', In a l -> ok s -> task a s = Ok (Some (b, s')) -> ok s'.
Lemma gather_alone l' : incl l' l -> forall i state, (forall v, ok (state v)) ->
  match gather (outcomes task (w_taker w) i l' state) with
  | Ok (Some bs) => Forall2 (fun a b => exists s s', ok s /\ task a s = Ok (Some (b, s'))) l' bs
  | Ok None => exists pre a post, l' = pre ++ a :: post /\ (exists s, ok s /\ task a s = Ok None)
  | Err e => exists pre a post bs, l' = pre ++ a :: post /\ Forall2 (fun a b => exists s s', ok s /\ task a s = Ok (Some (b, s'))) pre bs /\ (exists s, ok s /\ task a s = Err e)
  end.
Proof.
  induction l' as [|a l' IH]; intros I i state V; cbn [outcomes gather]; [constructor|].
  assert (I' : incl l' l) by (intros x Hx; apply I; right; exact Hx).
  destruct (task a (state (w_taker w i))) as [[[b s]|]|e] eqn:E; cbn [gather].
  - assert (V' : forall v, ok (if Nat.eqb v (w_taker w i) then s else state v)).
    { intros v. destruct (Nat.eqb v (w_taker w i)); [|apply V]. eapply Step; [apply I; left; reflexivity|apply V|exact E]. }
    specialize (IH I' (S i) _ V'). destruct (gather _) as [[bs|]|e]; cbn [bind option_map].
    + constructor; [exists (state (w_taker w i)), s; split; [apply V|exact E]|exact IH].
    + destruct IH as (pre & x & post & -> & H). exists (a :: pre), x, post. split; [reflexivity|exact H].
    + destruct IH as (pre & x & post & bs & -> & F2 & H). exists (a :: pre), x, post, (b :: bs). split; [reflexivity|]. split; [|exact H].
      constructor; [exists (state (w_taker w i)), s; split; [apply V|exact E]|exact F2].
  - exists [], a, l'. split; [reflexivity|]. exists (state (w_taker w i)). split; [apply V|exact E].
  - exists [], a, l', []. split; [reflexivity|]. split; [constructor|]. exists (state (w_taker w i)). split; [apply V|exact E].
Qed.
Lemma forM_alone l' : incl l' l -> forall s, ok s ->
  match forM task l' s with
  | Ok (Some (bs, s')) => ok s' /\ Forall2 (fun a b => exists s s', ok s /\ task a s = Ok (Some (b, s'))) l' bs
  | Ok None => exists pre a post, l' = pre ++ a :: post /\ (exists s, ok s /\ task a s = Ok None)
  | Err e => exists pre a post bs, l' = pre ++ a :: post /\ Forall2 (fun a b => exists s s', ok s /\ task a s = Ok (Some (b, s'))) pre bs /\ (exists s, ok s /\ task a s = Err e)
  end.
Proof.
  induction l' as [|a l' IH]; intros I s V; cbn [forM]; [unfold ret; split; [exact V|constructor]|]. unfold then_, ret.
  assert (I' : incl l' l) by (intros x Hx; apply I; right; exact Hx).
  destruct (task a s) as [[[b s1]|]|e] eqn:E; cbn [bind].
  - assert (V1 : ok s1) by (eapply Step; [apply I; left; reflexivity|exact V|exact E]).
    specialize (IH I' s1 V1). destruct (forM task l' s1) as [[[bs s2]|]|e]; cbn [bind].
    + destruct IH as [V2 F2]. split; [exact V2|]. constructor; [exists s, s1; auto|exact F2].
    + destruct IH as (pre & x & post & -> & H). exists (a :: pre), x, post. split; [reflexivity|exact H].
    + destruct IH as (pre & x & post & bs & -> & F2 & H). exists (a :: pre), x, post, (b :: bs). split; [reflexivity|]. split; [constructor; [exists s, s1; auto|exact F2]|exact H].
  - exists [], a, l'. split; [reflexivity|]. exists s. auto.
  - exists [], a, l', []. split; [reflexivity|]. split; [constructor|]. exists s. auto.
Qed.
(** *** Theorem 2: with any number of processes, the outcome of every sample is its outcome alone with some state of the random
    generator, in the order of the samples; if there is an exception, it is that of a sample such that all before it had values. *)
Theorem samples_as_if_alone : forall s, ok s ->
  match each w task l s with
  | Ok (Some (bs, s')) => ok s' /\ Forall2 (fun a b => exists s s', ok s /\ task a s = Ok (Some (b, s'))) l bs
  | Ok None => exists pre a post, l = pre ++ a :: post /\ (exists s, ok s /\ task a s = Ok None)
  | Err e => exists pre a post bs, l = pre ++ a :: post /\ Forall2 (fun a b => exists s s', ok s /\ task a s = Ok (Some (b, s'))) pre bs /\ (exists s, ok s /\ task a s = Err e)
  end.
Proof.
  intros s V. unfold each. destruct (1 <? w_nproc w) eqn:N; [|apply forM_alone; [apply incl_refl|exact V]].
  rewrite pooled_in_order by (apply Fin; lia). assert (G := gather_alone l (incl_refl l) 0%nat (fun _ => s) (fun _ => V)).
  destruct (gather _) as [[bs|]|e]; cbn [bind option_map]; [split; [exact V|exact G]|exact G|exact G].
Qed.
End Loop.
Print Assumptions samples_as_if_alone.

(** *** Theorem 3: if the samples do not depend on the random numbers, every number of processes gives the same values. *)
Theorem same_values_without_randomness : forall {A B} (task : A -> run B) (value : A -> B) w w' l s,
  all_finished (List.length l) w -> all_finished (List.length l) w' ->
  (forall a s, In a l -> exists s', task a s = Ok (Some (value a, s'))) ->
  (exists r, each w task l s = Ok (Some (map value l, r))) /\ (exists r, each w' task l s = Ok (Some (map value l, r))).
Proof.
  assert (K : forall A B (task : A -> run B) (value : A -> B) w l s, all_finished (List.length l) w -> (forall a s, In a l -> exists s', task a s = Ok (Some (value a, s'))) ->
    exists r, each w task l s = Ok (Some (map value l, r))).
  2:{ intros A B task value w w' l s F1 F2 H. split; apply K; assumption. }
  intros A B task value w l s Fin H.
  assert (M := samples_as_if_alone task w l Fin (fun _ => True) (fun _ _ _ _ _ _ _ => I) s I). destruct (each w task l s) as [[[bs r]|]|e].
  - destruct M as [_ F2]. exists r. do 3 f_equal. clear Fin. induction F2 as [|a b l bs (s1 & s2 & _ & E) F2 IH]; [reflexivity|]. cbn [map].
    destruct (H a s1 (or_introl eq_refl)) as (s3 & E2). rewrite E in E2. injection E2 as -> _. f_equal. apply IH. intros x s' Hx. apply H. right. exact Hx.
  - destruct M as (pre & a & post & -> & s1 & _ & E). destruct (H a s1) as (s2 & E2); [apply in_or_app; right; left; reflexivity|congruence].
  - destruct M as (pre & a & post & bs & -> & _ & s1 & _ & E). destruct (H a s1) as (s2 & E2); [apply in_or_app; right; left; reflexivity|congruence].
Qed.
Print Assumptions same_values_without_randomness.

(** *** Theorem 4: with several processes the result of a category does not depend on the other categories or their order: it is
    the result of evaluating the category alone (every parallel loop starts from the same random generator). *)
Lemma parallel_keeps_stream F P lib w d k p ro names a thr c s r s' : 1 < w_nproc w -> evaluate_category_run F P lib w d k p ro names a thr c s = Ok (Some (r, s')) -> s' = s.
Proof.
  intros N. unfold evaluate_category_run. destruct names as [names|]; [|discriminate]. destruct (negb ro); [discriminate|]. destruct (negb _); [discriminate|].
  destruct (match names with [] => Ok false | _ :: _ => getattr (a_inst a) end) as [inst|]; [|discriminate]. cbn [bind].
  destruct (build_samples _ _ _ _ _ _ _) as [[|x samples]|]; [discriminate| |discriminate]. cbn [bind]. destruct (eval_params k (p_thin p) a) as [e|]; [|discriminate]. cbn [bind]. unfold then_, each.
  replace (1 <? w_nproc w) with true by lia. unfold pooled. destruct (gather _) as [[bs|]|]; cbn [bind option_map]; try discriminate.
  destruct (summarise _ _); cbn [bind]; [|discriminate]. intros E. injection E as _ <-. reflexivity.
Qed.
Theorem parallel_categories_are_independent : forall F P lib m nproc pls k p names a thr out cats f s os s' f', 1 < nproc ->
  categories_session (fun n => evaluate_category_session F P lib m (by_plan nproc (pls n)) k p names a thr out) cats f s = (Ok (Some (os, s')), f') ->
  s' = s /\ List.length os = List.length cats /\
  forall i c o, nth_error cats i = Some c -> nth_error os i = Some o ->
    exists rows ths, evaluate_category_run F P lib (by_plan nproc (pls (List.length cats - S i)%nat)) (m_images m) k p (roots_ok m k p) names a thr c s = Ok (Some ((rows, ths, o), s)).
Proof.
  intros F P lib m nproc pls k p names a thr out cats f s os s' f' N. revert f os s' f'. induction cats as [|c cats IH]; intros f os s' f' E.
  - cbn [categories_session] in E. injection E as <- <- <-. split; [reflexivity|]. split; [reflexivity|]. intros [|i]; discriminate.
  - cbn [categories_session] in E. unfold evaluate_category_session at 1 in E.
    destruct (evaluate_category_run F P lib (by_plan nproc (pls (List.length cats))) (m_images m) k p (roots_ok m k p) names a thr c s) as [[[[[rows ths] o] s1]|]|] eqn:E1; try discriminate E.
    assert (s1 = s) as -> by (eapply parallel_keeps_stream; [|exact E1]; exact N).
    match type of E with context [categories_session ?o cats ?f1 s] => destruct (categories_session o cats f1 s) as [[[[os1 s2]|]|] f2] eqn:E2 end; try discriminate E.
    injection E as <- <- <-. destruct (IH _ _ _ _ E2) as (-> & L & H). split; [reflexivity|]. split; [cbn [List.length]; congruence|].
    intros [|i] c' o' Hc Ho; cbn [nth_error List.length] in *.
    + injection Hc as <-. injection Ho as <-. exists rows, ths. replace (S (List.length cats) - 1)%nat with (List.length cats) by lia. exact E1.
    + destruct (H i c' o' Hc Ho) as (rows' & ths' & R). exists rows', ths'. exact R.
Qed.
Print Assumptions parallel_categories_are_independent.

(** ** The hypotheses are met *)
Lemma script_loop F P lib m pp pls root pred suffix gt_dir out o f s t s1 f1 : sbd_script F P lib m pp pls root pred suffix gt_dir out o f s = (Ok (Some (Some t, s1)), f1) ->
  exists k p names a thr cats os s' f',
    categories_session (fun n => evaluate_category_session F P lib m (by_plan (o_nproc o) (pls n)) k p names a thr (save_to out)) cats f s = (Ok (Some (os, s')), f').
Proof.
  unfold sbd_script, script. destruct (cli_sbd o) as [[|j]|] eqn:Ej; try discriminate.
  assert (Hn : j_nproc j = o_nproc o) by (apply (run_spec 20) in Ej; destruct Ej as (cats & th & _ & _ & _ & ->); reflexivity).
  destruct (arg_of (j_ths j)) as [thr|]; [|discriminate]. destruct (snd (set_sample_names _ _ _)) as [names|].
  2:{ destruct (fst _); discriminate. }
  destruct (set_eval_params _ _ _) as [[u|] a]; [|discriminate]. rewrite Hn. set (p := mkPlace _ _ _ _ _ _).
  match goal with |- context [evaluate_session ?F ?P ?l ?m ?pp ?n ?pl ?k ?p ?ns ?a ?t ?d ?c f s] => destruct (evaluate_session F P l m pp n pl k p ns a t d c f s) as [[[[t2 s2]|]|] f3] eqn:Es end; try discriminate. intros _.
  unfold evaluate_session in Es. destruct (ready _ _ _ _ _); [|discriminate Es]. destruct (categories_of _ _) as [cats|]; [|discriminate Es].
  match type of Es with context [categories_session ?o cats f s] => destruct (categories_session o cats f s) as [[[[os s3]|]|] f4] eqn:Ec end; try discriminate Es.
  exists (j_kind j), p, (Some names), a, thr, cats, os, s3, f4. exact Ec.
Qed.
(** The SBD run of PropertiesSession2.v with two processes gets through its loop over the categories. *)
Example ex_parallel_categories : forall lib (pp : printer) f s, raw_values s -> exists F P k p names a thr cats os s' f',
  1 < o_nproc ex_sbd_options /\
  categories_session (fun n => evaluate_category_session F P lib ex_sbd_machine (by_plan (o_nproc ex_sbd_options) (ex_plans n)) k p names a thr (Some (lit "out/r"))) cats f s = (Ok (Some (os, s')), f').
Proof.
  intros lib pp f s V. destruct (ex_sbd_run lib pp f s V) as [D (F & P & t & s1 & f1 & E)]. specialize (E F P (le_n _) (le_n _)).
  destruct (D F P) as (r & f2 & E2 & K). rewrite E in E2. injection E2 as <- <-. destruct (K t s1 eq_refl) as (_ & t1 & rs & Et & _). subst t. clear K D.
  apply script_loop in E. destruct E as (k & p & names & a & thr & cats & os & s3 & f4 & Ec). exists F, P, k, p, names, a, thr, cats, os, s3, f4. split; [reflexivity|exact Ec].
Qed.
(** Two samples that fail: the exception of the first is raised, whoever finishes first. *)
Example ex_first_exception : forall s, each (mkWorkers 8 (fun i => i) [2%nat; 1%nat; 0%nat]) (fun a s => if a =? 1 then Err TypeError else if a =? 2 then Err ValueError else Ok (Some (a, s))) [0; 1; 2] s = Err TypeError.
Proof. reflexivity. Qed.
