(** Proofs about evaluating the samples in several processes. *)
From Verif Require Import SpecSamples SpecEval ProofsEval ProofsProgress.
From Coq Require Import Permutation Lia ZifyBool ZifyNat.
Open Scope Z_scope.
Open Scope list_scope.

Lemma outcomes_length {A B} (task : A -> run B) taker l : forall i state, List.length (outcomes task taker i l state) = List.length l.
Proof. induction l as [|a l IH]; intros i state; [reflexivity|]. cbn [outcomes]. destruct (task a (state (taker i))) as [[[b s]|]|]; cbn [List.length]; rewrite IH; reflexivity. Qed.
Lemma pooled_in_order {A B} (task : A -> run B) taker finished l s : Permutation finished (seq 0 (List.length l)) ->
  pooled taker finished task l s = bind (gather (outcomes task taker 0 l (fun _ => s))) (fun o => Ok (option_map (fun bs => (bs, s)) o)).
Proof. intros P. unfold pooled. rewrite deliver_ordered; [reflexivity|]. rewrite outcomes_length. exact P. Qed.
Lemma outcomes_map {A B C} (h : A -> C) (task : C -> run B) taker l : forall i state, outcomes task taker i (map h l) state = outcomes (fun a => task (h a)) taker i l state.
Proof. induction l as [|a l IH]; intros i state; [reflexivity|]. cbn [outcomes map]. destruct (task (h a) (state (taker i))) as [[[b s]|]|]; rewrite IH; reflexivity. Qed.
Lemma forM_map' {A B C} (h : A -> C) (task : C -> run B) l : forall s, forM task (map h l) s = forM (fun a => task (h a)) l s.
Proof. induction l as [|a l IH]; intros s; [reflexivity|]. cbn [forM map]. unfold then_ at 1 3. destruct (task (h a) s) as [[[b s1]|]|]; try reflexivity. cbn [bind]. unfold then_. rewrite IH. reflexivity. Qed.
Lemma each_map {A B C} w (h : A -> C) (task : C -> run B) l s : each w task (map h l) s = each w (fun a => task (h a)) l s.
Proof. unfold each, pooled. destruct (1 <? w_nproc w); [rewrite outcomes_map; reflexivity|apply forM_map']. Qed.
Lemma outcomes_ext {A B} (task task' : A -> run B) taker l : (forall a s, In a l -> task a s = task' a s) ->
  forall i state, outcomes task taker i l state = outcomes task' taker i l state.
Proof.
  induction l as [|a l IH]; intros H i state; [reflexivity|]. cbn [outcomes]. rewrite (H a) by (left; reflexivity).
  assert (H' : forall b s, In b l -> task b s = task' b s) by (intros b s I; apply H; right; exact I).
  destruct (task' a (state (taker i))) as [[[b s]|]|]; rewrite (IH H'); reflexivity.
Qed.
Lemma forM_ext' {A B} (task task' : A -> run B) l : (forall a s, In a l -> task a s = task' a s) -> forall s, forM task l s = forM task' l s.
Proof.
  induction l as [|a l IH]; intros H s; [reflexivity|]. cbn [forM]. unfold then_ at 1 3. rewrite (H a) by (left; reflexivity).
  destruct (task' a s) as [[[b s1]|]|]; try reflexivity. cbn [bind]. unfold then_. rewrite IH; [reflexivity|]. intros c s2 I. apply H. right. exact I.
Qed.
Lemma each_ext {A B} w (task task' : A -> run B) l s : (forall a s, In a l -> task a s = task' a s) -> each w task l s = each w task' l s.
Proof. intros H. unfold each, pooled. destruct (1 <? w_nproc w); [rewrite (outcomes_ext task task' _ l H); reflexivity|apply forM_ext'; exact H]. Qed.
Lemma gather_length {B} (l : list (res (option B))) bs : gather l = Ok (Some bs) -> List.length bs = List.length l.
Proof.
  revert bs. induction l as [|[[b|]|e] l IH]; intros bs; cbn [gather]; try discriminate; [intros E; injection E as <-; reflexivity|].
  destruct (gather l) as [[cs|]|]; cbn [bind option_map]; try discriminate. intros E. injection E as <-. cbn [List.length]. rewrite (IH cs eq_refl). reflexivity.
Qed.
Lemma forM_length' {A B} (task : A -> run B) l : forall s bs s', forM task l s = Ok (Some (bs, s')) -> List.length bs = List.length l.
Proof.
  induction l as [|a l IH]; intros s bs s'; cbn [forM]; [unfold ret; intros E; injection E as <- <-; reflexivity|]. unfold then_, ret.
  destruct (task a s) as [[[b s1]|]|]; cbn [bind]; try discriminate. destruct (forM task l s1) as [[[cs s2]|]|] eqn:E1; cbn [bind]; try discriminate.
  intros E. injection E as <- <-. cbn [List.length]. rewrite (IH _ _ _ E1). reflexivity.
Qed.
Lemma each_length {A B} w (task : A -> run B) l s bs s' : all_finished (List.length l) w -> each w task l s = Ok (Some (bs, s')) -> List.length bs = List.length l.
Proof.
  unfold all_finished, each. intros P. destruct (1 <? w_nproc w) eqn:N; [|apply forM_length'].
  rewrite pooled_in_order by (apply P; lia). destruct (gather _) as [[cs|]|] eqn:G; cbn [bind option_map]; try discriminate. intros E. injection E as <- <-.
  rewrite (gather_length _ _ G), outcomes_length. reflexivity.
Qed.
(** A sample without value: no result. *)
Lemma outcomes_no_value {A B} (task : A -> run B) taker l a : In a l -> (forall s v, task a s <> Ok (Some v)) ->
  forall i state bs, gather (outcomes task taker i l state) <> Ok (Some bs).
Proof.
  intros I H. induction l as [|b l IH]; [destruct I|]. intros i state bs. cbn [outcomes]. destruct (task b (state (taker i))) as [[[v s]|]|] eqn:E; cbn [gather]; try discriminate.
  destruct I as [->|I]; [exfalso; exact (H _ _ E)|]. match goal with |- context [gather ?x] => destruct (gather x) as [[cs|]|] eqn:G end; cbn [bind option_map]; try discriminate.
  exfalso. exact (IH I _ _ _ G).
Qed.
Lemma forM_no_value' {A B} (task : A -> run B) l a : In a l -> (forall s v, task a s <> Ok (Some v)) -> forall s v, forM task l s <> Ok (Some v).
Proof.
  intros I H. induction l as [|b l IH]; [destruct I|]. intros s v E. cbn [forM] in E. unfold then_ in E. destruct (task b s) as [[[x s1]|]|] eqn:Eb; cbn [bind] in E; try discriminate E.
  destruct I as [->|I]; [exact (H _ _ Eb)|]. destruct (forM task l s1) as [[[y s2]|]|] eqn:El; cbn [bind] in E; try discriminate E. exact (IH I _ _ El).
Qed.
Lemma each_no_value {A B} w (task : A -> run B) l a : all_finished (List.length l) w -> In a l -> (forall s v, task a s <> Ok (Some v)) -> forall s v, each w task l s <> Ok (Some v).
Proof.
  unfold all_finished, each. intros P I H s v. destruct (1 <? w_nproc w) eqn:N; [|apply (forM_no_value' task l a I H)].
  rewrite pooled_in_order by (apply P; lia). destruct (gather _) as [[cs|]|] eqn:G; cbn [bind option_map]; try discriminate.
  exfalso. exact (outcomes_no_value task (w_taker w) l a I H _ _ _ G).
Qed.
(** The exception of the first sample. *)
Lemma each_first_error {A B} w (task : A -> run B) a l e : all_finished (S (List.length l)) w -> (forall s, task a s = Err e) -> forall s, each w task (a :: l) s = Err e.
Proof.
  unfold all_finished, each. intros P H s. destruct (1 <? w_nproc w) eqn:N.
  - rewrite pooled_in_order by (apply P; lia). cbn [outcomes]. rewrite H. reflexivity.
  - cbn [forM]. unfold then_. rewrite H. reflexivity.
Qed.
(** If every sample can be evaluated, with any random numbers, so can all of them, by any number of processes. *)
Lemma outcomes_deliver {A B} (f : nat -> nat -> A -> run B) (R : A -> B -> Prop) taker l : (forall a s, In a l -> raw_values s -> delivers (fun F P => f F P a) s (R a)) ->
  forall i state, (forall v, raw_values (state v)) ->
  (forall F P, exists o, gather (outcomes (f F P) taker i l state) = Ok o /\ forall bs, o = Some bs -> Forall2 R l bs) /\
  exists F P bs, forall fuel pfuel, (F <= fuel)%nat -> (P <= pfuel)%nat -> gather (outcomes (f fuel pfuel) taker i l state) = Ok (Some bs).
Proof.
  induction l as [|a l IH]; intros H i state V.
  - split; [intros F P; exists (Some []); split; [reflexivity|]; intros bs E; injection E as <-; constructor|]. exists O, O, []. reflexivity.
  - assert (H' : forall b s, In b l -> raw_values s -> delivers (fun F P => f F P b) s (R b)) by (intros b s I; apply H; right; exact I).
    destruct (H a (state (taker i)) (or_introl eq_refl) (V (taker i))) as [S (F0 & P0 & b0 & s0 & T)]. split.
    + intros F P. cbn [outcomes]. destruct (S F P) as (r & E & K). rewrite E. destruct r as [[b s]|]; cbn [gather]; [|exists None; split; [reflexivity|discriminate]].
      destruct (K b s eq_refl) as [Vs Rb].
      destruct (IH H' (Datatypes.S i) (fun v => if Nat.eqb v (taker i) then s else state v)) as [D _]; [intros v; destruct (Nat.eqb v (taker i)); [exact Vs|apply V]|].
      destruct (D F P) as (o & G & Q). rewrite G. cbn [bind]. exists (option_map (cons b) o). split; [reflexivity|]. destruct o as [cs|]; cbn [option_map]; [|discriminate].
      intros bs E1. injection E1 as <-. constructor; [exact Rb|apply Q; reflexivity].
    + destruct (S F0 P0) as (r & E & K). rewrite (T F0 P0 (le_n _) (le_n _)) in E. injection E as <-. destruct (K b0 s0 eq_refl) as [Vs Rb].
      destruct (IH H' (Datatypes.S i) (fun v => if Nat.eqb v (taker i) then s0 else state v)) as [_ (F1 & P1 & bs & T1)]; [intros v; destruct (Nat.eqb v (taker i)); [exact Vs|apply V]|].
      exists (Nat.max F0 F1), (Nat.max P0 P1), (b0 :: bs). intros fuel pfuel HF HP. cbn [outcomes]. rewrite T by lia. cbn [gather]. rewrite T1 by lia. reflexivity.
Qed.
Lemma each_delivers {A B} w (f : nat -> nat -> A -> run B) (R : A -> B -> Prop) l s : all_finished (List.length l) w -> raw_values s ->
  (forall a s', In a l -> raw_values s' -> delivers (fun F P => f F P a) s' (R a)) ->
  delivers (fun F P => each w (f F P) l) s (fun bs => Forall2 R l bs).
Proof.
  unfold all_finished, each. intros P V H. destruct (1 <? w_nproc w) eqn:N; [|apply delivers_forM; assumption].
  destruct (outcomes_deliver f R (w_taker w) l H 0%nat (fun _ => s) (fun _ => V)) as [D (F & Q & bs & T)]. split.
  - intros fuel pfuel. rewrite pooled_in_order by (apply P; lia). destruct (D fuel pfuel) as (o & G & K). rewrite G. cbn [bind]. exists (option_map (fun bs => (bs, s)) o). split; [reflexivity|].
    destruct o as [cs|]; cbn [option_map]; [|discriminate]. intros a s' E. injection E as <- <-. split; [exact V|apply K; reflexivity].
  - exists F, Q, bs, s. intros fuel pfuel HF HP. rewrite pooled_in_order by (apply P; lia). rewrite T by assumption. reflexivity.
Qed.
