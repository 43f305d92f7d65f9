(** Interleaved jobs that keep to their files. *)
From Verif Require Import SpecJobs ProofsResults.
Require Import Lia ZifyBool ZifyNat.
Open Scope Z_scope.
Open Scope list_scope.

Lemma put_same p c s : put p c s p = Some c.
Proof. unfold put. replace (text_eqb p p) with true; [reflexivity|]. symmetry. apply text_eqb_spec. reflexivity. Qed.
Lemma put_other p c s q : p <> q -> put p c s q = s q.
Proof. intros N. unfold put. destruct (text_eqb p q) eqn:E; [apply text_eqb_spec in E; contradiction|reflexivity]. Qed.
Lemma put_ext p c s s' q : s q = s' q -> put p c s q = put p c s' q.
Proof. intros E. unfold put. destruct (text_eqb p q); [reflexivity|exact E]. Qed.

(** ** One job *)
Section One.
Variables (own : text -> option nat) (i : nat).
Definition sees p := own p = None \/ own p = Some i.
Lemma alone_agree q : forall s s', keeps_to own i q s -> (forall p, sees p -> s' p = s p) ->
  keeps_to own i q s' /\ fst (finish q s') = fst (finish q s) /\ (forall p, sees p -> snd (finish q s') p = snd (finish q s) p) /\ trace q s' = trace q s.
Proof.
  induction q as [r|p k IH|p c k IH]; intros s s' K A; cbn [keeps_to finish trace] in *.
  - auto.
  - destruct K as [O K]. rewrite (A p O). destruct (IH (s p) s s' K A) as (K' & R & F & T). auto.
  - destruct K as [O K]. destruct (IH (put p c s) (put p c s') K) as (K' & R & F & T); [intros p' S; apply put_ext, A, S|].
    repeat split; try assumption. f_equal. exact T.
Qed.
Lemma alone_keeps q : forall s, keeps_to own i q s -> forall p, own p <> Some i -> snd (finish q s) p = s p.
Proof.
  induction q as [r|p k IH|p c k IH]; intros s K q N; cbn [keeps_to finish] in *; [reflexivity|apply IH; tauto|].
  destruct K as [O K]. rewrite IH by assumption. apply put_other. congruence.
Qed.
End One.

(** ** Steps of the pool *)
Lemma step_at_spec : forall jobs i s, exists qs s', step_at i jobs s = (qs, s') /\ List.length qs = List.length jobs /\
  (forall j, j <> i -> nth_error qs j = nth_error jobs j) /\
  match nth_error jobs i with Some q => nth_error qs i = Some (fst (step1 q s)) /\ s' = snd (step1 q s) | None => qs = jobs /\ s' = s end.
Proof.
  induction jobs as [|q jobs IH]; intros i s.
  - exists [], s. destruct i; repeat split; reflexivity.
  - destruct i as [|i]; cbn [step_at nth_error].
    + destruct (step1 q s) as [q' s'] eqn:E. exists (q' :: jobs), s'. split; [reflexivity|]. split; [reflexivity|]. split; [intros [|j] N; [congruence|reflexivity]|]. split; reflexivity.
    + destruct (IH i s) as (qs & s' & E & L & O & M). rewrite E. exists (q :: qs), s'. split; [reflexivity|]. split; [cbn [List.length]; congruence|].
      split; [intros [|j] N; [reflexivity|cbn [nth_error]; apply O; congruence]|]. destruct (nth_error jobs i); [exact M|]. destruct M as [-> ->]. split; reflexivity.
Qed.

(** ** The invariant of the pool *)
Section Pool.
Variables (own : text -> option nat) (jobs : list prog) (s0 : store).
Hypothesis Ord : orderly own jobs s0.
Definition pool_good (qs : list prog) (s : store) : Prop :=
  List.length qs = List.length jobs /\
  (forall i q0, nth_error jobs i = Some q0 -> exists q, nth_error qs i = Some q /\ keeps_to own i q s /\ fst (finish q s) = fst (finish q0 s0) /\
     (forall p, own p = Some i -> snd (finish q s) p = snd (finish q0 s0) p /\ (s p = s0 p \/ exists c, In (p, c) (trace q0 s0) /\ s p = Some c)) /\
     incl (trace q s) (trace q0 s0)) /\
  (forall p, own p = None -> s p = s0 p).
Lemma pool_good_start : pool_good jobs s0.
Proof.
  split; [reflexivity|]. split; [|reflexivity]. intros i q0 E. exists q0. destruct Ord as [K _]. split; [exact E|]. split; [apply K; exact E|]. split; [reflexivity|].
  split; [intros p _; split; [reflexivity|left; reflexivity]|apply incl_refl].
Qed.
Lemma pool_good_step i qs s : pool_good qs s -> forall qs' s', step_at i qs s = (qs', s') -> pool_good qs' s'.
Proof.
  intros (L & G & N) qs' s' E. destruct (step_at_spec qs i s) as (qs1 & s1 & E1 & L1 & O & M). rewrite E in E1. injection E1 as <- <-.
  destruct (nth_error qs i) as [q|] eqn:Ei; [destruct M as [Ei' ->]|destruct M as [-> ->]; exact (conj L (conj G N))].
  assert (Hi : exists q0, nth_error jobs i = Some q0).
  { destruct (nth_error jobs i) eqn:X; [eauto|]. apply nth_error_None in X. assert (i < List.length qs)%nat by (apply nth_error_Some; congruence). lia. }
  destruct Hi as (q0 & H0). destruct (G i q0 H0) as (q1 & E1 & K & R & F & T). rewrite Ei in E1. injection E1 as <-.
  (* the store changes only in files of job [i] *)
  assert (Same : forall p, own p <> Some i -> snd (step1 q s) p = s p).
  { intros p H. destruct q as [r|p' k|p' c k]; cbn [step1 snd] in *; [reflexivity|reflexivity|]. destruct K as [Op _]. apply put_other. congruence. }
  split; [congruence|]. split.
  - intros j qj Hj. destruct (Nat.eq_dec j i) as [->|Nj].
    + rewrite H0 in Hj. injection Hj as <-. exists (fst (step1 q s)). split; [exact Ei'|].
      destruct q as [r|p' k|p' c k]; cbn [step1 fst snd keeps_to finish trace] in *.
      * exact (conj I (conj R (conj F T))).
      * destruct K as [_ K]. exact (conj K (conj R (conj F T))).
      * destruct K as [Op K]. split; [exact K|]. split; [exact R|]. split.
        -- intros p Hp. destruct (F p Hp) as [F1 F2]. split; [exact F1|]. destruct (list_eq_dec ascii_dec p' p) as [<-|Ne].
           ++ right. exists c. split; [apply T; left; reflexivity|apply put_same].
           ++ rewrite put_other by exact Ne. exact F2.
        -- intros x Hx. apply T. right. exact Hx.
    + destruct (G j qj Hj) as (q1 & E1 & K1 & R1 & F1 & T1). exists q1. rewrite O by exact Nj. split; [exact E1|].
      destruct (alone_agree own j q1 s (snd (step1 q s)) K1) as (K2 & R2 & F2 & T2).
      { intros p [H|H]; apply Same; rewrite H; congruence. }
      split; [exact K2|]. split; [congruence|]. split; [|rewrite T2; exact T1].
      intros p Hp. destruct (F1 p Hp) as [A B]. rewrite F2 by (right; exact Hp). split; [exact A|]. rewrite Same by congruence. exact B.
  - intros p Hp. rewrite Same by congruence. apply N. exact Hp.
Qed.
Lemma pool_good_run sched : forall qs s, pool_good qs s -> forall qs' s', interleave sched qs s = (qs', s') -> pool_good qs' s'.
Proof.
  induction sched as [|i sched IH]; intros qs s G qs' s' E; cbn [interleave] in E; [injection E as <- <-; exact G|].
  destruct (step_at i qs s) as [qs1 s1] eqn:E1. eapply IH; [|exact E]. eapply pool_good_step; [exact G|exact E1].
Qed.
(** ** Conclusions *)
Lemma collect_first qs s r : pool_good qs s -> collect qs = Some r -> r = first_error (map (fun q => fst (finish q s0)) jobs) /\
  (forall i q0 p, nth_error jobs i = Some q0 -> own p = Some i -> (forall j qj, (j <= i)%nat -> nth_error jobs j = Some qj -> exists u, fst (finish qj s0) = Ok u) -> s p = snd (finish q0 s0) p).
Proof.
  intros (L & G & N).
  assert (Gen : forall qs js, List.length qs = List.length js ->
     (forall i q0, nth_error js i = Some q0 -> exists q, nth_error qs i = Some q /\ fst (finish q s) = fst (finish q0 s0)) -> collect qs = Some r ->
     r = first_error (map (fun q => fst (finish q s0)) js) /\
     forall i q0, nth_error js i = Some q0 -> (forall j qj, (j <= i)%nat -> nth_error js j = Some qj -> exists u, fst (finish qj s0) = Ok u) -> exists u, nth_error qs i = Some (Ret u)).
  { clear. induction qs as [|q qs IH]; intros [|j js] L G C; try discriminate L.
    - injection C as <-. split; [reflexivity|]. intros [|i]; discriminate.
    - destruct (G 0%nat j eq_refl) as (q' & X & R). injection X as <-. cbn [map first_error].
      assert (G' : forall i q0, nth_error js i = Some q0 -> exists q, nth_error qs i = Some q /\ fst (finish q s) = fst (finish q0 s0)) by (intros i; apply (G (S i))).
      destruct q as [[u|e]|p k|p c k]; cbn [collect] in C; try discriminate C; cbn [finish fst] in R; rewrite <- R.
      + injection L as L. destruct (IH js L G' C) as [A B]. split; [exact A|]. intros [|i] q0 Hi H; [exists (Ok u); reflexivity|]. cbn [nth_error] in *.
        apply (B i q0 Hi). intros k qk Hk Ek. apply (H (S k) qk); [lia|exact Ek].
      + injection C as <-. split; [reflexivity|]. intros i q0 Hi H. exfalso. destruct (H 0%nat j ltac:(lia) eq_refl) as (u & E). congruence. }
  intros C. destruct (Gen qs jobs L) as [A B]; [intros i q0 H; destruct (G i q0 H) as (q & E & _ & R & _); eauto|exact C|].
  split; [exact A|]. intros i q0 p Hi Hp H. destruct (B i q0 Hi H) as (u & E). destruct (G i q0 Hi) as (q & E' & _ & _ & F & _). rewrite E in E'. injection E' as <-.
  destruct (F p Hp) as [F1 _]. cbn [finish snd] in F1. exact F1.
Qed.
End Pool.

(** ** One process is one of the schedules *)
Lemma step_at_app pre q post s : step_at (List.length pre) (pre ++ q :: post) s = (pre ++ fst (step1 q s) :: post, snd (step1 q s)).
Proof. induction pre as [|a pre IH]; cbn [List.length app step_at]; [destruct (step1 q s); reflexivity|rewrite IH; reflexivity]. Qed.
Lemma interleave_app a b jobs s : interleave (a ++ b) jobs s = let (qs, s') := interleave a jobs s in interleave b qs s'.
Proof. revert jobs s. induction a as [|i a IH]; intros jobs s; [reflexivity|]. cbn [app interleave]. destruct (step_at i jobs s). apply IH. Qed.
Lemma finish_steps pre post q : forall s, exists n, interleave (repeat (List.length pre) n) (pre ++ q :: post) s = (pre ++ Ret (fst (finish q s)) :: post, snd (finish q s)).
Proof.
  induction q as [r|p k IH|p c k IH]; intros s; cbn [finish].
  - exists 0%nat. reflexivity.
  - destruct (IH (s p) s) as (n & E). exists (S n). cbn [repeat interleave]. rewrite step_at_app. cbn [step1 fst snd]. exact E.
  - destruct (IH (put p c s)) as (n & E). exists (S n). cbn [repeat interleave]. rewrite step_at_app. cbn [step1 fst snd]. exact E.
Qed.
Lemma in_turn_steps jobs : forall pre s, collect pre = Some (Ok tt) -> (forall q, In q pre -> exists u, q = Ret (Ok u)) ->
  exists sched qs, interleave sched (pre ++ jobs) s = (qs, snd (in_turn jobs s)) /\ collect qs = Some (fst (in_turn jobs s)).
Proof.
  assert (C : forall pre l, (forall q, In q pre -> exists u, q = Ret (Ok u)) -> collect (pre ++ l) = collect l).
  { induction pre as [|q pre IH]; intros l H; [reflexivity|]. destruct (H q (or_introl eq_refl)) as (u & ->). cbn [app collect]. apply IH. intros x Hx. apply H. right. exact Hx. }
  induction jobs as [|q jobs IH]; intros pre s _ P; cbn [in_turn].
  - exists [], (pre ++ []). split; [reflexivity|]. rewrite C by exact P. reflexivity.
  - destruct (finish_steps pre jobs q s) as (n & E). destruct (finish q s) as [[u|e] s1] eqn:F; cbn [fst snd] in *.
    + assert (P' : forall x, In x (pre ++ [Ret (Ok u)]) -> exists u, x = Ret (Ok u)) by (intros x Hx; apply in_app_or in Hx; destruct Hx as [Hx|[<-|[]]]; [apply P; exact Hx|eauto]).
      destruct (IH (pre ++ [Ret (Ok u)]) s1) as (sched & qs & E1 & C1); [rewrite C by exact P; reflexivity|exact P'|].
      exists (repeat (List.length pre) n ++ sched), qs. split; [|exact C1]. rewrite interleave_app, E. rewrite <- app_assoc in E1. exact E1.
    + exists (repeat (List.length pre) n), (pre ++ Ret (Err e) :: jobs). split; [exact E|]. rewrite C by exact P. reflexivity.
Qed.
Lemma track_is_interleaving nproc sched jobs s : exists sched' qs, interleave sched' jobs s = (qs, snd (track nproc sched jobs s)) /\ collect qs = fst (track nproc sched jobs s).
Proof.
  unfold track. destruct (1 <? nproc).
  - destruct (interleave sched jobs s) as [qs s'] eqn:E. exists sched, qs. auto.
  - destruct (in_turn_steps jobs [] s eq_refl ltac:(intros q [])) as (sched' & qs & E & C). destruct (in_turn jobs s) as [r s']. exists sched', qs. auto.
Qed.
