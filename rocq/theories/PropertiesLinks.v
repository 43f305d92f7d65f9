(** Theorems for C75: links. *)
From Verif Require Import ModelLinks.
From Coq Require Import Lia.
Open Scope Z_scope.
Open Scope list_scope.

Lemma text_eqb_true a b : text_eqb a b = true <-> a = b.
Proof. unfold text_eqb. destruct (list_eq_dec Ascii.ascii_dec a b); split; intros; congruence. Qed.
Lemma lset_same p n t : lset p n t p = n.
Proof. unfold lset. replace (text_eqb p p) with true; [reflexivity|]. symmetry. apply text_eqb_true. reflexivity. Qed.
Lemma lset_other p n t q : p <> q -> lset p n t q = t q.
Proof. intros H. unfold lset. destruct (text_eqb p q) eqn:E; [apply text_eqb_true in E; contradiction|reflexivity]. Qed.

(** A property of all reachable states: kept by every step of every process. *)
Lemma move_split parent i ps t : match nth_error ps i with
  | None => link_move parent i ps t = (ps, t)
  | Some (c, w) => exists a b, ps = a ++ (c, w) :: b /\ length a = i /\ link_move parent i ps t = (a ++ (c, fst (link_step parent c w t)) :: b, snd (link_step parent c w t))
  end.
Proof.
  revert i. induction ps as [|[c w] ps IH]; intros [|i]; cbn [nth_error link_move]; try reflexivity.
  - exists [], ps. destruct (link_step parent c w t). auto.
  - specialize (IH i). destruct (nth_error ps i) as [[c' w']|].
    + destruct IH as (a & b & -> & L & E). exists ((c, w) :: a), b. rewrite E. cbn. auto.
    + rewrite IH. reflexivity.
Qed.
Lemma run_invariant parent (P : procs -> ltree -> Prop) :
  (forall a c w b t, P (a ++ (c, w) :: b) t -> P (a ++ (c, fst (link_step parent c w t)) :: b) (snd (link_step parent c w t))) ->
  forall sched ps t, P ps t -> P (fst (link_run parent sched ps t)) (snd (link_run parent sched ps t)).
Proof.
  intros S sched. induction sched as [|i sched IH]; intros ps t H; [exact H|]. cbn [link_run].
  pose proof (move_split parent i ps t) as M. destruct (nth_error ps i) as [[c w]|].
  - destruct M as (a & b & -> & _ & E). rewrite E. apply IH, S, H.
  - rewrite M. apply IH, H.
Qed.
Lemma start_in cs c w : In (c, w) (start cs) <-> In c cs /\ w = AtTest.
Proof.
  unfold start. rewrite in_map_iff. split; [intros (x & E & I); inversion E; subst; auto|intros [I ->]; eauto].
Qed.
(** The calls stay the calls. *)
Lemma calls_kept parent sched cs t : map fst (fst (link_run parent sched (start cs) t)) = cs.
Proof.
  apply (run_invariant parent (fun ps _ => map fst ps = cs)).
  - intros a c w b t' H. rewrite map_app in *. exact H.
  - unfold start. rewrite map_map. apply map_id.
Qed.

(** At every moment of every run, so at every crash: only destinations of calls are touched, and a destination holds what was
    there before, or nothing (then the call that removed it replaces), or a link made by a call that returned. *)
Theorem links_at_every_moment : forall parent sched cs t, let '(ps, t') := link_run parent sched (start cs) t in
  (forall q, ~ In q (map dst cs) -> t' q = t q) /\
  (forall q, t' q = t q \/ (t' q = None /\ t q <> Some LDir /\ exists c, In c cs /\ dst c = q /\ overwrite c = true) \/
     exists c, In (c, Over LinkMade) ps /\ dst c = q /\ t' q = Some (LLink (src c))).
Proof.
  intros parent sched cs t. destruct (link_run parent sched (start cs) t) as [ps t'] eqn:E.
  set (P := fun (ps : procs) (t' : ltree) => (forall c w, In (c, w) ps -> In c cs) /\ (forall c, In (c, AtRemove) ps -> overwrite c = true) /\
    (forall q, ~ In q (map dst cs) -> t' q = t q) /\ (forall q, t q = Some LDir -> t' q = Some LDir) /\
    (forall q, t' q = t q \/ (t' q = None /\ t q <> Some LDir /\ exists c, In c cs /\ dst c = q /\ overwrite c = true) \/
     exists c, In (c, Over LinkMade) ps /\ dst c = q /\ t' q = Some (LLink (src c)))).
  assert (I : P ps t'); [|split; apply I].
  cut (P (fst (link_run parent sched (start cs) t)) (snd (link_run parent sched (start cs) t))); [rewrite E; exact (fun x => x)|].
  apply run_invariant; unfold P; clear P.
  - clear E ps t'. intros a c w b t' (I1 & I2 & I3 & I4 & I5).
    assert (Ic : In c cs) by (apply (I1 c w), in_elt). assert (Id : In (dst c) (map dst cs)) by (apply in_map, Ic).
    assert (K : forall w' x, In x (a ++ (c, w) :: b) -> x <> (c, w) -> In x (a ++ (c, w') :: b)).
    { intros w' x H N. apply in_app_or in H. apply in_or_app. destruct H as [H|[H|H]]; [left; exact H|congruence|right; right; exact H]. }
    assert (B : forall w' x, In x (a ++ (c, w') :: b) -> x = (c, w') \/ In x (a ++ (c, w) :: b)).
    { intros w' x H. apply in_app_or in H. destruct H as [H|[H|H]]; [right; apply in_or_app; left; exact H|left; congruence|right; apply in_or_app; right; right; exact H]. }
    assert (C1 : forall w' c' w0, In (c', w0) (a ++ (c, w') :: b) -> In c' cs).
    { intros w' c' w0 H. destruct (B _ _ H) as [H'|H']; [inversion H'; subst; exact Ic|apply (I1 _ _ H')]. }
    assert (C2 : forall w', (w' = AtRemove -> overwrite c = true) -> forall c', In (c', AtRemove) (a ++ (c, w') :: b) -> overwrite c' = true).
    { intros w' Hw c' H. destruct (B _ _ H) as [H'|H']; [inversion H'; subst; auto|apply (I2 _ H')]. }
    assert (C5 : forall w' q, w <> Over LinkMade -> (t' q = t q \/ (t' q = None /\ t q <> Some LDir /\ exists c, In c cs /\ dst c = q /\ overwrite c = true) \/
       exists c', In (c', Over LinkMade) (a ++ (c, w') :: b) /\ dst c' = q /\ t' q = Some (LLink (src c')))).
    { intros w' q Hw. destruct (I5 q) as [H|[H|(c' & H1 & H2 & H3)]]; [left; exact H|right; left; exact H|]. right. right. exists c'. split; [|auto]. apply K; [exact H1|congruence]. }
    assert (Same : forall w', (w' = AtRemove -> overwrite c = true) -> w <> Over LinkMade ->
      (forall c0 w0, In (c0, w0) (a ++ (c, w') :: b) -> In c0 cs) /\ (forall c0, In (c0, AtRemove) (a ++ (c, w') :: b) -> overwrite c0 = true) /\
      (forall q, ~ In q (map dst cs) -> t' q = t q) /\ (forall q, t q = Some LDir -> t' q = Some LDir) /\
      (forall q, t' q = t q \/ (t' q = None /\ t q <> Some LDir /\ exists c, In c cs /\ dst c = q /\ overwrite c = true) \/
       exists c', In (c', Over LinkMade) (a ++ (c, w') :: b) /\ dst c' = q /\ t' q = Some (LLink (src c')))).
    { intros w' H1 H2. split; [apply C1|]. split; [apply C2, H1|]. split; [exact I3|]. split; [exact I4|]. intros q. apply C5, H2. }
    assert (Changed : forall w' n, w' <> AtRemove -> w <> Over LinkMade -> t' (dst c) <> Some LDir ->
      ((n = None /\ overwrite c = true) \/ (w' = Over LinkMade /\ n = Some (LLink (src c)))) ->
      let t'' := lset (dst c) n t' in
      (forall c0 w0, In (c0, w0) (a ++ (c, w') :: b) -> In c0 cs) /\ (forall c0, In (c0, AtRemove) (a ++ (c, w') :: b) -> overwrite c0 = true) /\
      (forall q, ~ In q (map dst cs) -> t'' q = t q) /\ (forall q, t q = Some LDir -> t'' q = Some LDir) /\
      (forall q, t'' q = t q \/ (t'' q = None /\ t q <> Some LDir /\ exists c, In c cs /\ dst c = q /\ overwrite c = true) \/
       exists c', In (c', Over LinkMade) (a ++ (c, w') :: b) /\ dst c' = q /\ t'' q = Some (LLink (src c')))).
    { intros w' n H1 H2 H3 Hn t''. split; [apply C1|]. split; [apply C2; intros X; contradiction|].
      assert (Z : t (dst c) <> Some LDir) by (intros X; apply H3, I4, X).
      split; [intros q Nq; unfold t''; rewrite lset_other by (intros <-; contradiction); apply I3, Nq|].
      split; [intros q Hq; unfold t''; rewrite lset_other by (intros <-; contradiction); apply I4, Hq|].
      intros q. destruct (list_eq_dec Ascii.ascii_dec (dst c) q) as [<-|D].
      - right. unfold t''. rewrite lset_same. destruct Hn as [[-> Ho]|[-> ->]].
        + left. split; [reflexivity|]. split; [exact Z|]. exists c. auto.
        + right. exists c. split; [apply in_elt|auto].
      - unfold t''. rewrite lset_other by exact D. apply C5, H2. }
    destruct w as [| | |r].
    + cbn [link_step fst snd]. apply Same; [|discriminate]. destruct (t' (dst c)); [|discriminate]. destruct (overwrite c); [reflexivity|discriminate].
    + cbn [link_step]. assert (Ho : overwrite c = true) by (apply I2, in_elt). destruct (t' (dst c)) as [[|x|y]|] eqn:F; cbn [fst snd];
        first [apply Same; discriminate | apply Changed; first [discriminate | left; auto | intros X; discriminate]].
    + cbn [link_step]. destruct (t' (dst c)) as [x|] eqn:F; [cbn [fst snd]; apply Same; discriminate|].
      destruct (parent (dst c)); cbn [fst snd]; [apply Changed; first [discriminate | right; auto | intros X; discriminate]|apply Same; discriminate].
    + cbn [link_step fst snd]. repeat split; assumption.
  - split; [intros c w H; apply start_in in H; apply H|]. split; [intros c H; apply start_in in H; destruct H; discriminate|]. auto.
Qed.
Print Assumptions links_at_every_moment.

Definition over (w : where_at) : bool := match w with Over _ => true | _ => false end.
(** When all calls have ended, each destination (in an existing directory) that had no directory in the way holds something: no
    destination is lost, however the calls overlapped. *)
Theorem no_destination_is_lost : forall parent sched cs t q, let '(ps, t') := link_run parent sched (start cs) t in
  In q (map dst cs) -> parent q = true -> forallb (fun p => over (snd p)) ps = true -> t' q <> None.
Proof.
  intros parent sched cs t q. destruct (link_run parent sched (start cs) t) as [ps t'] eqn:E. intros Hq Hp Hover.
  assert (I : t' q = None -> exists c w, In (c, w) ps /\ dst c = q /\ (w = AtTest \/ w = AtLink)).
  { set (P := fun (ps : procs) (t' : ltree) => t' q = None -> exists c w, In (c, w) ps /\ dst c = q /\ (w = AtTest \/ w = AtLink)).
    cut (P (fst (link_run parent sched (start cs) t)) (snd (link_run parent sched (start cs) t))); [rewrite E; exact (fun x => x)|].
    apply run_invariant; unfold P; clear P.
    - clear - Hp. intros a c w b t H. destruct (list_eq_dec Ascii.ascii_dec (dst c) q) as [D|D].
      + destruct w as [| | |r]; cbn [link_step].
        * cbn [fst snd]. intros N. rewrite D, N. exists c, AtLink. split; [apply in_elt|auto].
        * rewrite D. destruct (t q) as [[|x|y]|] eqn:F; cbn [fst snd]; intros N; try congruence; try (exists c, AtLink; split; [apply in_elt|auto]).
          destruct (H eq_refl) as (c' & w' & I & Dq & W). exists c', w'. split; [|auto]. apply in_app_or in I. apply in_or_app. destruct I as [I|[I|I]]; [left; exact I| |right; right; exact I].
          inversion I; subst. destruct W; discriminate.
        * rewrite D. destruct (t q) as [x|] eqn:F; [cbn [fst snd]; congruence|]. destruct (parent q) eqn:P; cbn [fst snd]; [rewrite lset_same; discriminate|].
          congruence.
        * exact H.
      + intros N. assert (N' : t q = None).
        { destruct w as [| | |r]; cbn [link_step snd] in N; [exact N| | |exact N].
          - destruct (t (dst c)) as [[|x|y]|]; cbn [snd] in N; try exact N; rewrite lset_other in N by exact D; exact N.
          - destruct (t (dst c)); [exact N|]. destruct (parent (dst c)); cbn [snd] in N; [rewrite lset_other in N by exact D|]; exact N. }
        destruct (H N') as (c' & w' & I & Dq & W). exists c', w'. split; [|auto]. apply in_app_or in I. apply in_or_app. destruct I as [I|[I|I]]; [left; exact I|congruence|right; right; exact I].
    - intros _. apply in_map_iff in Hq. destruct Hq as (c & Dq & I). exists c, AtTest. split; [apply start_in; auto|auto]. }
  intros N. destruct (I N) as (c & w & J & _ & W). rewrite forallb_forall in Hover. specialize (Hover _ J). destruct W as [-> | ->]; discriminate.
Qed.
Print Assumptions no_destination_is_lost.

(** A link as a lock: of any number of calls that do not overwrite, for one new destination, at most one returns at every
    moment, and exactly one when all have ended. *)
Definition made (p : link_call * where_at) : bool := match snd p with Over LinkMade => true | _ => false end.
Theorem one_link_wins : forall parent sched cs t q,
  (forall c, In c cs -> dst c = q /\ overwrite c = false) -> t q = None ->
  let '(ps, t') := link_run parent sched (start cs) t in
  (List.length (filter made ps) <= 1)%nat /\
  (parent q = true -> cs <> [] -> forallb (fun p => over (snd p)) ps = true -> List.length (filter made ps) = 1%nat) /\
  (forall c, In (c, Over LinkMade) ps -> t' q = Some (LLink (src c))).
Proof.
  intros parent sched cs t q Hc Ht. pose proof (no_destination_is_lost parent sched cs t q) as NL. destruct (link_run parent sched (start cs) t) as [ps t'] eqn:E.
  set (P := fun (ps : procs) (t' : ltree) => (forall c w, In (c, w) ps -> dst c = q /\ overwrite c = false /\ w <> AtRemove) /\
     match t' q with
     | None => filter made ps = []
     | Some n => exists c, filter made ps = [(c, Over LinkMade)] /\ n = LLink (src c)
     end).
  assert (I : P ps t').
  { cut (P (fst (link_run parent sched (start cs) t)) (snd (link_run parent sched (start cs) t))); [rewrite E; exact (fun x => x)|].
    apply run_invariant; unfold P; clear P.
    - clear - Hc. intros a c w b t [I1 I2]. destruct (I1 c w (in_elt _ _ _)) as (D & O & W).
      assert (K : forall w', w' <> AtRemove -> forall c0 w0, In (c0, w0) (a ++ (c, w') :: b) -> dst c0 = q /\ overwrite c0 = false /\ w0 <> AtRemove).
      { intros w' Hw c0 w0 H. apply in_app_or in H. destruct H as [H|[H|H]]; [apply I1; apply in_or_app; left; exact H|inversion H; subst; auto|apply I1; apply in_or_app; right; right; exact H]. }
      assert (F : forall w', made (c, w') = made (c, w) -> made (c, w) = false -> filter made (a ++ (c, w') :: b) = filter made (a ++ (c, w) :: b)).
      { intros w' H1 H2. rewrite !filter_app. cbn [filter]. rewrite H1, H2. reflexivity. }
      destruct w as [| | |r]; [|contradiction| |split; [exact I1|exact I2]]; cbn [link_step]; rewrite D.
      + rewrite O. replace (match t q with Some _ => AtLink | None => AtLink end) with AtLink by (destruct (t q); reflexivity). cbn [fst snd].
        split; [apply K; discriminate|]. rewrite F by reflexivity. exact I2.
      + destruct (t q) as [n|] eqn:Tq; [cbn [fst snd]; split; [apply K; discriminate|]; rewrite Tq, F by reflexivity; exact I2|].
        destruct (parent q); cbn [fst snd].
        * split; [apply K; discriminate|]. rewrite lset_same. exists c. split; [|reflexivity].
          rewrite filter_app in I2. cbn [filter made snd] in I2. apply app_eq_nil in I2. destruct I2 as [A B].
          rewrite filter_app. cbn [filter made snd]. rewrite A, B. reflexivity.
        * split; [apply K; discriminate|]. rewrite Tq, F by reflexivity. exact I2.
    - split.
      + intros c w H. apply start_in in H. destruct H as [H ->]. destruct (Hc c H). repeat split; auto. discriminate.
      + rewrite Ht. unfold start. clear. induction cs as [|c cs IH]; [reflexivity|]. cbn [map filter made snd]. exact IH. }
  destruct I as [_ I]. split; [|split].
  - destruct (t' q); [destruct I as (c & -> & _)|rewrite I]; cbn; lia.
  - intros Hp Hne Hov. assert (Q : In q (map dst cs)).
    { destruct cs as [|c cs]; [contradiction|]. left. apply Hc. left. reflexivity. }
    specialize (NL Q Hp Hov). destruct (t' q); [destruct I as (c & -> & _); reflexivity|contradiction].
  - intros c J. assert (J' : In (c, Over LinkMade) (filter made ps)) by (apply filter_In; auto).
    destruct (t' q) as [n|]; [destruct I as (c' & F & ->)|rewrite I in J'; destruct J']. rewrite F in J'. destruct J' as [J'|[]]. inversion J'. reflexivity.
Qed.
Print Assumptions one_link_wins.

(** A single call, run to its end: the documented outcomes, and nothing else changes. *)
Theorem single_call : forall parent c t, (forall n, t (dst c) = Some n -> parent (dst c) = true) ->
  let '(ps, t') := link_run parent [0; 0; 0]%nat (start [c]) t in
  ps = [(c, Over (match t (dst c) with
                  | None => if parent (dst c) then LinkMade else LNotFound
                  | Some LDir => if overwrite c then LIsADirectory else LExistsError
                  | Some _ => if overwrite c then LinkMade else LExistsError
                  end))] /\
  (made (hd (c, AtTest) ps) = true -> t' (dst c) = Some (LLink (src c)) /\ forall q, q <> dst c -> t' q = t q) /\
  (made (hd (c, AtTest) ps) = false -> forall q, t' q = t q).
Proof.
  intros parent c t Hp. unfold start. cbn [map link_run link_move link_step].
  destruct (t (dst c)) as [[|x|y]|] eqn:F; [destruct (overwrite c); cbn [link_step]; rewrite F; cbn [link_step made hd snd]; (split; [reflexivity|split; [discriminate|auto]])| | |].
  - destruct (overwrite c); cbn [link_step]; rewrite F; cbn [link_step].
    + rewrite lset_same, (Hp _ eq_refl). cbn [made hd snd]. split; [reflexivity|]. split; [|discriminate]. intros _. split; [apply lset_same|].
      intros q D. rewrite !lset_other by congruence. reflexivity.
    + cbn [made hd snd]. split; [reflexivity|]. split; [discriminate|auto].
  - destruct (overwrite c); cbn [link_step]; rewrite F; cbn [link_step].
    + rewrite lset_same, (Hp _ eq_refl). cbn [made hd snd]. split; [reflexivity|]. split; [|discriminate]. intros _. split; [apply lset_same|].
      intros q D. rewrite !lset_other by congruence. reflexivity.
    + cbn [made hd snd]. split; [reflexivity|]. split; [discriminate|auto].
  - cbn [link_step]. rewrite F. destruct (parent (dst c)); cbn [link_step made hd snd].
    + split; [reflexivity|]. split; [|discriminate]. intros _. split; [apply lset_same|]. intros q D. rewrite lset_other by congruence. reflexivity.
    + split; [reflexivity|]. split; [discriminate|auto].
Qed.
Print Assumptions single_call.

(** Overwriting is not atomic: a crash between the two steps leaves nothing, and two overlapping overwriting calls can both
    fail to be served quietly. *)
Definition old : ltree := fun q => if text_eqb q (lit "d") then Some (LLink (lit "a")) else None.
Definition ow (s : string) : link_call := mkCall (lit s) (lit "d") true.
Theorem overwriting_is_atomic_refuted : ~ (forall parent sched cs t q, t q <> None -> snd (link_run parent sched (start cs) t) q <> None).
Proof. intros H. apply (H (fun _ => true) [0; 0]%nat [ow "b"] old (lit "d")); [discriminate|reflexivity]. Qed.
Print Assumptions overwriting_is_atomic_refuted.
Theorem overwriting_never_fails_refuted : ~ (forall parent sched cs t c r, (forall q, parent q = true) -> (forall q, t q <> Some LDir) -> overwrite c = true ->
  In (c, Over r) (fst (link_run parent sched (start cs) t)) -> r = LinkMade).
Proof.
  intros H. assert (X : LNotFound = LinkMade); [|discriminate].
  apply (H (fun _ => true) [0; 1; 0; 1]%nat [ow "b"; ow "c"] old (ow "c") LNotFound); [reflexivity| |reflexivity|right; left; reflexivity].
  intros q. unfold old. destruct (text_eqb q (lit "d")); discriminate.
Qed.
Print Assumptions overwriting_never_fails_refuted.

(** [check_file_exist] accepts what leads, through at most 40 links, to a file. *)
Inductive leads_to_file (t : ltree) : nat -> text -> Prop :=
| lf_file p x : t p = Some (LFile x) -> leads_to_file t 0 p
| lf_link p q n : t p = Some (LLink q) -> leads_to_file t n q -> leads_to_file t (S n) p.
Theorem checked_files : forall t p, (exists n, (n <= 40)%nat /\ leads_to_file t n p) <-> check_file_exist t p = Ok tt.
Proof.
  intros t. assert (G : forall h p, (exists n, (n <= h)%nat /\ leads_to_file t n p) <-> is_file h t p = true).
  { induction h as [|h IH]; intros p; (split; [intros (n & L & F)|intros F]); cbn [is_file] in *.
    - inversion F as [? x E|? q m E _]; subst; [rewrite E; reflexivity|lia].
    - destruct (t p) as [[|x|y]|] eqn:E; try discriminate. exists 0%nat. split; [lia|]. econstructor. exact E.
    - inversion F as [? x E|? q m E F']; subst; rewrite E; [reflexivity|]. apply IH. exists m. split; [lia|exact F'].
    - destruct (t p) as [[|x|y]|] eqn:E; try discriminate.
      + exists 0%nat. split; [lia|]. econstructor. exact E.
      + apply IH in F. destruct F as (n & L & F). exists (S n). split; [lia|]. econstructor; eassumption. }
  intros p. rewrite G. unfold check_file_exist. destruct (is_file 40 t p); split; congruence.
Qed.
Print Assumptions checked_files.
(** Two overlapping overwriting calls, one of which fails; the link of the other is there. *)
Example ex_overlap : let '(ps, t') := link_run (fun _ => true) [0; 1; 0; 1; 0]%nat (start [ow "b"; ow "c"]) old in
  map snd ps = [Over LinkMade; Over LNotFound] /\ t' (lit "d") = Some (LLink (lit "b")) /\ check_file_exist t' (lit "d") = Err FileNotFoundError.
Proof. vm_compute. auto. Qed.
Example ex_lock : let cs := [mkCall (lit "b") (lit "e") false; mkCall (lit "c") (lit "e") false] in
  (forall c, In c cs -> dst c = lit "e" /\ overwrite c = false) /\ old (lit "e") = None /\
  map snd (fst (link_run (fun _ => true) [0; 1; 1; 0]%nat (start cs) old)) = [Over LExistsError; Over LinkMade].
Proof. split; [intros c [<-|[<-|[]]]; split; reflexivity|]. split; reflexivity. Qed.
