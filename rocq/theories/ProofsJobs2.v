(** Jobs that save given files: loops and sequences of loops. *)
From Verif Require Import SpecJobs ProofsResults ProofsJobs.
Require Import Lia ZifyBool ZifyNat.
Open Scope Z_scope.
Open Scope list_scope.

(** A job reads only files of [src] and, these being as in [s0], saves the files [l]. *)
Fixpoint touches (src : text -> Prop) (ts : list text) (q : prog) (s : store) : Prop :=
  match q with
  | Ret _ => True
  | Get p k => src p /\ touches src ts (k (s p)) s
  | Put p c k => In p ts /\ touches src ts k (put p c s)
  end.
Definition steps_of (w : text * picture) : list (text * content) := [(fst w, Partial); (fst w, Whole (snd w))].
Definition does (src : text -> Prop) (s0 : store) (q : prog) (l : list (text * picture)) : Prop :=
  forall s, (forall p, src p -> s p = s0 p) -> touches src (map fst l) q s /\ finish q s = (Ok tt, saves l s) /\ trace q s = flat_map steps_of l.

Lemma touches_keeps (src : text -> Prop) own i ts q : (forall p, src p -> own p = None) -> (forall t, In t ts -> own t = Some i) -> forall s, touches src ts q s -> keeps_to own i q s.
Proof.
  intros A B. induction q as [r|p k IH|p c k IH]; intros s T; cbn [touches keeps_to] in *; [exact I| |].
  - destruct T as [S T]. split; [left; apply A; exact S|apply IH; exact T].
  - destruct T as [S T]. split; [apply B; exact S|apply IH; exact T].
Qed.
Lemma touches_more src ts ts' q : incl ts ts' -> forall s, touches src ts q s -> touches src ts' q s.
Proof. intros A. induction q as [r|p k IH|p c k IH]; intros s T; cbn [touches] in *; [exact I| |]; destruct T as [S T]; split; auto. Qed.
Lemma saves_out l : forall s q, ~ In q (map fst l) -> saves l s q = s q.
Proof.
  induction l as [|w l IH]; intros s q N; [reflexivity|]. cbn [map] in N. cbn [saves fold_left]. change (saves l (put (fst w) (Whole (snd w)) (put (fst w) Partial s)) q = s q). rewrite IH by (intros X; apply N; right; exact X).
  rewrite !put_other; [reflexivity| |]; intros X; apply N; left; exact X.
Qed.
Lemma saves_in l : NoDup (map fst l) -> forall s t p, In (t, p) l -> saves l s t = Some (Whole p).
Proof.
  induction l as [|[a b] l IH]; intros ND s t p I0; [destruct I0|]. cbn [map fst] in ND. inversion ND as [|? ? N1 N2]; subst. cbn [saves fold_left fst snd]. change (saves l (put a (Whole b) (put a Partial s)) t = Some (Whole p)).
  destruct I0 as [E|I0]; [|apply IH; assumption]. injection E as <- <-. rewrite saves_out by exact N1. apply put_same.
Qed.

(** ** A loop *)
Lemma NoDup_app_tl {A} (l l' : list A) : NoDup (l ++ l') -> NoDup l'.
Proof. induction l as [|a l IH]; intros N; [exact N|]. inversion N; subst. apply IH. assumption. Qed.
(** Which job a file belongs to. *)
Fixpoint owner (ts : list (list text)) (p : text) : option nat :=
  match ts with
  | [] => None
  | t :: ts => if existsb (text_eqb p) t then Some O else option_map S (owner ts p)
  end.
Lemma existsb_in p t : existsb (text_eqb p) t = true <-> In p t.
Proof. rewrite existsb_exists. split; [intros (x & I & E); apply text_eqb_spec in E; subst; exact I|intros I; exists p; split; [exact I|apply text_eqb_spec; reflexivity]]. Qed.
Lemma owner_none ts p : ~ In p (List.concat ts) -> owner ts p = None.
Proof.
  induction ts as [|t ts IH]; intros N; [reflexivity|]. cbn [owner List.concat] in *. destruct (existsb (text_eqb p) t) eqn:E; [apply existsb_in in E; exfalso; apply N, in_or_app; left; exact E|].
  rewrite IH; [reflexivity|]. intros X. apply N, in_or_app. right. exact X.
Qed.
Lemma owner_lt ts p : forall i, owner ts p = Some i -> (i < List.length ts)%nat.
Proof.
  induction ts as [|t ts IH]; intros i E; [discriminate|]. cbn [owner List.length] in *. destruct (existsb _ _); [injection E as <-; lia|].
  destruct (owner ts p) as [j|]; [|discriminate]. injection E as <-. specialize (IH j eq_refl). lia.
Qed.
Lemma owner_nth ts : NoDup (List.concat ts) -> forall i t p, nth_error ts i = Some t -> In p t -> owner ts p = Some i.
Proof.
  induction ts as [|t0 ts IH]; intros ND i t p E I0; [destruct i; discriminate|]. cbn [owner List.concat] in *. destruct i as [|i]; cbn [nth_error] in E.
  - injection E as ->. replace (existsb (text_eqb p) t) with true by (symmetry; apply existsb_in; exact I0). reflexivity.
  - destruct (existsb (text_eqb p) t0) eqn:X.
    + exfalso. apply existsb_in in X. assert (Y : In p (List.concat ts)) by (apply in_concat; exists t; split; [eapply nth_error_In; exact E|exact I0]).
      clear - ND X Y. induction t0 as [|a t0 IH]; [destruct X|]. cbn [app] in ND. inversion ND as [|? ? N1 N2]; subst. destruct X as [->|X]; [apply N1, in_or_app; right; exact Y|apply IH; assumption].
    + rewrite (IH (NoDup_app_tl _ _ ND) i t p E I0). reflexivity.
Qed.
Lemma first_error_ok l : (forall r, In r l -> r = Ok tt) -> first_error l = Ok tt.
Proof. induction l as [|r l IH]; intros H; [reflexivity|]. rewrite (H r (or_introl eq_refl)). cbn [first_error]. apply IH. intros x I. apply H. right. exact I. Qed.
Lemma forall2_nth {A B} (R : A -> B -> Prop) l l' : Forall2 R l l' -> forall i a, nth_error l i = Some a -> exists b, nth_error l' i = Some b /\ R a b.
Proof. induction 1 as [|a b l l' H F IH]; intros [|i] x E; try discriminate; cbn [nth_error] in *; [injection E as <-; eauto|apply IH; exact E]. Qed.
Lemma forall2_len {A B} (R : A -> B -> Prop) l l' : Forall2 R l l' -> List.length l = List.length l'.
Proof. induction 1; cbn [List.length]; congruence. Qed.
Lemma loop_writes nproc sched (src : text -> Prop) (s0 : store) jobs (w : list (list (text * picture))) s : (forall p, src p -> s p = s0 p) ->
  Forall2 (does src s0) jobs w -> NoDup (map fst (List.concat w)) -> (forall p, src p -> ~ In p (map fst (List.concat w))) ->
  forall o s', track nproc sched jobs s = (o, s') -> writes_only (List.concat w) s o s'.
Proof.
  intros Src F ND Out o s' E. set (ts := map (map fst) w). assert (Ct : List.concat ts = map fst (List.concat w)) by (unfold ts; rewrite concat_map; reflexivity).
  set (own := owner ts).
  assert (Own : forall i l t, nth_error w i = Some l -> In t (map fst l) -> own t = Some i).
  { intros i l t Ei It. apply (owner_nth ts) with (t := map fst l); [rewrite Ct; exact ND|unfold ts; rewrite nth_error_map, Ei; reflexivity|exact It]. }
  assert (Free : forall q, ~ In q (map fst (List.concat w)) -> own q = None) by (intros q N; apply owner_none; rewrite Ct; exact N).
  assert (Ord : orderly own jobs s).
  { split.
    - intros i q Ei. destruct (forall2_nth _ _ _ F i q Ei) as (l & El & D). destruct (D s Src) as (T & _ & _).
      eapply touches_keeps; [|intros t It; eapply Own; eassumption|exact T]. intros p Hp. apply Free, Out, Hp.
    - intros p i Hp. apply owner_lt in Hp. unfold ts in Hp. rewrite map_length in Hp. rewrite (forall2_len _ _ _ F). exact Hp. }
  destruct (track_is_interleaving nproc sched jobs s) as (sched' & qs & I1 & C). rewrite E in I1, C. cbn [fst snd] in *.
  assert (G : pool_good own jobs s qs s') by (eapply pool_good_run; [apply pool_good_start; exact Ord|exact I1]).
  assert (Okall : forall i q, nth_error jobs i = Some q -> exists u, fst (finish q s) = Ok u).
  { intros i q Ei. destruct (forall2_nth _ _ _ F i q Ei) as (l & El & D). destruct (D s Src) as (_ & X & _). rewrite X. exists tt. reflexivity. }
  split; [|split; [|split]].
  - intros r ->. destruct (collect_first own jobs s qs s' r G C) as [-> _]. apply first_error_ok. intros r I2. apply in_map_iff in I2. destruct I2 as (q & <- & I2).
    apply In_nth_error in I2. destruct I2 as (i & Ei). destruct (Okall i q Ei) as ([] & ->). reflexivity.
  - intros q N. destruct G as (_ & _ & H). apply H, Free, N.
  - intros t p I2. apply in_concat in I2. destruct I2 as (l & Il & It). apply In_nth_error in Il. destruct Il as (i & Ei).
    destruct (nth_error jobs i) as [q|] eqn:Ej; [|exfalso; apply nth_error_None in Ej; assert (i < List.length w)%nat by (apply nth_error_Some; congruence); rewrite (forall2_len _ _ _ F) in Ej; lia].
    destruct (forall2_nth _ _ _ F i q Ej) as (l' & El & D). rewrite Ei in El. injection El as <-. destruct (D s Src) as (_ & _ & T).
    destruct G as (_ & G & _). destruct (G i q Ej) as (q' & _ & _ & _ & H & _). destruct (H t) as [_ [X|(c & Ic & X)]]; [eapply Own; [exact Ei|apply in_map_iff; exists (t, p); auto]|left; exact X|]. right.
    rewrite T in Ic. apply in_flat_map in Ic. destruct Ic as ([t' p'] & I3 & [Z|[Z|[]]]); cbn [fst snd] in Z; injection Z as -> <-; [left; exact X|right].
    assert (p' = p) as ->; [|exact X]. clear - ND Ei It I3. assert (N : NoDup (map fst l)).
    { apply nth_error_split in Ei. destruct Ei as (a & b & -> & _). rewrite concat_app, map_app in ND. apply NoDup_app_tl in ND. cbn [List.concat] in ND. rewrite map_app in ND.
      clear - ND. induction (map fst l) as [|x y IH]; [constructor|]. cbn [app] in ND. inversion ND as [|? ? N1 N2]; subst. constructor; [intros X; apply N1, in_or_app; left; exact X|apply IH; exact N2]. }
    clear ND Ei. induction l as [|[a b] l IH]; [destruct It|]. cbn [map fst] in N. inversion N as [|? ? N1 N2]; subst.
    destruct It as [E1|It], I3 as [E2|I3]; [congruence| | |apply IH; assumption]; exfalso; apply N1.
    + injection E1 as -> ->. apply in_map_iff. exists (t, p'). auto.
    + injection E2 as -> ->. apply in_map_iff. exists (t, p). auto.
  - intros No t p I2. destruct o as [r|]; [|congruence]. destruct (collect_first own jobs s qs s' r G C) as [_ H].
    apply in_concat in I2. destruct I2 as (l & Il & It). apply In_nth_error in Il. destruct Il as (i & Ei).
    destruct (nth_error jobs i) as [q|] eqn:Ej; [|exfalso; apply nth_error_None in Ej; assert (i < List.length w)%nat by (apply nth_error_Some; congruence); rewrite (forall2_len _ _ _ F) in Ej; lia].
    destruct (forall2_nth _ _ _ F i q Ej) as (l' & El & D). rewrite Ei in El. injection El as <-. destruct (D s Src) as (_ & X & _).
    rewrite (H i q t Ej); [|eapply Own; [exact Ei|apply in_map_iff; exists (t, p); auto]|intros j qj _ Hj; eapply Okall; exact Hj]. rewrite X. cbn [snd]. apply saves_in; [|exact It].
    clear - ND Ei. apply nth_error_split in Ei. destruct Ei as (a & b & -> & _). rewrite concat_app, map_app in ND. apply NoDup_app_tl in ND. cbn [List.concat] in ND. rewrite map_app in ND.
    induction (map fst l) as [|x y IH]; [constructor|]. cbn [app] in ND. inversion ND as [|? ? N1 N2]; subst. constructor; [intros X; apply N1, in_or_app; left; exact X|apply IH; exact N2].
Qed.

(** ** Loops one after the other *)
Lemma writes_then w1 w2 s o1 s1 o2 s2 : (forall t p p', In (t, p) (w1 ++ w2) -> In (t, p') (w1 ++ w2) -> p = p') ->
  writes_only w1 s o1 s1 -> writes_only w2 s1 o2 s2 -> o1 <> None -> writes_only (w1 ++ w2) s o2 s2.
Proof.
  intros Fun (A1 & B1 & C1 & D1) (A2 & B2 & C2 & D2) N. split; [exact A2|].
  assert (Dec : forall q, In q (map fst w2) \/ ~ In q (map fst w2)) by (intros q; destruct (in_dec (list_eq_dec ascii_dec) q (map fst w2)); auto).
  split; [|split].
  - intros q H. rewrite map_app in H. rewrite B2, B1; [reflexivity| |]; intros X; apply H, in_or_app; [left|right]; exact X.
  - intros t p I0. destruct (Dec t) as [H|H].
    + apply in_map_iff in H. destruct H as ([t' p'] & E & I2). cbn [fst] in E. subst t'. assert (p' = p) as -> by (eapply Fun; [apply in_or_app; right; exact I2|exact I0]).
      destruct (C2 t p I2) as [E|[E|E]]; [|right; left; exact E|right; right; exact E]. rewrite E.
      destruct (in_dec (list_eq_dec ascii_dec) t (map fst w1)) as [H|H]; [|left; apply B1; exact H].
      apply in_map_iff in H. destruct H as ([t' p'] & E' & I1). cbn [fst] in E'. subst t'. right. right. rewrite (D1 N t p' I1). do 2 f_equal. eapply Fun; [apply in_or_app; left; exact I1|exact I0].
    + apply in_app_or in I0. destruct I0 as [I1|I2]; [|exfalso; apply H, in_map_iff; exists (t, p); auto]. rewrite B2 by exact H. right. right. apply D1; assumption.
  - intros N2 t p I0. destruct (Dec t) as [H|H].
    + apply in_map_iff in H. destruct H as ([t' p'] & E & I2). cbn [fst] in E. subst t'. assert (p' = p) as -> by (eapply Fun; [apply in_or_app; right; exact I2|exact I0]). apply D2; assumption.
    + apply in_app_or in I0. destruct I0 as [I1|I2]; [|exfalso; apply H, in_map_iff; exists (t, p); auto]. rewrite B2 by exact H. apply D1; assumption.
Qed.
Lemma writes_stop w1 w2 s s1 : (forall t p p', In (t, p) (w1 ++ w2) -> In (t, p') (w1 ++ w2) -> p = p') -> writes_only w1 s None s1 -> writes_only (w1 ++ w2) s None s1.
Proof.
  intros Fun (A & B & C & D). split; [exact A|]. split; [|split; [|congruence]].
  - intros q H. apply B. intros X. apply H. rewrite map_app. apply in_or_app. left. exact X.
  - intros t p I0. destruct (in_dec (list_eq_dec ascii_dec) t (map fst w1)) as [H|H]; [|left; apply B; exact H].
    apply in_map_iff in H. destruct H as ([t' p'] & E & I1). cbn [fst] in E. subst t'. assert (p' = p) as -> by (eapply Fun; [apply in_or_app; left; exact I1|exact I0]). apply C; exact I1.
Qed.
Lemma stages_write nproc scheds (src : text -> Prop) (s0 : store) : forall l (ws : list (list (list (text * picture)))) s, (forall p, src p -> s p = s0 p) ->
  Forall2 (Forall2 (does src s0)) l ws -> (forall w, In w ws -> NoDup (map fst (List.concat w))) ->
  (forall p, src p -> ~ In p (map fst (List.concat (List.concat ws)))) ->
  (forall t p p', In (t, p) (List.concat (List.concat ws)) -> In (t, p') (List.concat (List.concat ws)) -> p = p') ->
  forall o s', stages nproc scheds l s = (o, s') -> writes_only (List.concat (List.concat ws)) s o s'.
Proof.
  induction l as [|jobs l IH]; intros ws s Src F ND Out Fun o s' E; inversion F as [|? w ? ws' F1 F2 X1 X2]; subst; cbn [stages] in E.
  - injection E as <- <-. split; [intros r X; congruence|]. split; [reflexivity|]. split; [intros t p []|intros _ t p []].
  - cbn [List.concat] in *. rewrite concat_app in *. destruct (track nproc (scheds (List.length l)) jobs s) as [o1 s1] eqn:E1.
    assert (W1 : writes_only (List.concat w) s o1 s1).
    { eapply loop_writes; [exact Src|exact F1|apply ND; left; reflexivity| |exact E1]. intros p Hp X. apply (Out p Hp). rewrite map_app. apply in_or_app. left. exact X. }
    destruct o1 as [[u|e]|].
    + eapply writes_then; [exact Fun|exact W1| |discriminate]. apply (IH ws' s1); [|exact F2|intros w' I'; apply ND; right; exact I'| | |exact E].
      * intros p Hp. destruct W1 as (_ & B & _). rewrite B; [apply Src; exact Hp|]. intros X. apply (Out p Hp). rewrite map_app. apply in_or_app. left. exact X.
      * intros p Hp X. apply (Out p Hp). rewrite map_app. apply in_or_app. right. exact X.
      * intros t p p' I1 I2. apply (Fun t); apply in_or_app; right; assumption.
    + destruct W1 as (A & _). discriminate (A _ eq_refl).
    + injection E as <- <-. apply writes_stop; assumption.
Qed.

(** ** The jobs *)
Lemma files_touch src l : forall s, touches src (map fst l) (files_prog (Ok l)) s.
Proof.
  assert (G : forall l' s, incl l' l -> touches src (map fst l) (files_prog (Ok l')) s); [|intros s; apply G, incl_refl].
  induction l' as [|w l' IH]; intros s I0; [exact I|]. cbn [files_prog fold_right]. unfold save_file. cbn [touches].
  assert (J : In (fst w) (map fst l)) by (apply in_map, I0; left; reflexivity). split; [exact J|]. split; [exact J|]. apply IH. intros x Hx. apply I0. right. exact Hx.
Qed.
Lemma files_does src s0 l : does src s0 (files_prog (Ok l)) l.
Proof.
  intros s _. split; [apply files_touch|]. revert s. induction l as [|w l IH]; intros s; [split; reflexivity|].
  cbn [files_prog fold_right save_file finish trace]. destruct (IH (put (fst w) (Whole (snd w)) (put (fst w) Partial s))) as [E T]. split; [exact E|]. cbn [flat_map]. unfold steps_of at 1. cbn [app].
  do 2 f_equal. exact T.
Qed.
Lemma convert_does (src : text -> Prop) s0 f inst proc ls is es radius thin scale seal t p :
  convert_label (complete s0) f inst proc ls is es radius thin scale seal = Ok (t, p) -> src f -> (inst = true -> src (inst_file f ls is)) ->
  does src s0 (convert_prog f inst proc ls is es radius thin scale seal) [(t, p)].
Proof.
  intros E Sf Si s Src. unfold convert_prog. unfold convert_label in E. cbv zeta in *. set (tg := edge_target f proc ls es) in *.
  destruct (thin && negb (radius =? 1)); [discriminate|]. unfold on_disk, open_gray, complete in E. rewrite <- (Src f Sf) in E.
  unfold if_exists, read_gray. cbn [touches finish trace]. destruct (s f) as [[[img|im]|]|] eqn:Ef; try discriminate E.
  2:{ cbn [negb] in E. destruct (negb (known_format _)); discriminate E. }
  cbn [negb bind] in E. destruct (negb (known_format (snd (splitext tg)))); [discriminate|]. cbn [touches finish trace]. rewrite Ef.
  destruct inst; cbn [touches finish trace bind] in *.
  - specialize (Si eq_refl). rewrite <- (Src _ Si) in E. destruct (s (inst_file f ls is)) as [[[i|im]|]|] eqn:Ei; try discriminate E. cbn [negb bind touches finish trace] in *. rewrite Ei.
    destruct (convert_scaled (Some i) radius thin scale seal img) as [e|]; [|discriminate]. cbn [bind] in *. destruct (store_edges (snd (splitext tg)) e) as [c|]; [|discriminate]. cbn [bind] in E. injection E as <- <-.
    cbn [save_file touches finish trace map fst]. assert (In tg [tg]) by (left; reflexivity). split; [tauto|]. split; reflexivity.
  - destruct (convert_scaled None radius thin scale seal img) as [e|]; [|discriminate]. cbn [bind] in *. destruct (store_edges (snd (splitext tg)) e) as [c|]; [|discriminate]. cbn [bind] in E. injection E as <- <-.
    cbn [save_file touches finish trace map fst]. assert (In tg [tg]) by (left; reflexivity). split; [tauto|]. split; reflexivity.
Qed.
Lemma json_does src s0 draw proc f c : draw f = Ok c -> does src s0 (json_prog draw proc f) [(trainid_target f proc, c)].
Proof. intros E s _. unfold json_prog. rewrite E. cbn [save_file touches finish trace map fst]. assert (In (trainid_target f proc) [trainid_target f proc]) by (left; reflexivity). split; [tauto|]. split; reflexivity. Qed.
