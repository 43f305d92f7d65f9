(** Theorems for C74: messages reach the user. *)
From Verif Require Import ModelPrintLog PropertiesUtils.
From Coq Require Import Lia.
Open Scope Z_scope.
Open Scope list_scope.

(** Everything in [dotted_prefixes] is a textual prefix; the last one is the name itself. *)
Lemma dotted_prefixes_prefix t : forall acc p, In p (dotted_prefixes acc t) -> exists r, acc ++ t = p ++ r /\ (exists q, p = acc ++ q).
Proof.
  induction t as [|c t IH]; intros acc p H; cbn [dotted_prefixes] in H.
  - destruct H as [<-|[]]. exists []. split; [reflexivity|]. exists []. symmetry. apply app_nil_r.
  - assert (G : In p (dotted_prefixes (acc ++ [c]) t) -> exists r, acc ++ c :: t = p ++ r /\ (exists q, p = acc ++ q)).
    { intros I. destruct (IH _ _ I) as (r & E & q & Q). rewrite <- app_assoc in E. exists r. split; [exact E|]. exists ([c] ++ q). rewrite Q, app_assoc. reflexivity. }
    destruct (Ascii.eqb c "."); [destruct H as [<-|H]; [|exact (G H)]|exact (G H)].
    exists (c :: t). split; [reflexivity|]. exists []. symmetry. apply app_nil_r.
Qed.
Lemma dotted_prefixes_last t : forall acc, exists ps, dotted_prefixes acc t = ps ++ [acc ++ t] /\ ~ In (acc ++ t) ps.
Proof.
  induction t as [|c t IH]; intros acc; cbn [dotted_prefixes].
  - exists []. rewrite app_nil_r. split; [reflexivity|intros []].
  - destruct (IH (acc ++ [c])) as (ps & E & N). rewrite <- app_assoc in E, N. cbn [app] in E, N. destruct (Ascii.eqb c ".").
    + exists (acc :: ps). rewrite E. split; [reflexivity|]. intros [C|C]; [|contradiction]. apply (f_equal (@List.length _)) in C. rewrite app_length in C. cbn in C. lia.
    + exists ps. auto.
Qed.
Lemma no_handlers_outside calls n : ~ In n (initialized (after_calls calls)) -> handlers (after_calls calls) n = [] /\ level (after_calls calls) n = None.
Proof.
  unfold after_calls. induction calls as [|[[m f] l] calls IH] using rev_ind; [intros _; split; reflexivity|].
  rewrite get_loggers_snoc, get_logger_eq. destruct (blocked (get_loggers calls no_logging) m); [exact IH|].
  cbn [initialized handlers level]. intros N. destruct (text_eqb n m) eqn:E.
  - apply text_eqb_spec in E. subst m. exfalso. apply N. apply in_or_app. right. left. reflexivity.
  - apply IH. intros C. apply N. apply in_or_app. left. exact C.
Qed.

(** Printing without a logger prints, the logger "silent" is silent, and neither touches the loggers. *)
Theorem no_logger_prints : forall g lvl, print_log NoLogger lvl g = Ok ([OnStdout], g).
Proof. reflexivity. Qed.
Theorem silent_is_silent : forall g lvl, print_log (Named (lit "silent")) lvl g = Ok ([], g).
Proof. reflexivity. Qed.

(** The first name of its kind: when no initialised name is a textual prefix of it, a message at INFO or above is
    written on its own stream, exactly once and nowhere else. *)
Lemma unblocked_sees_only_itself calls s f l : (forall m, In m (initialized (after_calls calls)) -> startswith s m = false) ->
  let g := get_logger s f l (after_calls calls) in
  handlers g s = Stream :: file_handlers f /\ level g s = Some l /\
  (forall p, In p (dotted_prefixes [] s) -> p <> s -> handlers g p = [] /\ level g p = None).
Proof.
  intros H. cbv zeta. rewrite get_logger_eq. replace (blocked (after_calls calls) s) with false by (symmetry; apply existsb_false, H).
  cbn [handlers level]. rewrite text_eqb_refl. split; [|split].
  - destruct (no_handlers_outside calls s) as [-> _]; [|reflexivity]. intros C. specialize (H s C). rewrite startswith_refl in H. discriminate.
  - reflexivity.
  - intros p P D. destruct (text_eqb p s) eqn:E; [apply text_eqb_spec in E; contradiction|]. apply no_handlers_outside. intros C. specialize (H p C).
    destruct (dotted_prefixes_prefix s [] p P) as (r & Er & _). cbn in Er. rewrite Er, startswith_app in H. discriminate.
Qed.
Lemma log_alone g s lvl hs l : handlers g s = hs -> hs <> [] -> level g s = Some l -> l <> 0 -> l <= lvl ->
  (forall p, In p (dotted_prefixes [] s) -> p <> s -> handlers g p = [] /\ level g p = None) ->
  log_record g s lvl = map (Handled s) hs.
Proof.
  intros Hh Hne Hl L0 Ll Hp. unfold log_record. destruct (dotted_prefixes_last s []) as (ps & E & N). cbn [app] in E, N. rewrite E, rev_app_distr. cbn [rev app effective_level].
  rewrite Hl. replace (l =? 0) with false by lia. replace (l <=? lvl) with true by lia. cbn [flat_map]. rewrite Hh.
  assert (Z : flat_map (fun n => map (fun h => (n, h)) (handlers g n)) (rev ps) = []).
  { assert (Q : forall p, In p (rev ps) -> handlers g p = []).
    { intros p I. apply in_rev in I. apply Hp; [rewrite E; apply in_or_app; left; exact I|intros ->; contradiction]. }
    induction (rev ps) as [|p qs IH]; [reflexivity|]. cbn [flat_map]. rewrite (Q p) by (left; reflexivity). apply IH. intros q I. apply Q. right. exact I. }
  rewrite Z, app_nil_r. destruct hs as [|h hs]; [contradiction|]. cbn [map].
  assert (F : forall k, filter (fun p : text * handler => match level g (fst p) with Some l => l <=? lvl | None => true end) (map (fun h => (s, h)) k) = map (fun h => (s, h)) k).
  { induction k as [|x k IH]; [reflexivity|]. cbn [map filter fst]. rewrite Hl. replace (l <=? lvl) with true by lia. f_equal. exact IH. }
  change ((s, h) :: map (fun h => (s, h)) hs) with (map (fun h => (s, h)) (h :: hs)). rewrite F, map_map. reflexivity.
Qed.
Theorem new_name_is_heard_once : forall calls s lvl, s <> lit "silent" -> 20 <= lvl ->
  (forall m, In m (initialized (after_calls calls)) -> startswith s m = false) ->
  exists g, print_log (Named s) lvl (after_calls calls) = Ok ([Handled s Stream], g).
Proof.
  intros calls s lvl Hs Hl H. destruct (unblocked_sees_only_itself calls s None 20 H) as (A & B & C).
  unfold print_log. destruct (text_eqb s (lit "silent")) eqn:E; [apply text_eqb_spec in E; contradiction|]. eexists.
  rewrite (log_alone _ s lvl _ 20 A ltac:(discriminate) B ltac:(lia) Hl C). reflexivity.
Qed.
Print Assumptions new_name_is_heard_once.
(** ... and so is every later message to that name: repeating never multiplies or loses a record. *)
Lemma repeated calls s lvl lvls : s <> lit "silent" -> (forall m, In m (initialized (after_calls calls)) -> startswith s m = false) ->
  20 <= lvl -> (forall l, In l lvls -> 20 <= l) ->
  exists g, print_logs (map (fun l => (Named s, l)) (lvl :: lvls)) (after_calls calls) = Ok (repeat [Handled s Stream] (S (List.length lvls)), g).
Proof.
  intros Hs H Hl Hls. destruct (unblocked_sees_only_itself calls s None 20 H) as (A & B & C). set (g := get_logger s None 20 (after_calls calls)) in *.
  assert (I : In s (initialized g)).
  { unfold g. rewrite get_logger_eq. replace (blocked (after_calls calls) s) with false by (symmetry; apply existsb_false, H). apply in_or_app. right. left. reflexivity. }
  assert (F : text_eqb s (lit "silent") = false) by (destruct (text_eqb s (lit "silent")) eqn:E; [apply text_eqb_spec in E; contradiction|reflexivity]).
  assert (G : forall k, (forall l, In l k -> 20 <= l) -> print_logs (map (fun l => (Named s, l)) k) g = Ok (repeat [Handled s Stream] (List.length k), g)).
  { induction k as [|l k IH]; intros Hk; [reflexivity|]. cbn [map print_logs print_log]. rewrite F, (later_calls_ignored g s s None 20 I (startswith_refl s)).
    rewrite (log_alone g s l _ 20 A ltac:(discriminate) B ltac:(lia) (Hk l (or_introl eq_refl)) C). cbn [bind snd]. rewrite IH by (intros x X; apply Hk; right; exact X). reflexivity. }
  exists g. cbn [map print_logs print_log]. rewrite F. fold g. rewrite (log_alone g s lvl _ 20 A ltac:(discriminate) B ltac:(lia) Hl C). cbn [bind snd]. rewrite G by exact Hls. reflexivity.
Qed.
Theorem repeated_messages_each_once : forall calls s lvls, s <> lit "silent" -> (forall l, In l lvls -> 20 <= l) ->
  (forall m, In m (initialized (after_calls calls)) -> startswith s m = false) ->
  exists g, print_logs (map (fun l => (Named s, l)) lvls) (after_calls calls) = Ok (repeat [Handled s Stream] (List.length lvls), g).
Proof.
  intros calls s lvls Hs Hl H. destruct lvls as [|l lvls]; [eexists; reflexivity|].
  apply repeated; try assumption; [apply Hl; left; reflexivity|intros x X; apply Hl; right; exact X].
Qed.
Print Assumptions repeated_messages_each_once.

(** The level counts: below INFO such a name stays silent. *)
Theorem debug_is_not_written : forall calls s lvl, s <> lit "silent" -> lvl < 20 ->
  (forall m, In m (initialized (after_calls calls)) -> startswith s m = false) ->
  exists g, print_log (Named s) lvl (after_calls calls) = Ok ([], g).
Proof.
  intros calls s lvl Hs Hl H. destruct (unblocked_sees_only_itself calls s None 20 H) as (_ & B & _).
  unfold print_log. destruct (text_eqb s (lit "silent")) eqn:E; [apply text_eqb_spec in E; contradiction|]. eexists. unfold log_record.
  destruct (dotted_prefixes_last s []) as (ps & Ep & _). cbn [app] in Ep. rewrite Ep, rev_app_distr. cbn [rev app effective_level]. rewrite B.
  change (20 =? 0) with false. cbv iota. replace (20 <=? lvl) with false by lia. reflexivity.
Qed.
Print Assumptions debug_is_not_written.
(** A logger of which neither itself nor a dotted ancestor was ever initialised: a warning goes to the handler of last
    resort, anything less is lost. *)
Theorem uninitialised_logger : forall calls n lvl,
  (forall m, In m (initialized (after_calls calls)) -> forall r, n <> m ++ r) ->
  print_log (Instance n) lvl (after_calls calls) = Ok (if 30 <=? lvl then [LastResort] else [], after_calls calls).
Proof.
  intros calls n lvl H. set (g := after_calls calls) in *. cbn [print_log]. do 2 f_equal. unfold log_record.
  assert (Q : forall p, In p (rev (dotted_prefixes [] n)) -> handlers g p = [] /\ level g p = None).
  { intros p I. apply in_rev in I. destruct (dotted_prefixes_prefix n [] p I) as (r & Er & _). apply no_handlers_outside. intros C. exact (H p C r Er). }
  set (l := rev (dotted_prefixes [] n)) in *. clearbody l.
  assert (E : effective_level g l = 30).
  { induction l as [|p l IH]; [reflexivity|]. cbn [effective_level]. destruct (Q p (or_introl eq_refl)) as [_ ->]. apply IH. intros q I. apply Q. right. exact I. }
  assert (F : flat_map (fun n => map (fun h => (n, h)) (handlers g n)) l = []).
  { clear E. induction l as [|p l IH]; [reflexivity|]. cbn [flat_map]. destruct (Q p (or_introl eq_refl)) as [-> _]. apply IH. intros q I. apply Q. right. exact I. }
  rewrite E, F. destruct (30 <=? lvl); reflexivity.
Qed.
Print Assumptions uninitialised_logger.

(** No handler ever writes a record below its level, whatever happened before. *)
Theorem handlers_respect_levels : forall g n lvl p h, In (Handled p h) (log_record g n lvl) ->
  In h (handlers g p) /\ (exists r, n = p ++ r) /\ (forall l, level g p = Some l -> l <= lvl).
Proof.
  intros g n lvl p h H. unfold log_record in H. destruct (_ <=? lvl); [|destruct H]. set (found := flat_map _ _) in H.
  assert (G : In (Handled p h) (map (fun q => Handled (fst q) (snd q)) (filter (fun q => match level g (fst q) with Some l => l <=? lvl | None => true end) found))).
  { destruct found; [|exact H]. destruct (30 <=? lvl); [destruct H as [H|[]]; discriminate|destruct H]. }
  apply in_map_iff in G. destruct G as ([p' h'] & E & I). cbn in E. inversion E; subst p' h'; clear E. apply filter_In in I. destruct I as [I L]. cbn [fst] in L.
  unfold found in I. apply in_flat_map in I. destruct I as (q & Iq & I). apply in_map_iff in I. destruct I as (x & E & I). inversion E; subst q x.
  split; [exact I|]. split.
  - apply in_rev in Iq. destruct (dotted_prefixes_prefix n [] p Iq) as (r & Er & _). exists r. exact Er.
  - intros l El. rewrite El in L. lia.
Qed.
Print Assumptions handlers_respect_levels.

(** With the package's own logger initialised, an INFO message to a name that merely starts with its name is lost. *)
Theorem named_message_is_heard_refuted :
  ~ (forall calls s, s <> lit "silent" -> forall r, print_log (Named s) 20 (after_calls calls) = Ok r -> fst r <> []).
Proof.
  intros H. apply (H [(lit "pyEdgeEval", None, 20)] (lit "pyEdgeEval2") ltac:(discriminate) (_, _) eq_refl). vm_compute. reflexivity.
Qed.
Print Assumptions named_message_is_heard_refuted.
(** A child of the package's logger is heard through its parent. *)
Example ex_child : print_log (Named (lit "pyEdgeEval.sub")) 20 (after_calls [(lit "pyEdgeEval", Some (lit "a.log"), 20)])
  = Ok ([Handled (lit "pyEdgeEval") Stream; Handled (lit "pyEdgeEval") (FileHandler (lit "a.log"))], after_calls [(lit "pyEdgeEval", Some (lit "a.log"), 20)]).
Proof. vm_compute. reflexivity. Qed.
Example ex_hyp : forall m, In m (initialized (after_calls [(lit "pyEdgeEval", None, 20)])) -> startswith (lit "pyEdge") m = false.
Proof. intros m [<-|[]]. reflexivity. Qed.
Example ex_uninitialised : print_log (Instance (lit "other")) 30 (after_calls [(lit "pyEdgeEval", None, 20)]) = Ok ([LastResort], after_calls [(lit "pyEdgeEval", None, 20)]).
Proof. apply (uninitialised_logger [(lit "pyEdgeEval", None, 20)]). intros m [<-|[]] r; discriminate. Qed.
Example ex_silently : print_log (Named (lit "silently")) 20 no_logging = Ok ([Handled (lit "silently") Stream], get_logger (lit "silently") None 20 no_logging).
Proof. vm_compute. reflexivity. Qed.
