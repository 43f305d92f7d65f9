(** Timers and loggers: theorems. *)
From Verif Require Export SpecUtils PropertiesCLI.
From Coq Require Import Lia ZifyBool ZifyNat Lqa.
Open Scope Z_scope.
Open Scope list_scope.

(** ** C41 *)
Lemma run_app clk h1 h2 t n : timer_run clk (h1 ++ h2) t n =
  let '(r1, t1, n1) := timer_run clk h1 t n in let '(r2, t2, n2) := timer_run clk h2 t1 n1 in (r1 ++ r2, t2, n2).
Proof.
  revert t n. induction h1 as [|o h1 IH]; intros t n; cbn [app timer_run].
  - destruct (timer_run clk h2 t n) as [[r t2] n2]. reflexivity.
  - destruct (timer_op clk o t n) as [[r t1] n1]. rewrite IH. destruct (timer_run clk h1 t1 n1) as [[r1 t2] n2]. destruct (timer_run clk h2 t2 n2) as [[r2 t3] n3]. reflexivity.
Qed.
Lemma run_snoc clk h o t n : timer_run clk (h ++ [o]) t n =
  let '(r1, t1, n1) := timer_run clk h t n in let '(r2, t2, n2) := timer_op clk o t1 n1 in (r1 ++ [r2], t2, n2).
Proof. rewrite run_app. destruct (timer_run clk h t n) as [[r1 t1] n1]. cbn [timer_run]. destruct (timer_op clk o t1 n1) as [[r2 t2] n2]. reflexivity. Qed.
(** The state after a history from an unstarted timer. *)
Definition st (clk : clock) (h : list top) : timer := snd (fst (timer_run clk h unstarted 0)).
Lemma st_snoc clk h o : st clk (h ++ [o]) = snd (fst (timer_op clk o (st clk h) (readings clk h))) /\ readings clk (h ++ [o]) = snd (timer_op clk o (st clk h) (readings clk h)).
Proof.
  unfold st, readings. rewrite run_snoc. destruct (timer_run clk h unstarted 0) as [[r1 t1] n1]. cbn [fst snd]. destruct (timer_op clk o t1 n1) as [[r2 t2] n2]. split; reflexivity.
Qed.
Lemma outcome_eq clk h o : outcome_of clk h o = fst (fst (timer_op clk o (st clk h) (readings clk h))).
Proof. unfold outcome_of, st, readings. destruct (timer_run clk h unstarted 0) as [[r t] n]. reflexivity. Qed.
Lemma op_running clk o t n : t_running (snd (fst (timer_op clk o t n))) = match o with TStart => true | TExit => false | _ => t_running t end.
Proof. destruct t as [[|] a b], o; reflexivity. Qed.
Lemma is_running_snoc h o : is_running (h ++ [o]) <-> match o with TStart => True | TExit => False | _ => is_running h end.
Proof.
  split.
  - intros (h1 & h2 & E & N). destruct h2 as [|x h2'] using rev_ind.
    + apply app_inj_tail in E. destruct E as [_ ->]. exact I.
    + clear IHh2'. rewrite app_comm_cons, app_assoc in E. apply app_inj_tail in E. destruct E as [-> <-].
      assert (R : is_running (h1 ++ TStart :: h2')) by (exists h1, h2'; split; [reflexivity|]; intros C; apply N, in_or_app; left; exact C).
      destruct o; try exact I; try exact R. apply N, in_or_app. right. left. reflexivity.
  - destruct o; intros H; try contradiction.
    + exists h, []. split; [reflexivity|intros []].
    + destruct H as (h1 & h2 & -> & N). exists h1, (h2 ++ [TSinceStart]). split; [rewrite <- app_assoc; reflexivity|]. intros C. apply in_app_or in C. destruct C as [C|[C|[]]]; [contradiction|discriminate].
    + destruct H as (h1 & h2 & -> & N). exists h1, (h2 ++ [TSinceLast]). split; [rewrite <- app_assoc; reflexivity|]. intros C. apply in_app_or in C. destruct C as [C|[C|[]]]; [contradiction|discriminate].
Qed.
Lemma st_running clk h : t_running (st clk h) = true <-> is_running h.
Proof.
  induction h as [|o h IH] using rev_ind.
  - split; [discriminate|]. intros (h1 & h2 & E & _). destruct h1; discriminate.
  - destruct (st_snoc clk h o) as [-> _]. rewrite op_running, is_running_snoc. destruct o; [split; auto|exact IH|exact IH|split; [discriminate|contradiction]].
Qed.
(** Reading a timer that is not running is an error and changes nothing; otherwise it is not. *)
Theorem timer_error_iff_not_running : forall clk h o, o <> TStart ->
  (outcome_of clk h o = Err TimerError <-> ~ is_running h) /\
  (~ is_running h -> timer_op clk o (st clk h) (readings clk h) = (Err TimerError, st clk h, readings clk h)).
Proof.
  intros clk h o N. rewrite outcome_eq, <- (st_running clk h). destruct (st clk h) as [[|] a b] eqn:E; cbn [t_running].
  - destruct o; [congruence| | |]; cbn; split; try (split; [discriminate|congruence]); congruence.
  - destruct o; [congruence| | |]; cbn; split; try (split; congruence); intros _; reflexivity.
Qed.
Print Assumptions timer_error_iff_not_running.
(** The invariant of a running period. *)
Lemma period clk h1 h2 : ~ is_running h1 -> ~ In TExit h2 ->
  t_running (st clk (h1 ++ TStart :: h2)) = true /\ t_start (st clk (h1 ++ TStart :: h2)) = clk (readings clk h1) /\
  (readings clk h1 + 1 < readings clk (h1 ++ TStart :: h2))%nat /\ t_last (st clk (h1 ++ TStart :: h2)) = clk (readings clk (h1 ++ TStart :: h2) - 1)%nat.
Proof.
  intros R. induction h2 as [|o h2 IH] using rev_ind; intros N.
  - destruct (st_snoc clk h1 TStart) as [-> ->]. rewrite <- (st_running clk) in R. destruct (st clk h1) as [[|] a b]; [exfalso; apply R; reflexivity|].
    cbn [timer_op timer_start t_running fst snd t_start t_last]. repeat split; try lia.
  - destruct IH as (A & B & C & D); [intros I; apply N, in_or_app; left; exact I|].
    assert (Ho : o <> TExit) by (intros ->; apply N, in_or_app; right; left; reflexivity).
    rewrite app_comm_cons, app_assoc. destruct (st_snoc clk (h1 ++ TStart :: h2) o) as [-> ->]. set (n := readings clk (h1 ++ TStart :: h2)) in *.
    destruct (st clk (h1 ++ TStart :: h2)) as [[|] a b]; [|discriminate]. cbn [t_start t_last] in *.
    destruct o; [| | |congruence]; cbn [timer_op timer_start timer_since_start timer_since_last t_running fst snd t_start t_last]; repeat split; try assumption; try lia; try (f_equal; lia).
Qed.
(** The elapsed time counts from the start that made the timer running; starting it again while it runs
    does not change that. *)
Theorem elapsed_time : forall clk h1 h2, ~ is_running h1 -> ~ In TExit h2 ->
  let h := h1 ++ TStart :: h2 in
  outcome_of clk h TSinceStart = Ok (Some (clk (readings clk h) - clk (readings clk h1))%Q).
Proof.
  intros clk h1 h2 R N h. destruct (period clk h1 h2 R N) as (A & B & C & D). fold h in A, B, C, D. rewrite outcome_eq.
  destruct (st clk h) as [[|] a b]; [|discriminate]. cbn in *. rewrite B. reflexivity.
Qed.
Print Assumptions elapsed_time.
(** A check reports the time since the last reading of the clock by this timer. *)
Theorem check_interval : forall clk h o, is_running h -> o = TSinceLast \/ o = TExit ->
  (0 < readings clk h)%nat /\ outcome_of clk h o = Ok (Some (clk (readings clk h) - clk (readings clk h - 1)%nat)%Q).
Proof.
  intros clk h o R Ho. assert (X : exists h1 h2, h = h1 ++ TStart :: h2 /\ ~ is_running h1 /\ ~ In TExit h2).
  { clear o Ho. induction h as [|o h IH] using rev_ind; [destruct R as (h1 & h2 & E & _); destruct h1; discriminate|].
    assert (D : is_running h \/ ~ is_running h) by (rewrite <- (st_running clk h); destruct (t_running (st clk h)); auto).
    destruct D as [D|D].
    - destruct (IH D) as (h1 & h2 & -> & A & B). exists h1, (h2 ++ [o]). split; [rewrite <- app_assoc; reflexivity|]. split; [exact A|]. intros C. apply in_app_or in C.
      destruct C as [C|[C|[]]]; [contradiction|]. subst o. apply is_running_snoc in R. exact R.
    - apply is_running_snoc in R. destruct o; try contradiction. exists h, []. repeat split; auto. }
  destruct X as (h1 & h2 & -> & A & B). destruct (period clk h1 h2 A B) as (P & Q & S & T). split; [lia|]. rewrite outcome_eq.
  destruct (st clk (h1 ++ TStart :: h2)) as [[|] a b]; [|discriminate]. cbn [t_last] in T. destruct Ho as [-> | ->]; cbn; rewrite T; reflexivity.
Qed.
Print Assumptions check_interval.
(** With a clock that never goes back, all reported times are non-negative, and the intervals reported
    since the start sum to at most the elapsed time. *)
Lemma reported_bound clk : monotone clk -> forall h t n, t_running t = true -> ~ In TExit h -> (t_last t <= clk n)%Q ->
  let '(rs, t', n') := timer_run clk h t n in (0 <= reported h rs /\ reported h rs <= t_last t' - t_last t)%Q /\ t_running t' = true /\ (n <= n')%nat /\ (t_last t' <= clk n')%Q.
Proof.
  intros M. induction h as [|o h IH]; intros t n R N L; cbn [timer_run].
  - cbn [reported]. repeat split; auto; lra.
  - assert (N' : ~ In TExit h) by (intros C; apply N; right; exact C). destruct t as [[|] a b]; [|discriminate]. cbn [t_last] in L.
    assert (M1 := M n (S n) ltac:(lia)). assert (M2 := M (S n) (S (S n)) ltac:(lia)).
    destruct o; [| | |exfalso; apply N; left; reflexivity]; cbn [timer_op timer_start timer_since_start timer_since_last t_running t_start t_last].
    + specialize (IH (mkTimer true a (clk n)) (S n) eq_refl N'). cbn [t_last] in IH. destruct (timer_run clk h (mkTimer true a (clk n)) (S n)) as [[rs t'] n'].
      destruct (IH M1) as ((A & B) & C & D & E). cbn [reported t_last]. repeat split; auto; try lra; lia.
    + specialize (IH (mkTimer true a (clk n)) (S n) eq_refl N'). cbn [t_last] in IH. destruct (timer_run clk h (mkTimer true a (clk n)) (S n)) as [[rs t'] n'].
      destruct (IH M1) as ((A & B) & C & D & E). cbn [reported t_last]. repeat split; auto; try lra; lia.
    + specialize (IH (mkTimer true a (clk (S n))) (S (S n)) eq_refl N'). cbn [t_last] in IH. destruct (timer_run clk h (mkTimer true a (clk (S n))) (S (S n))) as [[rs t'] n'].
      destruct (IH M2) as ((A & B) & C & D & E). cbn [reported t_last]. repeat split; auto; try lra; lia.
Qed.
Theorem checks_do_not_overlap : forall clk h1 h2, monotone clk -> ~ is_running h1 -> ~ In TExit h2 ->
  let h := h1 ++ TStart :: h2 in
  let rs := skipn (List.length h1 + 1) (results_of clk h) in
  (0 <= reported h2 rs)%Q /\
  exists total, outcome_of clk h TSinceStart = Ok (Some total) /\ (reported h2 rs <= total)%Q.
Proof.
  intros clk h1 h2 M R N h rs. assert (E := elapsed_time clk h1 h2 R N). cbv zeta in E. fold h in E.
  assert (L1 : List.length (results_of clk h1) = List.length h1).
  { unfold results_of. clear. generalize unstarted 0%nat. induction h1 as [|o h IH]; intros t n; [reflexivity|]. cbn [timer_run]. destruct (timer_op clk o t n) as [[r t1] n1].
    specialize (IH t1 n1). destruct (timer_run clk h t1 n1) as [[r2 t2] n2]. cbn [fst] in *. cbn [List.length]. congruence. }
  assert (P0 : t_running (st clk h1) = false). { destruct (t_running (st clk h1)) eqn:X; [|reflexivity]. exfalso. apply R, (st_running clk), X. }
  unfold rs, h, results_of in *. change (h1 ++ TStart :: h2) with (h1 ++ [TStart] ++ h2) in *. unfold st, readings in *.
  rewrite run_app in *. destruct (timer_run clk h1 unstarted 0) as [[r1 t1] n1] eqn:E1. cbn [fst snd] in *.
  change ([TStart] ++ h2) with (TStart :: h2) in *. cbn [timer_run timer_op] in *. unfold timer_start in *. rewrite P0 in *.
  pose proof (reported_bound clk M h2 (mkTimer true (clk n1) (clk (S n1))) (S (S n1)) eq_refl N) as B. cbn [t_last] in B. specialize (B (M (S n1) (S (S n1)) ltac:(lia))).
  destruct (timer_run clk h2 (mkTimer true (clk n1) (clk (S n1))) (S (S n1))) as [[r2 t2] n2]. destruct B as ((B1 & B2) & B3 & B4 & B5). cbn [fst snd] in *.
  rewrite skipn_app, L1. replace (List.length h1 + 1 - List.length h1)%nat with 1%nat by lia. rewrite (skipn_all2 r1) by lia. cbn [app skipn].
  split; [exact B1|]. eexists. split; [exact E|]. assert (X := M n1 (S n1) ltac:(lia)). lra.
Qed.
Print Assumptions checks_do_not_overlap.
(** The clock used ([time.time]) may go back; then reported times can be negative. *)
Theorem times_nonnegative_any_clock_refuted : ~ (forall clk h v, outcome_of clk h TSinceStart = Ok (Some v) -> (0 <= v)%Q).
Proof. intros H. specialize (H (fun n => - inject_Z (Z.of_nat n))%Q [TStart] _ eq_refl). vm_compute in H. apply H. reflexivity. Qed.
Print Assumptions times_nonnegative_any_clock_refuted.

(** [check_time]: the first call for an identifier gives 0, a later one the time since the previous call
    for the same identifier, whatever other identifiers were used in between. *)
Lemma check_times_app clk a b g n : check_times clk (a ++ b) g n =
  let '(r1, g1, n1) := check_times clk a g n in let '(r2, g2, n2) := check_times clk b g1 n1 in (r1 ++ r2, g2, n2).
Proof.
  revert g n. induction a as [|i a IH]; intros g n; cbn [app check_times].
  - destruct (check_times clk b g n) as [[r g2] n2]. reflexivity.
  - destruct (check_time clk i g n) as [[r g1] n1]. rewrite IH. destruct (check_times clk a g1 n1) as [[r1 g2] n2]. destruct (check_times clk b g2 n2) as [[r2 g3] n3]. reflexivity.
Qed.
Lemma in_split_last (x : text) l : In x l -> exists a b, l = a ++ x :: b /\ ~ In x b.
Proof.
  induction l as [|y l IH]; [contradiction|]. intros I. destruct (in_dec (list_eq_dec ascii_dec) x l) as [J|J].
  - destruct (IH J) as (a & b & -> & N). exists (y :: a), b. split; [reflexivity|exact N].
  - destruct I as [->|I]; [|contradiction]. exists [], l. split; [reflexivity|exact J].
Qed.
Definition gst (clk : clock) (ids : list text) : timers := snd (fst (check_times clk ids (fun _ => None) 0)).
Lemma text_eqb_neq a b : a <> b -> text_eqb a b = false.
Proof. apply text_eqb_false. Qed.
Lemma check_state clk ids : snd (check_times clk ids (fun _ => None) 0) = (2 * List.length ids)%nat /\
  (forall x, ~ In x ids -> gst clk ids x = None) /\
  (forall a x b, ids = a ++ x :: b -> ~ In x b -> exists s, gst clk ids x = Some (mkTimer true s (clk (2 * List.length a + 1)%nat))).
Proof.
  unfold gst. induction ids as [|i ids IH] using rev_ind.
  - split; [reflexivity|]. split; [reflexivity|]. intros a x b E. destruct a; discriminate.
  - rewrite check_times_app. destruct (check_times clk ids (fun _ => None) 0) as [[r g] n] eqn:E. cbn [fst snd] in IH. destruct IH as (-> & IH1 & IH2).
    cbn [check_times]. set (n := (2 * List.length ids)%nat) in *.
    assert (R : exists r t, check_time clk i g n = (r, (fun j => if text_eqb j i then Some t else g j), S (S n)) /\ exists s, t = mkTimer true s (clk (S n))).
    { unfold check_time. destruct (in_dec (list_eq_dec ascii_dec) i ids) as [I|I].
      - destruct (in_split_last i ids I) as (a & b & Es & Nb). destruct (IH2 a i b Es Nb) as (s & G). rewrite G. cbn. eexists. eexists. split; [reflexivity|]. eexists. reflexivity.
      - rewrite (IH1 i I). cbn. eexists. eexists. split; [reflexivity|]. eexists. reflexivity. }
    destruct R as (r' & t & -> & s & ->). cbn [fst snd]. split; [rewrite app_length; cbn; unfold n; lia|]. split.
    + intros x N. rewrite text_eqb_neq; [|intros ->; apply N, in_or_app; right; left; reflexivity]. apply IH1. intros I. apply N, in_or_app. left. exact I.
    + intros a x b Es Nb. destruct b as [|y b'] using rev_ind.
      * apply app_inj_tail in Es. destruct Es as [<- <-]. rewrite text_eqb_refl. exists s. repeat f_equal. unfold n. lia.
      * clear IHb'. rewrite app_comm_cons, app_assoc in Es. apply app_inj_tail in Es. destruct Es as [Es <-].
        rewrite text_eqb_neq; [|intros ->; apply Nb, in_or_app; right; left; reflexivity]. apply (IH2 a x b' Es). intros I. apply Nb, in_or_app. left. exact I.
Qed.
Theorem check_time_intervals : forall clk ids x,
  let r := fst (fst (check_time clk x (gst clk ids) (2 * List.length ids)%nat)) in
  (~ In x ids -> r = Ok (Some 0%Q)) /\
  (forall a b, ids = a ++ x :: b -> ~ In x b -> r = Ok (Some (clk (2 * List.length ids)%nat - clk (2 * List.length a + 1)%nat)%Q)).
Proof.
  intros clk ids x r. destruct (check_state clk ids) as (_ & A & B). split.
  - intros N. unfold r, check_time. rewrite (A x N). reflexivity.
  - intros a b E N. unfold r, check_time. destruct (B a x b E N) as (s & ->). reflexivity.
Qed.
Print Assumptions check_time_intervals.
(** Every call reads the clock twice, and the results of a history are those of its calls. *)
Theorem check_time_history : forall clk ids x,
  check_times clk (ids ++ [x]) (fun _ => None) 0 =
  (fst (fst (check_times clk ids (fun _ => None) 0)) ++ [fst (fst (check_time clk x (gst clk ids) (2 * List.length ids)%nat))], gst clk (ids ++ [x]), (2 * List.length ids + 2)%nat).
Proof.
  intros clk ids x. pose proof (proj1 (check_state clk (ids ++ [x]))) as L. pose proof (proj1 (check_state clk ids)) as L0. unfold gst in *. rewrite check_times_app in *.
  destruct (check_times clk ids (fun _ => None) 0) as [[r g] n]. cbn [fst snd] in *. subst n. cbn [check_times] in *.
  destruct (check_time clk x g (2 * List.length ids)) as [[r1 g1] n1]. cbn [fst snd] in *. subst n1. rewrite app_length. cbn [List.length]. apply f_equal2; [reflexivity|lia].
Qed.
Print Assumptions check_time_history.
(** Concrete case: a clock ticking 1, 2, 4, 8, ... *)
Definition ex_clk (n : nat) : Q := inject_Z (2 ^ Z.of_nat n).
Example ex_clk_monotone : monotone ex_clk.
Proof. intros i j H. unfold ex_clk. rewrite <- Zle_Qle. apply Z.pow_le_mono_r; lia. Qed.
Example ex_timer : results_of ex_clk [TSinceStart; TStart; TSinceLast; TStart; TSinceStart; TExit; TSinceLast] =
  [Err TimerError; Ok None; Ok (Some (inject_Z 4 - inject_Z 2)%Q); Ok None; Ok (Some (inject_Z 32 - inject_Z 1)%Q); Ok (Some (inject_Z 64 - inject_Z 32)%Q); Err TimerError].
Proof. reflexivity. Qed.
Example ex_timer_period : ~ is_running [TStart; TExit] /\ ~ In TExit [TSinceLast; TStart; TSinceLast].
Proof. split; [rewrite <- (st_running ex_clk); discriminate|]. cbn. intuition discriminate. Qed.

(** ** C42 *)
Lemma existsb_false {A} (f : A -> bool) l : existsb f l = false <-> forall x, In x l -> f x = false.
Proof.
  induction l as [|a l IH]; [split; [intros _ x []|reflexivity]|]. cbn [existsb]. rewrite orb_false_iff, IH. split.
  - intros [E H] x [<-|I]; [exact E|apply H, I].
  - intros H. split; [apply H; left; reflexivity|intros x I; apply H; right; exact I].
Qed.
Lemma startswith_refl t : startswith t t = true.
Proof. rewrite <- (app_nil_r t) at 1. apply startswith_app. Qed.
(** Is [name] new: no initialised name is a prefix of it. *)
Definition blocked (g : logging) (name : text) : bool := existsb (fun i => startswith name i) (initialized g).
Lemma get_logger_eq name f l g : get_logger name f l g =
  if blocked g name then g
  else mkLogging (initialized g ++ [name]) (fun n => if text_eqb n name then handlers g n ++ Stream :: file_handlers f else handlers g n) (fun n => if text_eqb n name then Some l else level g n).
Proof.
  unfold get_logger, blocked. destruct (existsb (text_eqb name) (initialized g)) eqn:E; [|reflexivity].
  apply existsb_exists in E. destruct E as (i & I & E). apply text_eqb_spec in E. subst i.
  assert (B : existsb (fun i => startswith name i) (initialized g) = true) by (apply existsb_exists; exists name; split; [exact I|apply startswith_refl]). rewrite B. reflexivity.
Qed.
Lemma get_loggers_snoc calls n f l g : get_loggers (calls ++ [(n, f, l)]) g = get_logger n f l (get_loggers calls g).
Proof. unfold get_loggers. rewrite fold_left_app. reflexivity. Qed.
Definition after_calls (calls : list (text * option text * Z)) : logging := get_loggers calls no_logging.
(** A logger gets handlers from exactly one call: the first call for its name made when no prefix of the
    name was initialised; it gets one stream handler and the file handler asked for in that call. *)
Theorem handlers_added_once : forall calls name,
  let g := after_calls calls in
  (handlers g name = [] /\ ~ In name (initialized g)) \/
  (exists c1 f l c2, calls = c1 ++ (name, f, l) :: c2 /\ (forall m, In m (initialized (after_calls c1)) -> startswith name m = false) /\
     In name (initialized g) /\ handlers g name = Stream :: file_handlers f /\ level g name = Some l).
Proof.
  intros calls name. cbv zeta. unfold after_calls. induction calls as [|[[n f] l] calls IH] using rev_ind; [left; split; [reflexivity|intros []]|].
  rewrite get_loggers_snoc, get_logger_eq. set (g := get_loggers calls no_logging) in *. destruct (blocked g n) eqn:B.
  - destruct IH as [IH|(c1 & f' & l' & c2 & -> & R)]; [left; exact IH|]. right. exists c1, f', l', (c2 ++ [(n, f, l)]). rewrite <- app_assoc. split; [reflexivity|exact R].
  - cbn [handlers initialized level]. destruct (text_eqb name n) eqn:E.
    + apply text_eqb_spec in E. subst n. right. assert (N : ~ In name (initialized g)).
      { intros C. unfold blocked in B. rewrite existsb_false in B. specialize (B name C). rewrite startswith_refl in B. discriminate. }
      destruct IH as [[H _]|(c1 & f' & l' & c2 & _ & _ & C & _)]; [|contradiction]. exists calls, f, l, []. split; [reflexivity|]. fold g. rewrite H.
      split; [apply existsb_false, B|]. split; [apply in_or_app; right; left; reflexivity|]. split; reflexivity.
    + assert (D : name <> n) by (intros ->; rewrite text_eqb_refl in E; discriminate). destruct IH as [[H N]|(c1 & f' & l' & c2 & -> & R1 & R2 & R3)].
      * left. split; [exact H|]. intros C. apply in_app_or in C. destruct C as [C|[C|[]]]; [contradiction|congruence].
      * right. exists c1, f', l', (c2 ++ [(n, f, l)]). rewrite <- app_assoc. split; [reflexivity|]. split; [exact R1|]. split; [apply in_or_app; left; exact R2|exact R3].
Qed.
Print Assumptions handlers_added_once.
(** Once a name is initialised, calls for it and for every name it is a prefix of change nothing: no
    further handler, and the level and the log file asked for are ignored. *)
Theorem later_calls_ignored : forall g m name f l, In m (initialized g) -> startswith name m = true -> get_logger name f l g = g.
Proof.
  intros g m name f l I S. rewrite get_logger_eq. assert (B : blocked g name = true) by (apply existsb_exists; exists m; auto). rewrite B. reflexivity.
Qed.
Print Assumptions later_calls_ignored.
Lemma initialized_grows calls g name : In name (initialized g) -> In name (initialized (get_loggers calls g)).
Proof.
  revert g. induction calls as [|[[n f] l] calls IH]; intros g I; [exact I|]. cbn [get_loggers fold_left]. fold (get_loggers calls (get_logger n f l g)). apply IH.
  rewrite get_logger_eq. destruct (blocked g n); [exact I|]. apply in_or_app. left. exact I.
Qed.
Theorem second_log_file_ignored : forall calls1 calls2 name f1 l1 f2 l2,
  get_logger name f2 l2 (get_loggers calls2 (get_logger name f1 l1 (after_calls calls1))) = get_loggers calls2 (get_logger name f1 l1 (after_calls calls1)).
Proof.
  intros. set (g := get_logger name f1 l1 (after_calls calls1)). assert (X : exists m, In m (initialized g) /\ startswith name m = true).
  { unfold g. rewrite get_logger_eq. destruct (blocked (after_calls calls1) name) eqn:B.
    - apply existsb_exists in B. exact B.
    - exists name. split; [apply in_or_app; right; left; reflexivity|apply startswith_refl]. }
  destruct X as (m & I & S). apply (later_calls_ignored _ m); [apply initialized_grows, I|exact S].
Qed.
Print Assumptions second_log_file_ignored.
(** A logger that was asked for has a stream handler unless another requested name is a proper prefix. *)
Lemma initialized_called calls m : In m (initialized (after_calls calls)) -> In m (called_names calls).
Proof.
  intros I. destruct (handlers_added_once calls m) as [[_ N]|(c1 & f & l & c2 & -> & _)]; [contradiction|]. unfold called_names. rewrite map_app. apply in_or_app. right. left. reflexivity.
Qed.
Theorem called_logger_has_handler : forall calls name, In name (called_names calls) ->
  (forall m, In m (called_names calls) -> startswith name m = true -> m = name) -> In Stream (handlers (after_calls calls) name).
Proof.
  intros calls name C H. unfold called_names in C. apply in_map_iff in C. destruct C as ([[n f] l] & E & I). cbn in E. subst n. apply in_split in I. destruct I as (c1 & c2 & ->).
  assert (X : exists m, In m (initialized (after_calls (c1 ++ (name, f, l) :: c2))) /\ startswith name m = true).
  { change (c1 ++ (name, f, l) :: c2) with (c1 ++ [(name, f, l)] ++ c2). rewrite app_assoc. unfold after_calls, get_loggers. rewrite fold_left_app. fold (get_loggers (c1 ++ [(name, f, l)]) no_logging).
    rewrite get_loggers_snoc. fold (after_calls c1). fold (get_loggers c2 (get_logger name f l (after_calls c1))). rewrite get_logger_eq. destruct (blocked (after_calls c1) name) eqn:B.
    - apply existsb_exists in B. destruct B as (m & I & S). exists m. split; [apply initialized_grows, I|exact S].
    - exists name. split; [apply initialized_grows; apply in_or_app; right; left; reflexivity|apply startswith_refl]. }
  destruct X as (m & I & S). assert (m = name) by (apply H; [apply initialized_called, I|exact S]). subst m.
  destruct (handlers_added_once (c1 ++ (name, f, l) :: c2) name) as [[_ N]|(d1 & f' & l' & d2 & _ & _ & _ & E & _)]; [contradiction|]. rewrite E. left. reflexivity.
Qed.
Print Assumptions called_logger_has_handler.
(** The prefix test is not the dotted hierarchy: a name that merely starts with an initialised name gets
    no handler although nothing is inherited. *)
Theorem requested_logger_emits_refuted : ~ (forall calls name, In name (called_names calls) -> emits (after_calls calls) name <> []).
Proof.
  intros H. apply (H [(lit "pyEdgeEval", None, 20); (lit "pyEdgeEval2", None, 20)] (lit "pyEdgeEval2")); [right; left; reflexivity|reflexivity].
Qed.
Print Assumptions requested_logger_emits_refuted.
(** Records are written twice if a child is initialised before its parent ... *)
Theorem emitted_once_refuted : ~ (forall calls name, (List.length (filter is_stream (emits (after_calls calls) name)) <= 1)%nat).
Proof. intros H. specialize (H [(lit "a.b", None, 20); (lit "a", None, 20)] (lit "a.b")). vm_compute in H. lia. Qed.
Print Assumptions emitted_once_refuted.
(** ... and at most once on the stream if no name is asked for after a longer name starting with it. *)
Lemma startswith_spec t p : startswith t p = true <-> exists r, t = p ++ r.
Proof.
  split.
  - revert t. induction p as [|a p IH]; intros t H; [exists t; reflexivity|]. destruct t as [|c t]; [discriminate|]. cbn [startswith] in H. apply andb_prop in H. destruct H as [E H].
    apply Ascii.eqb_eq in E. subst c. destruct (IH t H) as (r & ->). exists r. reflexivity.
  - intros (r & ->). apply startswith_app.
Qed.
Lemma prefixes_chain t : forall acc, Forall (fun p => (List.length acc <= List.length p)%nat /\ exists r, acc ++ t = p ++ r) (dotted_prefixes acc t) /\ NoDup (map (@List.length ascii) (dotted_prefixes acc t)).
Proof.
  induction t as [|c t IH]; intros acc; cbn [dotted_prefixes].
  - split; [constructor; [split; [lia|exists []; reflexivity]|constructor]|]. cbn. constructor; [intros []|constructor].
  - destruct (IH (acc ++ [c])) as [F N]. assert (F' : Forall (fun p => (List.length acc < List.length p)%nat /\ exists r, acc ++ c :: t = p ++ r) (dotted_prefixes (acc ++ [c]) t)).
    { eapply Forall_impl; [|exact F]. intros p [L (r & E)]. rewrite app_length in L. cbn in L. split; [lia|]. exists r. rewrite <- E, <- app_assoc. reflexivity. }
    assert (F2 : Forall (fun p => (List.length acc <= List.length p)%nat /\ exists r, acc ++ c :: t = p ++ r) (dotted_prefixes (acc ++ [c]) t)).
    { eapply Forall_impl; [|exact F']. intros p [L E]. split; [lia|exact E]. }
    destruct (Ascii.eqb c "."); [|split; [exact F2|exact N]]. split.
    + constructor; [|exact F2]. split; [lia|]. exists (c :: t). reflexivity.
    + cbn [map]. constructor; [|exact N]. intros C. apply in_map_iff in C. destruct C as (p & E & I). rewrite Forall_forall in F'. destruct (F' p I) as [L _]. lia.
Qed.
Lemma both_prefixes {A} (t p q r s : list A) : t = p ++ r -> t = q ++ s -> (List.length p <= List.length q)%nat -> exists u, q = p ++ u.
Proof.
  intros E1 E2 L. exists (skipn (List.length p) q). rewrite E1 in E2. apply (f_equal (firstn (List.length p))) in E2. rewrite firstn_app, firstn_all, Nat.sub_diag in E2. cbn [firstn] in E2. rewrite app_nil_r in E2.
  rewrite firstn_app in E2. replace (List.length p - List.length q)%nat with 0%nat in E2 by lia. cbn [firstn] in E2. rewrite app_nil_r in E2. rewrite E2 at 1. symmetry. apply firstn_skipn.
Qed.
Theorem emitted_at_most_once : forall calls name,
  (forall c1 a c2 b c3, called_names calls = c1 ++ a :: c2 ++ b :: c3 -> startswith a b = true -> a = b) ->
  (List.length (filter is_stream (emits (after_calls calls) name)) <= 1)%nat.
Proof.
  intros calls name H. unfold emits. destruct (prefixes_chain name []) as [F N]. cbn [app] in F. set (L := dotted_prefixes [] name) in *. clearbody L.
  (* two prefixes with handlers are the same *)
  assert (U : forall p q, In p L -> In q L -> (List.length p <= List.length q)%nat -> In p (initialized (after_calls calls)) -> In q (initialized (after_calls calls)) -> p = q).
  { intros p q Ip Iq Len Jp Jq. rewrite Forall_forall in F. destruct (F p Ip) as [_ (r & Er)]. destruct (F q Iq) as [_ (s & Es)]. destruct (both_prefixes name p q r s Er Es Len) as (u & Eu).
    assert (S : startswith q p = true) by (apply startswith_spec; exists u; exact Eu).
    destruct (handlers_added_once calls p) as [[_ C]|(c1 & f & l & c2 & E1 & _ & _ & _)]; [contradiction|].
    destruct (handlers_added_once calls q) as [[_ C]|(d1 & f' & l' & d2 & E2 & B2 & _ & _)]; [contradiction|].
    destruct (list_eq_dec ascii_dec p q) as [E|D]; [exact E|exfalso].
    (* compare the positions of the two calls *)
    assert (T : (exists m, c1 = d1 ++ (q, f', l') :: m) \/ (exists m, d1 = c1 ++ (p, f, l) :: m)).
    { rewrite E1 in E2. clear - E2 D. revert d1 E2. induction c1 as [|x c1 IH]; intros [|y d1] E2; cbn [app] in E2.
      - injection E2 as -> _. congruence.
      - injection E2 as <- E2. right. exists d1. reflexivity.
      - injection E2 as -> E2. left. exists c1. reflexivity.
      - injection E2 as <- E2. destruct (IH d1 E2) as [(m & ->)|(m & ->)]; [left|right]; exists m; reflexivity. }
    destruct T as [(m & ->)|(m & ->)].
    - apply D. symmetry. apply (H (called_names d1) q (called_names m) p (called_names c2)); [|exact S]. rewrite E1. unfold called_names. rewrite !map_app. cbn [map fst]. rewrite <- app_assoc. reflexivity.
    - (* p was handled before q: p or a prefix of it is initialised then, so q is blocked *)
      assert (X : exists m', In m' (initialized (after_calls (c1 ++ (p, f, l) :: m))) /\ startswith p m' = true).
      { change (c1 ++ (p, f, l) :: m) with (c1 ++ [(p, f, l)] ++ m). rewrite app_assoc. unfold after_calls, get_loggers. rewrite fold_left_app. fold (get_loggers (c1 ++ [(p, f, l)]) no_logging).
        rewrite get_loggers_snoc. fold (after_calls c1). fold (get_loggers m (get_logger p f l (after_calls c1))). rewrite get_logger_eq. destruct (blocked (after_calls c1) p) eqn:B.
        - apply existsb_exists in B. destruct B as (m' & I & S'). exists m'. split; [apply initialized_grows, I|exact S'].
        - exists p. split; [apply initialized_grows; apply in_or_app; right; left; reflexivity|apply startswith_refl]. }
      destruct X as (m' & I & S'). specialize (B2 m' I). apply startswith_spec in S'. destruct S' as (w & ->). rewrite Eu, <- app_assoc, startswith_app in B2. discriminate. }
  (* so the streams of all but one prefix are empty *)
  assert (K : forall p, (List.length (filter is_stream (handlers (after_calls calls) p)) <= 1)%nat /\ (~ In p (initialized (after_calls calls)) -> handlers (after_calls calls) p = [])).
  { intros p. destruct (handlers_added_once calls p) as [[E _]|(c1 & f & l & c2 & _ & _ & I & E & _)]; rewrite E.
    - split; [cbn; lia|reflexivity].
    - split; [destruct f; cbn; lia|contradiction]. }
  clear F. revert N U. induction L as [|p L IH]; intros N U; [cbn; lia|]. cbn [map List.concat]. rewrite filter_app, app_length. cbn [map] in N. inversion N as [|? ? Np NL]; subst.
  destruct (in_dec (list_eq_dec ascii_dec) p (initialized (after_calls calls))) as [I|I].
  - assert (Z0 : List.concat (map (handlers (after_calls calls)) L) = []).
    { assert (A : forall q, In q L -> handlers (after_calls calls) q = []).
      { intros q Iq. apply K. intros J. assert (q = p).
        { destruct (Nat.le_ge_cases (List.length p) (List.length q)) as [X|X]; [symmetry|]; apply U; auto; [left; reflexivity|right; exact Iq|right; exact Iq|left; reflexivity]. }
        subst q. apply Np, in_map, Iq. }
      clear - A. induction L as [|q L IH]; [reflexivity|]. cbn [map List.concat]. rewrite (A q) by (left; reflexivity). apply IH. intros x Ix. apply A. right. exact Ix. }
    rewrite Z0. cbn. destruct (K p) as [K1 _]. lia.
  - destruct (K p) as [_ K2]. rewrite (K2 I). cbn. apply IH; [exact NL|]. intros a b Ia Ib. apply U; right; assumption.
Qed.
Print Assumptions emitted_at_most_once.
Example ex_logger : let g := after_calls [(lit "pyEdgeEval", Some (lit "a.log"), 20); (lit "pyEdgeEval", Some (lit "b.log"), 10); (lit "pyEdgeEval.sub", None, 20)] in
  handlers g (lit "pyEdgeEval") = [Stream; FileHandler (lit "a.log")] /\ handlers g (lit "pyEdgeEval.sub") = [] /\
  emits g (lit "pyEdgeEval.sub") = [Stream; FileHandler (lit "a.log")] /\ level g (lit "pyEdgeEval") = Some 20.
Proof. vm_compute. repeat split. Qed.
