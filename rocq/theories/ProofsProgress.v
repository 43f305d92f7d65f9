From Verif Require Export ModelProgress.
From Coq Require Import Permutation ZifyBool ZifyNat.
Open Scope nat_scope.

Section Deliver.
Context {R : Type}.
Implicit Types (u : list (nat * R)) (s : @imap_st R).

Lemma find_pop_None i u : find_pop i u = None <-> ~ In i (map fst u).
Proof.
  induction u as [|[j r] u IH]; simpl; [tauto|].
  destruct (Nat.eqb_spec i j) as [->|Hij]; [split; [discriminate|tauto]|].
  destruct (find_pop i u) as [[r' u']|]; split; intros H.
  - discriminate.
  - exfalso. apply H. right. destruct (in_dec Nat.eq_dec i (map fst u)) as [Hin|Hin]; [exact Hin|].
    apply IH in Hin; discriminate.
  - intros [E|C]; [congruence|]. apply IH in C; [contradiction|reflexivity].
  - reflexivity.
Qed.

Lemma find_pop_Some i u r u' : find_pop i u = Some (r, u') ->
  In (i, r) u /\ length u = S (length u') /\ (forall p, In p u' -> In p u) /\
  (forall j, In j (map fst u) -> j = i \/ In j (map fst u')).
Proof.
  revert r u'; induction u as [|[j q] u IH]; simpl; intros r u' E; [discriminate|].
  destruct (Nat.eqb_spec i j) as [->|Hij].
  - injection E as -> ->. split; [auto|]. split; [reflexivity|]. split; [auto|].
    intros k [<-|Hk]; auto.
  - destruct (find_pop i u) as [[r1 u1]|]; [|discriminate]. injection E as -> <-.
    destruct (IH r u1 eq_refl) as (H1 & H2 & H3 & H4). split; [auto|]. split; [simpl; lia|].
    split; [intros p [<-|Hp]; auto|]. intros k [<-|Hk]; simpl; auto. destruct (H4 k Hk); auto.
Qed.

Variable jobs : list R.

Definition good_st s : Prop :=
  items s = firstn (ix s) jobs /\ ix s <= length jobs /\
  (forall i r, In (i, r) (unsorted s) -> nth_error jobs i = Some r).
Definition drained s : Prop := ~ In (ix s) (map fst (unsorted s)).
Definition covers s (arr : list nat) : Prop :=
  forall i, In i arr -> i < ix s \/ In i (map fst (unsorted s)).

Lemma firstn_snoc n r : nth_error jobs n = Some r -> firstn (S n) jobs = firstn n jobs ++ [r] /\ n < length jobs.
Proof.
  intros H. split; [|apply nth_error_Some; congruence].
  revert n H. induction jobs as [|a l IH]; intros [|n] H; simpl in *; try discriminate.
  - injection H as ->; reflexivity.
  - f_equal. apply IH; exact H.
Qed.

Lemma drain_spec fuel s arr : good_st s -> covers s arr -> length (unsorted s) <= fuel ->
  good_st (drain fuel s) /\ covers (drain fuel s) arr /\ drained (drain fuel s).
Proof.
  revert s; induction fuel as [|f IH]; intros s G C L; simpl.
  - split; [exact G|split; [exact C|]]. unfold drained. destruct (unsorted s); simpl in *; [tauto|lia].
  - destruct (find_pop (ix s) (unsorted s)) as [[r u]|] eqn:E.
    + destruct (find_pop_Some _ _ _ _ E) as (H1 & H2 & H3 & H4). destruct G as (G1 & G2 & G3).
      pose proof (G3 _ _ H1) as Hn. destruct (firstn_snoc _ _ Hn) as [F1 F2].
      apply IH; simpl.
      * split; [simpl; rewrite G1; simpl in *; symmetry; exact F1|]. split; [simpl; lia|].
        simpl. intros i r0 Hi; apply G3, H3, Hi.
      * intros i Hi. simpl. destruct (C i Hi) as [D|D]; [left; lia|].
        destruct (H4 i D) as [->|D']; [left; lia|right; exact D'].
      * lia.
    + split; [exact G|split; [exact C|]]. unfold drained. apply find_pop_None; exact E.
Qed.

Lemma imap_set_spec s i r arr : good_st s -> covers s arr -> drained s -> nth_error jobs i = Some r ->
  good_st (imap_set s (i, r)) /\ covers (imap_set s (i, r)) (i :: arr) /\ drained (imap_set s (i, r)).
Proof.
  intros (G1 & G2 & G3) C D Hn. simpl. destruct (Nat.eqb_spec (ix s) i) as [E|E].
  - subst i. destruct (firstn_snoc _ _ Hn) as [F1 F2].
    apply drain_spec.
    + split; [cbn [ix items]; rewrite G1, F1; reflexivity|split; [cbn [ix]; lia|exact G3]].
    + intros j [<-|Hj]; cbn [ix unsorted]; [left; lia|]. destruct (C j Hj); [left; lia|right; assumption].
    + cbn [unsorted]; lia.
  - split; [split; [exact G1|split; [exact G2|]]|split].
    + cbn [unsorted]. intros j q [Hj|Hj]; [congruence|apply G3; exact Hj].
    + intros j [<-|Hj]; cbn [ix unsorted map fst]; [right; left; reflexivity|].
      destruct (C j Hj); [left; assumption|right; right; assumption].
    + unfold drained; cbn [ix unsorted map fst]. intros [H|H]; [congruence|exact (D H)].
Qed.

Lemma deliver_ordered schedule :
  Permutation schedule (seq 0 (length jobs)) -> deliver true schedule jobs = jobs.
Proof.
  intros P. unfold deliver.
  set (arr := flat_map _ schedule).
  assert (H : forall sch s done, (forall i, In i sch -> i < length jobs) ->
     good_st s -> covers s done -> drained s ->
     let s' := fold_left imap_set (flat_map (fun i => match nth_error jobs i with Some r => [(i, r)] | None => [] end) sch) s in
     good_st s' /\ covers s' (sch ++ done) /\ drained s').
  { induction sch as [|i sch IH]; intros s done Hs G C D; simpl; [auto|].
    destruct (nth_error jobs i) as [r|] eqn:E.
    - simpl. destruct (imap_set_spec s i r done G C D E) as (G' & C' & D').
      destruct (IH (imap_set s (i, r)) (i :: done)) as (G2 & C2 & D2); auto.
      { intros j Hj; apply Hs; simpl; auto. }
      split; [exact G2|split; [|exact D2]]. intros j Hj. apply C2.
      simpl in Hj. rewrite in_app_iff in *. simpl. tauto.
    - exfalso. apply nth_error_None in E. specialize (Hs i (or_introl eq_refl)). lia. }
  destruct (H schedule (mkImap 0 [] []) []) as (G & C & D).
  - intros i Hi. apply (Permutation_in _ P) in Hi. apply in_seq in Hi. lia.
  - split; [reflexivity|split; simpl; [lia|intros ? ? []]].
  - intros i [].
  - intros [].
  - fold arr in G, C, D. cbv beta iota. destruct G as (G1 & G2 & _).
    set (s' := fold_left imap_set arr (mkImap 0 [] [])) in *.
    assert (ix s' = length jobs) as E.
    { destruct (Nat.eq_dec (ix s') (length jobs)) as [E|E]; [exact E|exfalso].
      apply D. destruct (C (ix s')) as [L|L]; [|lia|exact L].
      rewrite app_nil_r. apply (Permutation_in _ (Permutation_sym P)). apply in_seq. lia. }
    rewrite G1, E, firstn_all. reflexivity.
Qed.

Lemma deliver_unordered schedule :
  Permutation schedule (seq 0 (length jobs)) -> Permutation (deliver false schedule jobs) jobs.
Proof.
  intros P. unfold deliver.
  assert (H : forall arr s, items (fold_left unordered_set arr s) = items s ++ map snd arr).
  { induction arr as [|[i r] arr IH]; intros s; simpl; [rewrite app_nil_r; reflexivity|].
    rewrite IH; simpl. rewrite <- app_assoc; reflexivity. }
  rewrite H; simpl.
  assert (Q : Permutation
    (map snd (flat_map (fun i => match nth_error jobs i with Some r => [(i, r)] | None => [] end) schedule))
    (map snd (flat_map (fun i => match nth_error jobs i with Some r => [(i, r)] | None => [] end) (seq 0 (length jobs))))).
  { apply Permutation_map, Permutation_flat_map; exact P. }
  etransitivity; [exact Q|]. clear.
  assert (G : forall k l, (forall i, nth_error jobs (k + i) = nth_error l i) ->
    map snd (flat_map (fun i => match nth_error jobs i with Some r => [(i, r)] | None => [] end) (seq k (length l))) = l).
  { intros k l; revert k; induction l as [|a l IH]; intros k Hk; simpl; [reflexivity|].
    pose proof (Hk 0) as H0. rewrite Nat.add_0_r in H0. rewrite H0. simpl. f_equal.
    apply IH. intros i. specialize (Hk (S i)). simpl in Hk. rewrite <- Hk. f_equal; lia. }
  rewrite (G 0 jobs); [reflexivity|]. intros i; reflexivity.
Qed.
End Deliver.

Section Runs.
Context {A B : Type}.
Variable func : A -> res B.
Open Scope Z_scope.

Fixpoint upto (from : Z) (n : nat) : list event :=
  match n with O => [] | S n => Completed (from + 1) :: upto (from + 1) n end.

Lemma upto_app from m n : upto from (m + n) = upto from m ++ upto (from + Z.of_nat m) n.
Proof.
  revert from; induction m as [|m IH]; intros from.
  - simpl; rewrite Z.add_0_r; reflexivity.
  - cbn [upto Nat.add app]. rewrite IH.
    replace (from + 1 + Z.of_nat m) with (from + Z.of_nat (S m)) by lia. reflexivity.
Qed.

Lemma seq_loop_fst bar c tasks results log :
  fst (seq_loop func bar c tasks results log) =
  bind (run_chunk func tasks) (fun bs => Ok (results ++ bs)).
Proof.
  revert c results log; induction tasks as [|t ts IH]; intros c results log; simpl.
  - rewrite app_nil_r; reflexivity.
  - destruct (func t) as [b|e]; simpl; [|reflexivity]. rewrite IH.
    destruct (run_chunk func ts) as [bs|e]; simpl; [|reflexivity]. rewrite <- app_assoc; reflexivity.
Qed.

Lemma track_progress_result no_bar tasks :
  fst (track_progress func no_bar tasks) = run_chunk func tasks.
Proof.
  unfold track_progress; rewrite seq_loop_fst. destruct (run_chunk func tasks); reflexivity.
Qed.

Lemma Forall2_len {X Y} (P : X -> Y -> Prop) l1 l2 : Forall2 P l1 l2 -> length l1 = length l2.
Proof. induction 1; simpl; congruence. Qed.

Lemma run_chunk_ok tasks bs : run_chunk func tasks = Ok bs <->
  Forall2 (fun t b => func t = Ok b) tasks bs.
Proof.
  revert bs; induction tasks as [|t ts IH]; intros bs; simpl; split; intros H.
  - injection H as <-; constructor.
  - inversion H; reflexivity.
  - destruct (func t) as [b|e] eqn:E; [|discriminate]. simpl in H.
    destruct (run_chunk func ts) as [bs'|e] eqn:E2; [|discriminate]. simpl in H. injection H as <-.
    constructor; [exact E|apply IH; reflexivity].
  - inversion H as [|? b ? bs' H1 H2]; subst. rewrite H1; simpl.
    apply IH in H2. rewrite H2; reflexivity.
Qed.

Lemma run_chunk_err tasks e : run_chunk func tasks = Err e <->
  exists pre t post, tasks = pre ++ t :: post /\ func t = Err e /\
    (forall u, In u pre -> exists b, func u = Ok b).
Proof.
  induction tasks as [|t ts IH]; simpl.
  - split; [discriminate|]. intros ([|? ?] & ? & ? & H & _); discriminate.
  - destruct (func t) as [b|e'] eqn:E; simpl.
    + destruct (run_chunk func ts) as [bs|e'] eqn:E2; simpl.
      * split; [discriminate|]. intros (pre & t' & post & H & H1 & H2).
        destruct pre as [|p pre]; simpl in H; injection H as -> ->; [congruence|].
        assert (Ok bs = Err e) as X; [|discriminate]. apply IH. exists pre, t', post; split; auto.
        split; [exact H1|]. intros u Hu; apply H2; simpl; auto.
      * split.
        -- intros H; injection H as ->. destruct (proj1 IH eq_refl) as (pre & t' & post & H & H1 & H2).
           exists (t :: pre), t', post; split; [simpl; congruence|split; [exact H1|]].
           intros u [<-|Hu]; eauto.
        -- intros (pre & t' & post & H & H1 & H2). destruct pre as [|p pre]; simpl in H; injection H as -> ->; [congruence|].
           f_equal. assert (X : Err (A := list B) e' = Err e); [|congruence].
           apply IH. exists pre, t', post; split; auto. split; [exact H1|].
           intros u Hu; apply H2; simpl; auto.
    + split.
      * intros H; injection H as ->. exists [], t, ts; split; [reflexivity|split; [exact E|intros ? []]].
      * intros (pre & t' & post & H & H1 & H2). destruct pre as [|p pre]; simpl in H; injection H as -> ->; [congruence|].
        destruct (H2 p (or_introl eq_refl)) as (b & Hb). congruence.
Qed.

Lemma seq_loop_log bar c tasks results log bs : run_chunk func tasks = Ok bs ->
  snd (seq_loop func bar c tasks results log)
  = if bar then log ++ upto c (length tasks) ++ [Newline] else log.
Proof.
  revert c results log bs; induction tasks as [|t ts IH]; intros c results log bs H; simpl in *.
  - reflexivity.
  - destruct (func t) as [b|e]; [|discriminate]. simpl in H.
    destruct (run_chunk func ts) as [bs'|e] eqn:E; [|discriminate].
    rewrite (IH _ _ _ bs' eq_refl). destruct bar; [|reflexivity].
    rewrite <- app_assoc; reflexivity.
Qed.

Lemma track_progress_log tasks bs : run_chunk func tasks = Ok bs ->
  snd (track_progress func false tasks) = Started :: upto 0 (length tasks) ++ [Newline].
Proof. intros H. unfold track_progress. erewrite seq_loop_log by exact H. reflexivity. Qed.

Fixpoint collect (items : list (res (list B))) : res (list B) :=
  match items with
  | [] => Ok []
  | Err e :: _ => Err e
  | Ok bs :: r => bind (collect r) (fun cs => Ok (bs ++ cs))
  end.

Lemma consume_items_results bar sf n0 c (bs : list B) : forall results log,
  snd (fst (consume_items bar sf n0 c bs results log)) = results ++ bs.
Proof.
  revert c; induction bs as [|b bs IH]; intros c results log; simpl; [rewrite app_nil_r; reflexivity|].
  destruct (sf && _); [rewrite IH, <- app_assoc; reflexivity|].
  destruct (sf && _); rewrite IH, <- app_assoc; reflexivity.
Qed.

Lemma consume_fst bar sf n0 c items : forall results log,
  fst (consume bar sf n0 c items results log) = bind (collect items) (fun bs => Ok (results ++ bs)).
Proof.
  revert c; induction items as [|[bs|e] items IH]; intros c results log; simpl.
  - rewrite app_nil_r; reflexivity.
  - pose proof (consume_items_results bar sf n0 c bs results log) as Hr.
    destruct (consume_items bar sf n0 c bs results log) as [[c' r'] l']. simpl in Hr. subst r'.
    rewrite IH. destruct (collect items); simpl; [|reflexivity]. rewrite <- app_assoc; reflexivity.
  - reflexivity.
Qed.

Lemma run_chunk_app l1 l2 : run_chunk func (l1 ++ l2) =
  bind (run_chunk func l1) (fun b1 => bind (run_chunk func l2) (fun b2 => Ok (b1 ++ b2))).
Proof.
  induction l1 as [|a l1 IH]; simpl.
  - destruct (run_chunk func l2); reflexivity.
  - destruct (func a) as [b|e]; simpl; [|reflexivity]. rewrite IH.
    destruct (run_chunk func l1) as [b1|e]; simpl; [|reflexivity].
    destruct (run_chunk func l2); reflexivity.
Qed.

Lemma chunk_fuel_concat fuel c (l : list A) : (1 <= c)%nat -> (length l <= fuel)%nat -> concat (chunk_fuel fuel c l) = l.
Proof.
  intros Hc. revert l; induction fuel as [|f IH]; intros [|a l] H; simpl in *; try reflexivity; [lia|].
  destruct c as [|c]; [lia|]. simpl. f_equal. rewrite IH.
  - apply firstn_skipn.
  - rewrite skipn_length. lia.
Qed.

Lemma collect_chunks ls : collect (map (run_chunk func) ls) = run_chunk func (concat ls).
Proof.
  induction ls as [|l ls IH]; simpl; [reflexivity|].
  rewrite run_chunk_app. destruct (run_chunk func l) as [b|e]; simpl; [|reflexivity].
  rewrite IH; reflexivity.
Qed.

Definition njobs (chunksize : Z) (tasks : list A) : nat := length (chunks (Z.to_nat chunksize) tasks).

Lemma parallel_ordered nproc chunksize sf no_bar schedule tasks :
  1 <= nproc -> 1 <= chunksize -> Permutation schedule (seq 0 (njobs chunksize tasks)) ->
  fst (track_parallel_progress func nproc chunksize sf true no_bar schedule tasks)
  = run_chunk func tasks.
Proof.
  intros Hn Hc P. unfold track_parallel_progress.
  replace (nproc <? 1) with false by lia. replace (chunksize <? 1) with false by lia. cbv zeta.
  rewrite deliver_ordered by (rewrite map_length; exact P).
  rewrite consume_fst, collect_chunks. unfold chunks. rewrite chunk_fuel_concat by lia.
  destruct (run_chunk func tasks); reflexivity.
Qed.

Lemma collect_perm items1 items2 bs1 : Permutation items1 items2 -> collect items1 = Ok bs1 ->
  exists bs2, collect items2 = Ok bs2 /\ Permutation bs1 bs2.
Proof.
  intros P; revert bs1. induction P as [|x l1 l2 P IH|x y l|l1 l2 l3 P1 IH1 P2 IH2]; intros bs1 H.
  - exists bs1; auto.
  - destruct x as [b|e]; simpl in *; [|discriminate].
    destruct (collect l1) as [c|e]; simpl in H; [|discriminate]. injection H as <-.
    destruct (IH c eq_refl) as (c' & E & P'). exists (b ++ c'); rewrite E; split; [reflexivity|].
    apply Permutation_app_head; exact P'.
  - destruct x as [b|e], y as [d|e']; simpl in *; try discriminate.
    destruct (collect l) as [c|e]; simpl in *; [|discriminate]. injection H as <-.
    eexists; split; [reflexivity|]. rewrite !app_assoc. apply Permutation_app_tail, Permutation_app_comm.
  - destruct (IH1 bs1 H) as (b2 & E2 & Q2). destruct (IH2 b2 E2) as (b3 & E3 & Q3).
    exists b3; split; [exact E3|]. etransitivity; eauto.
Qed.

Lemma parallel_unordered nproc chunksize sf no_bar schedule tasks bs :
  1 <= nproc -> 1 <= chunksize -> Permutation schedule (seq 0 (njobs chunksize tasks)) ->
  run_chunk func tasks = Ok bs ->
  exists bs', fst (track_parallel_progress func nproc chunksize sf false no_bar schedule tasks) = Ok bs'
    /\ Permutation bs bs'.
Proof.
  intros Hn Hc P H. unfold track_parallel_progress.
  replace (nproc <? 1) with false by lia. replace (chunksize <? 1) with false by lia. cbv zeta.
  rewrite consume_fst.
  set (jobs := map (run_chunk func) (chunks (Z.to_nat chunksize) tasks)).
  assert (Hj : collect jobs = Ok bs).
  { unfold jobs. rewrite collect_chunks. unfold chunks. rewrite chunk_fuel_concat by lia. exact H. }
  assert (PJ : Permutation schedule (seq 0 (length jobs))) by (unfold jobs; rewrite map_length; exact P).
  destruct (collect_perm jobs (deliver false schedule jobs) bs) as (bs' & E & Q);
    [symmetry; apply deliver_unordered; exact PJ|exact Hj|].
  exists bs'; rewrite E; split; [reflexivity|exact Q].
Qed.

(** Bar events of the parallel run. *)
Lemma consume_items_plain n0 c (bs : list B) : forall results log,
  consume_items true false n0 c bs results log
  = (c + Z.of_nat (length bs), results ++ bs, log ++ upto c (length bs)).
Proof.
  revert c; induction bs as [|b bs IH]; intros c results log; cbn [consume_items andb].
  - rewrite !app_nil_r. simpl. rewrite Z.add_0_r; reflexivity.
  - rewrite IH. rewrite <- !app_assoc. cbn [app length upto].
    replace (c + 1 + Z.of_nat (length bs)) with (c + Z.of_nat (S (length bs))) by lia. reflexivity.
Qed.

Lemma consume_plain n0 c items bs : forall results log, collect items = Ok bs ->
  consume true false n0 c items results log = (Ok (results ++ bs), log ++ upto c (length bs) ++ [Newline]).
Proof.
  revert c bs; induction items as [|[b|e] items IH]; intros c bs results log H; cbn [collect] in H.
  - injection H as <-. simpl. rewrite app_nil_r; reflexivity.
  - destruct (collect items) as [cs|e] eqn:E; [|discriminate]. simpl in H. injection H as <-.
    cbn [consume]. rewrite consume_items_plain. rewrite (IH _ cs) by reflexivity.
    rewrite app_length, upto_app, <- !app_assoc. reflexivity.
  - discriminate.
Qed.

Lemma parallel_same_as_sequential nproc chunksize schedule tasks bs :
  1 <= nproc -> 1 <= chunksize -> Permutation schedule (seq 0 (njobs chunksize tasks)) ->
  run_chunk func tasks = Ok bs ->
  track_parallel_progress func nproc chunksize false true false schedule tasks
  = track_progress func false tasks.
Proof.
  intros Hn Hc P H.
  rewrite (surjective_pairing (track_progress func false tasks)), track_progress_result,
    (track_progress_log tasks bs H), H.
  unfold track_parallel_progress.
  replace (nproc <? 1) with false by lia. replace (chunksize <? 1) with false by lia. cbv zeta.
  rewrite deliver_ordered by (rewrite map_length; exact P).
  assert (Hj : collect (map (run_chunk func) (chunks (Z.to_nat chunksize) tasks)) = Ok bs).
  { rewrite collect_chunks. unfold chunks. rewrite chunk_fuel_concat by lia. exact H. }
  rewrite (consume_plain _ _ _ bs) by exact Hj. cbn [negb]. f_equal. simpl app.
  do 3 f_equal. apply run_chunk_ok in H. apply Forall2_len in H. congruence.
Qed.

(** [skip_first]: nothing is logged until [n0] results are in; then the bar starts. *)
Lemma consume_items_skip n0 c (bs : list B) : forall results log,
  let l := Z.of_nat (length results) in let l' := l + Z.of_nat (length bs) in 0 <= l ->
  consume_items true true n0 c bs results log =
  (c + Z.max 0 (l' - Z.max l n0), results ++ bs,
   log ++ (if (l <? n0) && (n0 <=? l') then [Started] else [])
       ++ upto c (Z.to_nat (l' - Z.max l n0))).
Proof.
  revert c; induction bs as [|b bs IH]; intros c results log l l' Hl.
  - cbn [consume_items length] in *. rewrite app_nil_r. subst l'. simpl Z.of_nat. rewrite Z.add_0_r.
    replace (Z.to_nat (l - Z.max l n0)) with 0%nat by lia.
    replace ((l <? n0) && (n0 <=? l)) with false by lia. simpl upto. rewrite !app_nil_r.
    f_equal. f_equal. lia.
  - cbn [consume_items andb].
    assert (Hlen : Z.of_nat (length (results ++ [b])) = l + 1) by (rewrite app_length; simpl; subst l; lia).
    rewrite Hlen.
    assert (Hl' : l' = l + 1 + Z.of_nat (length bs)) by (subst l'; simpl length; lia).
    destruct (Z.ltb_spec (l + 1) n0) as [H1|H1]; [|destruct (Z.eqb_spec (l + 1) n0) as [H2|H2]].
    + rewrite IH by (rewrite Hlen; lia). rewrite Hlen. rewrite <- Hl', <- app_assoc. simpl app.
      replace (Z.max (l + 1) n0) with (Z.max l n0) by lia.
      replace (l + 1 <? n0) with true by lia. replace (l <? n0) with true by lia. reflexivity.
    + rewrite IH by (rewrite Hlen; lia). rewrite Hlen. rewrite <- Hl', <- !app_assoc. simpl app.
      replace (l + 1 <? n0) with false by lia. replace (l <? n0) with true by lia.
      replace (n0 <=? l') with true by (subst l'; simpl length; lia).
      replace (Z.max (l + 1) n0) with (Z.max l n0) by lia. simpl. reflexivity.
    + rewrite IH by (rewrite Hlen; lia). rewrite Hlen. rewrite <- Hl', <- !app_assoc. simpl app.
      replace (l + 1 <? n0) with false by lia. replace (l <? n0) with false by lia. simpl.
      replace (Z.max (l + 1) n0) with (l + 1) by lia. replace (Z.max l n0) with l by lia.
      f_equal; [f_equal; lia|].
      replace (Z.to_nat (l' - l)) with (S (Z.to_nat (l' - (l + 1)))) by lia. reflexivity.
Qed.

Lemma consume_skip n0 c items bs : forall results log, collect items = Ok bs ->
  let l := Z.of_nat (length results) in let l' := l + Z.of_nat (length bs) in 0 <= c ->
  consume true true n0 c items results log =
  (Ok (results ++ bs),
   log ++ (if (l <? n0) && (n0 <=? l') then [Started] else [])
       ++ upto c (Z.to_nat (l' - Z.max l n0)) ++ [Newline]).
Proof.
  revert c bs; induction items as [|[b|e] items IH]; intros c bs results log H l l' Hc; cbn [collect] in H.
  - injection H as <-. cbn [consume]. rewrite app_nil_r. subst l'. simpl Z.of_nat. rewrite Z.add_0_r.
    replace (Z.to_nat (l - Z.max l n0)) with 0%nat by lia.
    replace ((l <? n0) && (n0 <=? l)) with false by lia. reflexivity.
  - destruct (collect items) as [cs|e] eqn:E; [|discriminate]. simpl in H. injection H as <-.
    cbn [consume]. rewrite consume_items_skip by lia. rewrite (IH _ cs) by (reflexivity || lia).
    rewrite <- !app_assoc.
    assert (Hr : Z.of_nat (length (results ++ b)) = l + Z.of_nat (length b)) by (rewrite app_length; subst l; lia).
    rewrite Hr. fold l.
    set (m := l + Z.of_nat (length b)) in *.
    assert (El' : m + Z.of_nat (length cs) = l') by (subst l' m; rewrite app_length; lia). rewrite El'.
    assert (Hm : l <= m <= l') by (subst m; lia).
    f_equal. f_equal.
    destruct (Z.ltb_spec l n0) as [A1|A1].
    + destruct (Z.leb_spec n0 m) as [A2|A2].
      * replace (m <? n0) with false by lia. replace (n0 <=? l') with true by lia. cbn [andb app].
        f_equal. rewrite app_assoc. f_equal.
        replace (Z.to_nat (l' - Z.max l n0)) with (Z.to_nat (m - Z.max l n0) + Z.to_nat (l' - Z.max m n0))%nat by lia.
        rewrite upto_app. f_equal. f_equal. lia.
      * replace (m <? n0) with true by lia. cbn [andb app].
        replace (Z.to_nat (m - Z.max l n0)) with 0%nat by lia. simpl upto at 1. cbn [app].
        replace (Z.max m n0) with n0 by lia. replace (Z.max l n0) with n0 by lia.
        replace (c + Z.max 0 (m - n0)) with c by lia. reflexivity.
    + replace (m <? n0) with false by lia. cbn [andb app].
      rewrite app_assoc. f_equal.
      replace (Z.to_nat (l' - Z.max l n0)) with (Z.to_nat (m - Z.max l n0) + Z.to_nat (l' - Z.max m n0))%nat by lia.
      rewrite upto_app. f_equal. f_equal. lia.
  - discriminate.
Qed.

Lemma parallel_skip_first nproc chunksize schedule tasks bs :
  1 <= nproc -> 1 <= chunksize -> Permutation schedule (seq 0 (njobs chunksize tasks)) ->
  run_chunk func tasks = Ok bs ->
  let n := Z.of_nat (length tasks) in
  track_parallel_progress func nproc chunksize true true false schedule tasks
  = (Ok bs, (if nproc * chunksize <=? n then [Started] else [])
            ++ upto 0 (Z.to_nat (n - nproc * chunksize)) ++ [Newline]).
Proof.
  intros Hn Hc P H n. unfold track_parallel_progress.
  replace (nproc <? 1) with false by lia. replace (chunksize <? 1) with false by lia. cbv zeta.
  rewrite deliver_ordered by (rewrite map_length; exact P).
  assert (Hj : collect (map (run_chunk func) (chunks (Z.to_nat chunksize) tasks)) = Ok bs).
  { rewrite collect_chunks. unfold chunks. rewrite chunk_fuel_concat by lia. exact H. }
  cbn [negb]. rewrite (consume_skip _ _ _ bs) by (exact Hj || lia). simpl length. simpl Z.of_nat.
  apply run_chunk_ok in H. apply Forall2_len in H. subst n. rewrite H.
  assert (0 < nproc * chunksize) by nia.
  replace (0 <? nproc * chunksize) with true by lia. rewrite Z.add_0_l. cbn [andb app].
  replace (Z.max 0 (nproc * chunksize)) with (nproc * chunksize) by lia. reflexivity.
Qed.
End Runs.
