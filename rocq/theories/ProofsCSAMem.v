(** The solver on its memory does what the solver of ModelCSA.v does. *)
From Verif Require Import ModelCSAMem.
From Coq Require Import Lia ZifyBool ZifyNat.
Open Scope nat_scope.
Open Scope list_scope.

Definition holds {A} (m : mem A) (n : nat) (f : nat -> A) : Prop := msize m = n /\ forall i, i < n -> mcell m i = Some (f i).
Lemma holds_rd {A} (m : mem A) n f i : holds m n f -> i < n -> rdm m i = Ok (f i).
Proof. intros [S0 H] I. unfold rdm. rewrite S0. destruct (Nat.ltb_spec i n); [|lia]. rewrite H by exact I. reflexivity. Qed.
Definition put {A} (m : mem A) (i : nat) (v : A) : mem A := mkMem (msize m) (fun j => if Nat.eqb j i then Some v else mcell m j).
Lemma wrm_put {A} (m : mem A) i v : i < msize m -> wrm m i v = Ok (put m i v).
Proof. intros I. unfold wrm. destruct (Nat.ltb_spec i (msize m)); [reflexivity|lia]. Qed.
Lemma rdm_cell {A} (m : mem A) i v : i < msize m -> mcell m i = Some v -> rdm m i = Ok v.
Proof. intros I E. unfold rdm. destruct (Nat.ltb_spec i (msize m)); [|lia]. rewrite E. reflexivity. Qed.
Lemma holds_wr {A} (m : mem A) n f i v : holds m n f -> i < n -> wrm m i v = Ok (put m i v) /\ holds (put m i v) n (upd f i v).
Proof.
  intros [S0 H] I. split; [apply wrm_put; lia|]. split; [exact S0|]. intros j J. cbn. unfold upd. destruct (Nat.eqb j i); [reflexivity|apply H, J].
Qed.
Lemma holds_ext {A} (m : mem A) n f g : holds m n f -> (forall i, i < n -> f i = g i) -> holds m n g.
Proof. intros [S0 H] E. split; [exact S0|]. intros i I. rewrite H, E by exact I. reflexivity. Qed.
Lemma loopM_app {A T} (f : A -> T -> res T) l1 l2 s : loopM f (l1 ++ l2) s = bind (loopM f l1 s) (loopM f l2).
Proof. revert s. induction l1 as [|a l1 IH]; intros s; [reflexivity|]. cbn. destruct (f a s); [apply IH|reflexivity]. Qed.
Lemma loop_seq {T} (f : nat -> T -> res T) (I : nat -> T -> Prop) n s : I 0 s ->
  (forall i s, i < n -> I i s -> exists s', f i s = Ok s' /\ I (S i) s') ->
  exists s', loopM f (seq 0 n) s = Ok s' /\ I n s'.
Proof.
  intros H0. induction n as [|n IH]; intros H; [exists s; split; [reflexivity|exact H0]|].
  destruct IH as (s1 & E & I1); [intros i t L; apply H; lia|]. rewrite seq_S, loopM_app, E. cbn [bind loopM Nat.add].
  destruct (H n s1 ltac:(lia) I1) as (s2 & E2 & I2). rewrite E2. exists s2. split; [reflexivity|exact I2].
Qed.
Lemma fill_holds {A} n (v : A) : exists m, loopM (fun i m => wrm m i v) (seq 0 n) (malloc n) = Ok m /\ holds m n (fun _ => v).
Proof.
  destruct (loop_seq (fun i m => wrm m i v) (fun k m => msize m = n /\ forall i, i < k -> mcell m i = Some v) n (malloc n)) as (m & E & S0 & H).
  - split; [reflexivity|]. intros i I. lia.
  - intros i m I [S0 H]. rewrite wrm_put by lia. eexists. split; [reflexivity|]. split; [exact S0|]. intros j J. cbn. destruct (Nat.eqb_spec j i); [reflexivity|apply H; lia].
  - exists m. split; [exact E|]. split; [exact S0|exact H].
Qed.

Section Solver.
Variable N : nat.
Variable g : list garc.
Variable G : graph_mem.
Variable off : nat -> nat.
Notation len v := (length (adj g v)).
Hypothesis Hoff : forall v, v < N -> off (S v) = off v + len v.
Hypothesis Harcs : forall v k, v < N -> k < len v -> rdm (x_arcs G) (off v + k) = Ok (a_head (arc_at g v k), a_cost (arc_at g v k)).
Hypothesis Hfirst : forall v, v <= N -> rdm (x_first G) v = Ok (off v).
Hypothesis Hfew : forall v, v < N -> rdm (x_few G) v = Ok (few_arcs g v).
Hypothesis Hheads : forall v k, v < N -> k < len v -> a_head (arc_at g v k) < N.

Lemma rcx_ok p f v k : holds p N f -> v < N -> k < len v -> rcx G p (off v + k) = Ok (rc g f v k).
Proof.
  intros P V K. unfold rcx. rewrite Harcs by assumption. cbn [bind fst snd]. rewrite (holds_rd p N f) by (try assumption; apply Hheads; assumption). reflexivity.
Qed.
(** best[0..] of node v is the list l of arcs *)
Definition bholds (b : mem nat) (v : nat) (l : list nat) : Prop :=
  msize b = 3 * N /\ length l <= 3 /\ Forall (fun k => k < len v) l /\ forall i, i < length l -> mcell b (3 * v + i) = Some (off v + nth i l 0).
Definition bframe (b b' : mem nat) (v : nat) : Prop := forall u i, u <> v -> i < 3 -> mcell b' (3 * u + i) = mcell b (3 * u + i).
Lemma brd_ok b v l i : v < N -> bholds b v l -> i < length l -> brd b v i = Ok (off v + nth i l 0).
Proof.
  intros V (S0 & L & _ & H) I. unfold brd. destruct (Nat.ltb_spec i 3); [|lia]. apply rdm_cell; [lia|apply H, I].
Qed.
Lemma bwr_ok b v i a : v < N -> msize b = 3 * N -> i < 3 -> bwr b v i a = Ok (put b (3 * v + i) a).
Proof. intros V S0 I. unfold bwr. destruct (Nat.ltb_spec i 3); [|lia]. apply wrm_put. lia. Qed.
Lemma find_slot_ok p f b v l prc : holds p N f -> v < N -> bholds b v l -> forall todo i, i + todo = length l ->
  exists o, find_slot G p b v prc todo i = Ok o /\ match o with
    | Some j => i <= j < length l /\ Qltb prc (rc g f v (nth j l 0)) = true /\ (forall q, i <= q < j -> Qltb prc (rc g f v (nth q l 0)) = false)
    | None => forall q, i <= q < length l -> Qltb prc (rc g f v (nth q l 0)) = false end.
Proof.
  intros P V B. induction todo as [|todo IH]; intros i E; cbn [find_slot].
  - exists None. split; [reflexivity|]. intros q Q. lia.
  - rewrite (brd_ok b v l) by (try assumption; lia). cbn [bind]. destruct B as (S0 & L & K & H). rewrite Forall_forall in K.
    rewrite (rcx_ok p f) by (try assumption; apply K, nth_In; lia). cbn [bind]. destruct (Qltb prc (rc g f v (nth i l 0))) eqn:C.
    + exists (Some i). split; [reflexivity|]. split; [lia|]. split; [exact C|]. intros q Q. lia.
    + destruct (IH (S i) ltac:(lia)) as (o & E2 & Q). exists o. split; [exact E2|]. destruct o as [j|].
      * destruct Q as (A & B2 & C2). split; [lia|]. split; [exact B2|]. intros q Q. destruct (Nat.eq_dec q i) as [->|]; [exact C|apply C2; lia].
      * intros q Q2. destruct (Nat.eq_dec q i) as [->|]; [exact C|apply Q; lia].
Qed.
Lemma insert_before_at f v l k j : j <= length l -> (forall q, q < j -> Qltb (rc g f v k) (rc g f v (nth q l 0)) = false) ->
  (j < length l -> Qltb (rc g f v k) (rc g f v (nth j l 0)) = true) -> insert_before g f v l k = firstn j l ++ k :: skipn j l.
Proof.
  clear. revert l. induction j as [|j IH]; intros l L A B.
  - destruct l as [|b t]; [reflexivity|]. cbn in *. rewrite B by lia. reflexivity.
  - destruct l as [|b t]; [cbn in L; lia|]. cbn [insert_before firstn skipn app]. assert (A0 := A 0 ltac:(lia)). cbn in A0. rewrite A0.
    rewrite (IH t); [reflexivity|cbn in L; lia| |].
    + intros q Q. apply (A (S q)). lia.
    + intros Q. apply B. cbn. lia.
Qed.
Lemma put_cell {A} (m : mem A) i v j : mcell (put m i v) j = if Nat.eqb j i then Some v else mcell m j. Proof. reflexivity. Qed.
(** One call of the macro. *)
Lemma sort_insert_ok p f b v l k nsize : holds p N f -> v < N -> k < len v -> bholds b v l ->
  (nsize = length l + 1 /\ length l < 3 \/ nsize = 3 /\ length l = 3 /\ Qltb (rc g f v k) (rc g f v (nth 2 l 0)) = true) ->
  exists b', sort_insertx G p b v (length l) (off v + k) (rc g f v k) nsize = Ok b' /\
    bholds b' v (sort_insert g f v l k nsize) /\ length (sort_insert g f v l k nsize) = nsize /\ bframe b b' v.
Proof.
  intros P V K B C. assert (B0 := B). destruct B0 as (S0 & L & F & H).
  assert (SI : exists j, j <= length l /\ j < 3 /\ insert_before g f v l k = firstn j l ++ k :: skipn j l /\
    sort_insertx G p b v (length l) (off v + k) (rc g f v k) nsize =
    bind (loopM (fun i b => bind (brd b v (i - 1)) (fun c => bwr b v i c)) (rev (seq (S j) (nsize - 1 - j))) b) (fun b => bwr b v j (off v + k))).
  { unfold sort_insertx. destruct (Nat.eqb_spec (length l) 0) as [E0|N0].
    - exists 0. split; [lia|]. split; [lia|]. split; [apply insert_before_at; lia|]. replace (nsize - 1 - 0) with 0 by lia. reflexivity.
    - destruct (find_slot_ok p f b v l (rc g f v k) P V B (length l) 0 eq_refl) as (o & E & Q). rewrite E. cbn [bind]. destruct o as [j|].
      + destruct Q as (A & T & U). exists j. split; [lia|]. split; [lia|]. split; [|reflexivity]. apply insert_before_at; [lia| |intros _; exact T]. intros q Y. apply U. lia.
      + destruct C as [C|(C1 & C2 & C3)]; [|exfalso; rewrite Q in C3 by lia; discriminate].
        exists (length l). split; [lia|]. split; [lia|]. split; [apply insert_before_at; [lia| |lia]; intros q Y; apply Q; lia|].
        replace (nsize - 1 - length l) with 0 by lia. reflexivity. }
  destruct SI as (j & J & J3 & IB & ->).
  assert (LS : forall b' : mem nat, length (firstn nsize (firstn j l ++ k :: skipn j l)) = nsize).
  { intros _. rewrite firstn_length, app_length, firstn_length. cbn [length]. rewrite skipn_length. lia. }
  assert (Fo : Forall (fun k => k < len v) (firstn nsize (firstn j l ++ k :: skipn j l))).
  { apply Forall_forall. intros x X. assert (Y : In x (firstn j l ++ k :: skipn j l)) by (rewrite <- (firstn_skipn nsize (_ ++ _)); apply in_or_app; left; exact X).
    rewrite Forall_forall in F. apply in_app_or in Y. destruct Y as [Y|[<-|Y]]; [|exact K|].
    - apply F. rewrite <- (firstn_skipn j l). apply in_or_app. left. exact Y.
    - apply F. rewrite <- (firstn_skipn j l). apply in_or_app. right. exact Y. }
  unfold sort_insert. rewrite IB.
  (* the shift *)
  assert (SH : forall t, t <= nsize - 1 - j -> exists b1, loopM (fun i b => bind (brd b v (i - 1)) (fun c => bwr b v i c)) (rev (seq (nsize - t) t)) b = Ok b1 /\
    msize b1 = 3 * N /\ (forall i, i < 3 -> mcell b1 (3 * v + i) = if (nsize - t <=? i) && (i <? nsize) then Some (off v + nth (i - 1) l 0) else mcell b (3 * v + i)) /\ bframe b b1 v).
  { induction t as [|t IH]; intros T.
    - exists b. split; [reflexivity|]. split; [exact S0|]. split; [|intros u i _ _; reflexivity]. intros i I. destruct ((nsize - 0 <=? i) && (i <? nsize)) eqn:X; [lia|reflexivity].
    - destruct (IH ltac:(lia)) as (b1 & E & M1 & C1 & F1).
      replace (seq (nsize - S t) (S t)) with ((nsize - S t) :: seq (nsize - t) t) by (cbn [seq]; f_equal; f_equal; lia).
      cbn [rev]. rewrite loopM_app, E. cbn [bind loopM].
      assert (R : brd b1 v (nsize - S t - 1) = Ok (off v + nth (nsize - S t - 1) l 0)).
      { unfold brd. destruct (Nat.ltb_spec (nsize - S t - 1) 3); [|lia]. apply rdm_cell; [lia|]. rewrite C1 by lia.
        destruct ((nsize - t <=? nsize - S t - 1) && (nsize - S t - 1 <? nsize)) eqn:X; [lia|]. apply H. lia. }
      rewrite R. cbn [bind]. rewrite bwr_ok by (try assumption; lia). cbn [bind]. eexists. split; [reflexivity|]. split; [exact M1|]. split.
      + intros i I. rewrite put_cell. destruct (Nat.eqb_spec (3 * v + i) (3 * v + (nsize - S t))) as [Q|Q].
        * assert (i = nsize - S t) as -> by lia. destruct ((nsize - S t <=? nsize - S t) && (nsize - S t <? nsize)) eqn:X; [reflexivity|lia].
        * rewrite C1 by exact I. replace ((nsize - S t <=? i) && (i <? nsize)) with ((nsize - t <=? i) && (i <? nsize)) by lia. reflexivity.
      + intros u i U I. rewrite put_cell. destruct (Nat.eqb_spec (3 * u + i) (3 * v + (nsize - S t))) as [Q|Q]; [exfalso; lia|apply F1; assumption]. }
  destruct (SH (nsize - 1 - j) (le_n _)) as (b1 & E & M1 & C1 & F1). replace (nsize - (nsize - 1 - j)) with (S j) in * by lia. rewrite E. cbn [bind].
  rewrite bwr_ok by (try assumption; lia). eexists. split; [reflexivity|]. split; [|split; [apply LS; exact b|]].
  - split; [exact M1|]. split; [rewrite LS by exact b; lia|]. split; [exact Fo|]. intros i I. rewrite LS in I by exact b. rewrite put_cell.
    assert (NF : nth i (firstn nsize (firstn j l ++ k :: skipn j l)) 0 = nth i (firstn j l ++ k :: skipn j l) 0).
    { rewrite <- (firstn_skipn nsize (firstn j l ++ k :: skipn j l)) at 2. rewrite app_nth1 by (rewrite LS by exact b; exact I). reflexivity. }
    rewrite NF. assert (FL : length (firstn j l) = j) by (rewrite firstn_length; lia).
    destruct (Nat.eqb_spec (3 * v + i) (3 * v + j)) as [Q|Q].
    + assert (i = j) as -> by lia. rewrite app_nth2 by lia. rewrite FL, Nat.sub_diag. reflexivity.
    + rewrite C1 by lia. destruct ((S j <=? i) && (i <? nsize)) eqn:X.
      * rewrite app_nth2 by lia. rewrite FL. replace (i - j) with (S (i - 1 - j)) by lia. cbn [nth]. do 2 f_equal.
        rewrite <- (firstn_skipn j l) at 1. rewrite app_nth2 by lia. rewrite FL. reflexivity.
      * rewrite app_nth1 by lia. rewrite H by lia. do 2 f_equal. rewrite <- (firstn_skipn j l) at 1. rewrite app_nth1 by lia. reflexivity.
  - intros u i U I. rewrite put_cell. destruct (Nat.eqb_spec (3 * u + i) (3 * v + j)) as [Q|Q]; [exfalso; lia|apply F1; assumption].
Qed.

(** best[0..2] and next_best of node v are the pair s; nothing else changed. *)
Definition bs (b : mem nat) (n : mem Q) (v : nat) (s : list nat * Q) : Prop :=
  bholds b v (fst s) /\ length (fst s) = 3 /\ msize n = N /\ mcell n v = Some (snd s).
Definition nframe (n n' : mem Q) (v : nat) : Prop := forall u, u <> v -> mcell n' u = mcell n u.
Lemma bframe_trans b1 b2 b3 v : bframe b1 b2 v -> bframe b2 b3 v -> bframe b1 b3 v.
Proof. intros A B u i U I. rewrite (B u i U I). apply A; assumption. Qed.
Lemma nframe_trans n1 n2 n3 v : nframe n1 n2 v -> nframe n2 n3 v -> nframe n1 n3 v.
Proof. intros A B u U. rewrite (B u U). apply A; assumption. Qed.
Lemma nframe_put n v q : nframe n (put n v q) v.
Proof. intros u U. rewrite put_cell. destruct (Nat.eqb_spec u v); [contradiction|reflexivity]. Qed.
Lemma bs_mem b n v s i : bs b n v s -> i < 3 -> nth i (fst s) 0 < len v.
Proof. intros ((_ & _ & F & _) & L & _) I. rewrite Forall_forall in F. apply F, nth_In. lia. Qed.
Lemma bs_brd b n v s i : v < N -> bs b n v s -> i < 3 -> brd b v i = Ok (off v + nth i (fst s) 0).
Proof. intros V (B & L & _) I. apply brd_ok; [exact V|exact B|lia]. Qed.
Lemma bs_put b n v s q : v < N -> bs b n v s -> wrm n v q = Ok (put n v q) /\ bs b (put n v q) v (fst s, q).
Proof.
  intros V (B & L & M & C). split; [apply wrm_put; lia|]. split; [exact B|]. split; [exact L|]. split; [exact M|]. rewrite put_cell, Nat.eqb_refl. reflexivity.
Qed.
(** The replacement of the third best, csa.hh:885-890 and 899-905. *)
Lemma replace_ok p f b n v s k : holds p N f -> v < N -> k < len v -> bs b n v s -> Qltb (rc g f v k) (bb_last g f v (fst s)) = true ->
  exists b', sort_insertx G p b v 3 (off v + k) (rc g f v k) 3 = Ok b' /\ bs b' n v (sort_insert g f v (fst s) k 3, snd s) /\ bframe b b' v.
Proof.
  intros P V K (B & L & M & C) Q. destruct (sort_insert_ok p f b v (fst s) k 3 P V K B) as (b' & E & B' & L' & F').
  { right. split; [reflexivity|]. split; [exact L|exact Q]. }
  rewrite L in E. exists b'. split; [exact E|]. split; [|exact F']. split; [exact B'|]. split; [exact L'|]. split; [exact M|exact C].
Qed.
Lemma bb_step_ok p f b n v s k : holds p N f -> v < N -> k < len v -> bs b n v s ->
  exists b' n', bb_stepx G p v (off v + k) (b, n) = Ok (b', n') /\ bs b' n' v (bb_step g f v s k) /\ bframe b b' v /\ nframe n n' v.
Proof.
  intros P V K B. assert (B0 := B). destruct B0 as (Bh & L & M & C). unfold bb_stepx. rewrite (rcx_ok p f) by assumption. cbn [bind].
  rewrite (rdm_cell n v (snd s)) by (try assumption; lia). cbn [bind]. destruct s as [l nb]. cbn [fst snd] in *. unfold bb_step.
  destruct (Qltb (rc g f v k) nb) eqn:C1; [|exists b, n; split; [reflexivity|split; [exact B|split; [intros u i _ _; reflexivity|intros u _; reflexivity]]]].
  rewrite (bs_brd b n v (l, nb)) by (try assumption; lia). cbn [bind fst].
  rewrite (rcx_ok p f) by (try assumption; apply (bs_mem b n v (l, nb) 2 B); lia). cbn [bind]. fold (bb_last g f v l).
  destruct (Qltb (rc g f v k) (bb_last g f v l)) eqn:C2.
  - destruct (replace_ok p f b n v (l, nb) k P V K B C2) as (b' & E & B' & F'). rewrite E. cbn [bind].
    destruct (bs_put b' n v _ (bb_last g f v l) V B') as (W & B2). rewrite W. cbn [bind]. eexists. eexists. split; [reflexivity|]. split; [exact B2|].
    split; [exact F'|apply nframe_put].
  - destruct (bs_put b n v _ (rc g f v k) V B) as (W & B2). rewrite W. cbn [bind]. eexists. eexists. split; [reflexivity|]. split; [exact B2|].
    split; [intros u i _ _; reflexivity|apply nframe_put].
Qed.
Lemma bb_loop_ok p f v : holds p N f -> v < N -> forall t a b n s, a + t <= len v -> bs b n v s ->
  exists b' n', loopM (bb_stepx G p v) (seq (off v + a) t) (b, n) = Ok (b', n') /\ bs b' n' v (fold_left (bb_step g f v) (seq a t) s) /\ bframe b b' v /\ nframe n n' v.
Proof.
  intros P V. induction t as [|t IH]; intros a b n s A B.
  - exists b, n. split; [reflexivity|]. split; [exact B|]. split; [intros u i _ _; reflexivity|intros u _; reflexivity].
  - cbn [seq loopM fold_left]. destruct (bb_step_ok p f b n v s a P V ltac:(lia) B) as (b1 & n1 & E & B1 & F1 & N1). rewrite E. cbn [bind].
    destruct (IH (S a) b1 n1 _ ltac:(lia) B1) as (b2 & n2 & E2 & B2 & F2 & N2). rewrite Nat.add_succ_r in E2. exists b2, n2. split; [exact E2|]. split; [exact B2|].
    split; [eapply bframe_trans; eassumption|eapply nframe_trans; eassumption].
Qed.
Lemma best_build_ok p f b n v : holds p N f -> v < N -> 4 <= len v -> msize b = 3 * N -> msize n = N ->
  exists b' n', best_buildx G p v b n = Ok (b', n') /\ bs b' n' v (best_build g f v) /\ bframe b b' v /\ nframe n n' v.
Proof.
  intros P V L M Mn. unfold best_buildx. rewrite Hfirst by lia. cbn [bind seq loopM].
  assert (B0 : bholds b v []).
  { split; [exact M|]. split; [cbn; lia|]. split; [constructor|]. intros i I. cbn in I. lia. }
  rewrite (rcx_ok p f) by (try assumption; lia). cbn [bind].
  destruct (sort_insert_ok p f b v [] 0 1 P V ltac:(lia) B0 ltac:(left; cbn; lia)) as (b1 & E1 & B1 & L1 & F1). cbn [length] in E1. cbn [Nat.add]. rewrite E1. cbn [bind].
  rewrite (rcx_ok p f) by (try assumption; lia). cbn [bind].
  destruct (sort_insert_ok p f b1 v _ 1 2 P V ltac:(lia) B1 ltac:(left; lia)) as (b2 & E2 & B2 & L2 & F2). rewrite L1 in E2. rewrite E2. cbn [bind].
  rewrite (rcx_ok p f) by (try assumption; lia). cbn [bind].
  destruct (sort_insert_ok p f b2 v _ 2 3 P V ltac:(lia) B2 ltac:(left; lia)) as (b3 & E3 & B3 & L3 & F3). rewrite L2 in E3. rewrite E3. cbn [bind].
  rewrite (rcx_ok p f) by (try assumption; lia). cbn [bind]. rewrite wrm_put by lia. cbn [bind].
  unfold best_build. set (l := sort_insert g f v _ 2 3) in *.
  assert (B : bs b3 (put n v (rc g f v 3)) v (l, rc g f v 3)).
  { split; [exact B3|]. split; [exact L3|]. split; [exact Mn|]. rewrite put_cell, Nat.eqb_refl. reflexivity. }
  rewrite (bs_brd _ _ v _ 2 V B) by lia. cbn [bind fst]. rewrite (rcx_ok p f) by (try assumption; apply (bs_mem _ _ v _ 2 B); lia). cbn [bind]. fold (bb_last g f v l).
  assert (F : bframe b b3 v) by (eapply bframe_trans; [eapply bframe_trans; [exact F1|exact F2]|exact F3]).
  assert (Nf := nframe_put n v (rc g f v 3)).
  assert (St : exists b4 n4, (if Qltb (rc g f v 3) (bb_last g f v l) then bind (sort_insertx G p b3 v 3 (off v + 3) (rc g f v 3) 3) (fun b => bind (wrm (put n v (rc g f v 3)) v (bb_last g f v l)) (fun n => Ok (b, n))) else Ok (b3, put n v (rc g f v 3))) = Ok (b4, n4) /\
    bs b4 n4 v (if Qltb (rc g f v 3) (bb_last g f v l) then (sort_insert g f v l 3 3, bb_last g f v l) else (l, rc g f v 3)) /\ bframe b b4 v /\ nframe n n4 v).
  { destruct (Qltb (rc g f v 3) (bb_last g f v l)) eqn:C.
    - destruct (replace_ok p f b3 _ v _ 3 P V ltac:(lia) B C) as (b4 & E4 & B4 & F4). rewrite E4. cbn [bind].
      destruct (bs_put b4 _ v _ (bb_last g f v l) V B4) as (W & B5). rewrite W. cbn [bind]. eexists. eexists. split; [reflexivity|]. split; [exact B5|].
      split; [eapply bframe_trans; eassumption|eapply nframe_trans; [exact Nf|apply nframe_put]].
    - eexists. eexists. split; [reflexivity|]. split; [exact B|]. split; assumption. }
  destruct St as (b4 & n4 & E4 & B4 & F4 & N4). rewrite E4. cbn [bind]. replace (v + 1) with (S v) by lia. rewrite Hfirst by lia. cbn [bind]. rewrite Hoff by exact V.
  destruct (Nat.ltb_spec (off v + len v) (off v + 4)); [lia|]. replace (off v + len v - (off v + 4)) with (len v - 4) by lia.
  destruct (bb_loop_ok p f v P V (len v - 4) 4 b4 n4 _ ltac:(lia) B4) as (b5 & n5 & E5 & B5 & F5 & N5). rewrite E5. exists b5, n5. split; [reflexivity|].
  split; [exact B5|]. split; [eapply bframe_trans; eassumption|eapply nframe_trans; eassumption].
Qed.

Definition shift (v : nat) (s : Q * Q * nat) : Q * Q * nat := (fst s, off v + snd s).
Lemma scan_step_ok p f v k s : holds p N f -> v < N -> k < len v -> snd s < len v ->
  scan_stepx G p (off v + k) (shift v s) = Ok (shift v (scan_step g f v s k)) /\ snd (scan_step g f v s k) < len v.
Proof.
  intros P V K A. destruct s as [[pref second] adm]. unfold scan_stepx, shift. cbn [fst snd] in *. rewrite (rcx_ok p f) by assumption. cbn [bind]. unfold scan_step.
  destruct (Qltb (rc g f v k) pref); [split; [reflexivity|exact K]|]. destruct (Qltb (rc g f v k) second); split; try reflexivity; exact A.
Qed.
Lemma scan_loop_ok p f v : holds p N f -> v < N -> forall t a s, a + t <= len v -> snd s < len v ->
  loopM (scan_stepx G p) (seq (off v + a) t) (shift v s) = Ok (shift v (fold_left (scan_step g f v) (seq a t) s)) /\ snd (fold_left (scan_step g f v) (seq a t) s) < len v.
Proof.
  intros P V. induction t as [|t IH]; intros a s A Sn; [split; [reflexivity|exact Sn]|]. cbn [seq loopM fold_left].
  destruct (scan_step_ok p f v a s P V ltac:(lia) Sn) as (E & S1). rewrite E. cbn [bind]. destruct (IH (S a) _ ltac:(lia) S1) as (E2 & S2).
  rewrite Nat.add_succ_r in E2. split; assumption.
Qed.

(** The stack holds the list (top first). *)
Definition stackh (st : mem nat) (top : nat) (l : list nat) : Prop :=
  msize st = 2 * N /\ top = length l /\ forall i, i < length l -> mcell st i = nth_error (rev l) i.
Lemma push_ok st top l v : stackh st top l -> length l < 2 * N -> exists st', push (st, top) v = Ok (st', S top) /\ stackh st' (S top) (v :: l).
Proof.
  intros (M & T & C) L. unfold push. cbn [fst snd]. rewrite wrm_put by lia. cbn [bind]. eexists. split; [reflexivity|]. split; [exact M|]. split; [cbn; lia|].
  intros i I. cbn [length] in I. rewrite put_cell. cbn [rev]. destruct (Nat.eqb_spec i top) as [->|Ne].
  - rewrite nth_error_app2 by (rewrite rev_length; lia). rewrite rev_length, T, Nat.sub_diag. reflexivity.
  - rewrite nth_error_app1 by (rewrite rev_length; lia). apply C. lia.
Qed.
Lemma pop_ok st top l v : stackh st top (v :: l) -> length l < 2 * N -> pop st top = Ok (v, length l) /\ stackh st (length l) l.
Proof.
  intros (M & T & C) L. cbn [length] in *. rewrite T. cbn [pop]. assert (E := C (length l) ltac:(lia)). cbn [rev] in E.
  rewrite nth_error_app2 in E by (rewrite rev_length; lia). rewrite rev_length, Nat.sub_diag in E. cbn in E. rewrite (rdm_cell st _ v) by (try assumption; lia).
  cbn [bind]. split; [reflexivity|]. split; [exact M|]. split; [reflexivity|]. intros i I. rewrite C by lia. cbn [rev]. rewrite nth_error_app1 by (rewrite rev_length; lia). reflexivity.
Qed.

(** The memory represents the state; c nodes have been taken from the stack. *)
Record rel (c : nat) (s : csa) (x : node_mem) : Prop := mkRel {
  r_p : holds (x_p x) N (price s);
  r_rm : holds (x_rm x) N (rmatch s);
  r_rmr : forall w u, w < N -> rmatch s w = Some u -> u < N;
  r_lm : holds (x_lm x) N (fun v => option_map (Nat.add (off v)) (lmatch s v));
  r_lmr : forall v k, v < N -> lmatch s v = Some k -> k < len v;
  r_b : msize (x_best x) = 3 * N;
  r_n : msize (x_nb x) = N;
  r_best : forall v, v < N -> few_arcs g v = false -> bs (x_best x) (x_nb x) v (best s v);
  r_st : stackh (x_stack x) (x_top x) (active s);
  r_act : Forall (fun v => v < N) (active s);
  r_cnt : length (active s) + c = total_e s;
  r_le : total_e s <= N;
  r_te : x_te x = total_e s }.

Lemma few_len v : few_arcs g v = false -> 4 <= len v.
Proof. unfold few_arcs. destruct (Nat.ltb_spec (len v) 4); [discriminate|lia]. Qed.
Lemma list3 (l : list nat) : length l = 3 -> exists a b c, l = [a; b; c].
Proof. destruct l as [|a [|b [|c [|d l]]]]; cbn; intros L; try discriminate. exists a, b, c. reflexivity. Qed.
Lemma part1_ok n eps c s x v pref second adm bst : rel c s x -> v < N -> part1 g n eps (price s) v (best s v) = Ok (pref, second, adm, bst) ->
  exists b nb, part1x G n eps x v = Ok (pref, second, off v + adm, (b, nb)) /\ adm < len v /\ msize b = 3 * N /\ msize nb = N /\
    (few_arcs g v = false -> bs b nb v bst) /\ bframe (x_best x) b v /\ nframe (x_nb x) nb v.
Proof.
  intros R V E. assert (P := r_p _ _ _ R). unfold part1x. rewrite Hfew by exact V. cbn [bind]. unfold part1 in E. destruct (few_arcs g v) eqn:Fw.
  - replace (v + 1) with (S v) by lia. rewrite !Hfirst by lia. cbn [bind]. rewrite Hoff by exact V. destruct (len v) as [|m] eqn:Lv; [discriminate|].
    destruct (Nat.ltb_spec (off v) (off v + S m)); [|lia]. assert (R0 : rcx G (x_p x) (off v) = Ok (rc g (price s) v 0)) by (rewrite <- (rcx_ok _ _ v 0 P V) by lia; rewrite Nat.add_0_r; reflexivity).
    rewrite R0. cbn [bind].
    replace (off v + S m - S (off v)) with m by lia. replace (S (off v)) with (off v + 1) by lia.
    set (s0 := (rc g (price s) v 0, (rc g (price s) v 0 + eps * (po_cost_thresh n + 1))%Q, 0)) in E.
    destruct (scan_loop_ok _ _ v P V m 1 s0 ltac:(lia) ltac:(cbn; lia)) as (E2 & S2). unfold shift in E2 at 1. unfold s0 in E2 at 1. cbn [fst snd] in E2. rewrite Nat.add_0_r in E2. rewrite E2. cbn [bind].
    injection E as E3 E4. rewrite E3 in *. unfold shift. cbn [fst snd] in *. exists (x_best x), (x_nb x). split; [reflexivity|]. split; [lia|].
    split; [apply (r_b _ _ _ R)|]. split; [apply (r_n _ _ _ R)|]. split; [discriminate|]. split; [intros u i _ _; reflexivity|intros u _; reflexivity].
  - assert (B := r_best _ _ _ R v V Fw). assert (L3 := proj1 (proj2 B)). destruct (list3 _ L3) as (b0 & b1 & b2 & El). rewrite El in E.
    assert (M0 := bs_mem _ _ _ _ 0 B ltac:(lia)). assert (M1 := bs_mem _ _ _ _ 1 B ltac:(lia)). assert (M2 := bs_mem _ _ _ _ 2 B ltac:(lia)).
    rewrite !(bs_brd _ _ v _ _ V B) by lia. rewrite El in *. cbn [nth] in *. cbn [bind]. rewrite !(rcx_ok _ _ v _ P V) by assumption. cbn [bind].
    set (s0 := if Qltb (rc g (price s) v b1) (rc g (price s) v b0) then (rc g (price s) v b1, rc g (price s) v b0, b1) else (rc g (price s) v b0, rc g (price s) v b1, b0)) in E.
    assert (S0 : (if Qltb (rc g (price s) v b1) (rc g (price s) v b0) then (rc g (price s) v b1, rc g (price s) v b0, off v + b1) else (rc g (price s) v b0, rc g (price s) v b1, off v + b0)) = shift v s0)
      by (unfold s0, shift; destruct (Qltb _ _); reflexivity).
    rewrite S0. assert (Ms : snd s0 < len v) by (unfold s0; destruct (Qltb _ _); assumption).
    destruct (scan_step_ok _ _ v b2 s0 P V M2 Ms) as (E2 & S2). rewrite E2. cbn [bind]. cbn [fold_left] in E. destruct (scan_step g (price s) v s0 b2) as [[pf sc] ad]. unfold shift. cbn [fst snd] in *.
    assert (Rn : rdm (x_nb x) v = Ok (snd (best s v))) by (destruct B as (_ & _ & Mn & C); apply rdm_cell; [lia|exact C]). rewrite Rn. cbn [bind].
    destruct (Qltb (snd (best s v)) sc) eqn:Q.
    + destruct (best_build_ok _ _ (x_best x) (x_nb x) v P V (few_len v Fw) (r_b _ _ _ R) (r_n _ _ _ R)) as (b & nb & E3 & B3 & F3 & N3). rewrite E3. cbn [bind].
      rewrite !(bs_brd _ _ v _ _ V B3) by lia. cbn [bind]. rewrite !(rcx_ok _ _ v _ P V) by (apply (bs_mem _ _ _ _ _ B3); lia). cbn [bind].
      assert (M0' := bs_mem _ _ _ _ 0 B3 ltac:(lia)). destruct (best_build g (price s) v) as [l nbv] eqn:Eb. destruct (list3 l (proj1 (proj2 B3))) as (c0 & c1 & c2 & ->).
      cbn [fst nth] in *. injection E as <- <- <- <-. exists b, nb. split; [reflexivity|]. split; [exact M0'|]. split; [apply B3|]. split; [apply B3|].
      split; [intros _; exact B3|]. split; assumption.
    + injection E as <- <- <- <-. exists (x_best x), (x_nb x). split; [reflexivity|]. split; [exact S2|]. split; [apply (r_b _ _ _ R)|]. split; [apply (r_n _ _ _ R)|].
      split; [intros _; exact B|]. split; [intros u i _ _; reflexivity|intros u _; reflexivity].
Qed.

Lemma bs_frame b n b' n' u v s : u < N -> u <> v -> bs b n u s -> msize b' = 3 * N -> msize n' = N -> bframe b b' v -> nframe n n' v -> bs b' n' u s.
Proof.
  clear. intros U D ((M & L & F & C) & L3 & Mn & Cn) M' Mn' FB FN. split; [|split; [exact L3|split; [exact Mn'|rewrite FN by exact D; exact Cn]]].
  split; [exact M'|]. split; [exact L|]. split; [exact F|]. intros i I. rewrite FB by lia. apply C, I.
Qed.
Lemma double_push_ok n eps s x v s' : rel 1 s x -> v < N -> double_push g n eps v s = Ok s' ->
  exists x', double_pushx G n eps v x = Ok x' /\ rel 0 s' x'.
Proof.
  intros R V E. unfold double_push in E. destruct (part1 g n eps (price s) v (best s v)) as [[[[pref second] adm] bst]|e] eqn:E1; [|discriminate]. cbn [bind] in E.
  destruct (part1_ok n eps 1 s x v pref second adm bst R V E1) as (b & nb & Ex & A & Mb & Mn & Bv & Fb & Fn). unfold double_pushx. rewrite Ex. cbn [bind].
  rewrite Harcs by assumption. cbn [bind fst]. set (w := a_head (arc_at g v adm)) in *. assert (W : w < N) by (apply Hheads; assumption).
  assert (Best : forall u, u < N -> few_arcs g u = false -> bs b nb u (upd (best s) v bst u)).
  { intros u U Fu. unfold upd. destruct (Nat.eqb_spec u v) as [->|Ne]; [apply Bv, Fu|].
    eapply bs_frame; [exact U|exact Ne|apply (r_best _ _ _ R u U Fu)|exact Mb|exact Mn|exact Fb|exact Fn]. }
  rewrite (holds_rd _ _ _ w (r_rm _ _ _ R) W). cbn [bind]. destruct (holds_wr _ _ _ w (Some v) (r_rm _ _ _ R) W) as (Wr & Hr).
  assert (Rmr : forall w0 u, w0 < N -> upd (rmatch s) w (Some v) w0 = Some u -> u < N).
  { intros w0 u W0. unfold upd. destruct (Nat.eqb w0 w); [intros X; injection X as <-; exact V|apply (r_rmr _ _ _ R), W0]. }
  destruct (holds_wr _ _ _ w (Qred (price s w - ((second - pref) + eps))) (r_p _ _ _ R) W) as (Wp & Hp).
  assert (Cnt := r_cnt _ _ _ R). assert (Le := r_le _ _ _ R).
  destruct (rmatch s w) as [u|] eqn:Eu.
  - assert (U : u < N) by (apply (r_rmr _ _ _ R w u W Eu)). destruct (holds_wr _ _ _ u None (r_lm _ _ _ R) U) as (W1 & H1). rewrite W1. cbn [bind].
    destruct (push_ok _ _ _ u (r_st _ _ _ R) ltac:(lia)) as (st & Ep & St). rewrite Ep. cbn [bind].
    destruct (holds_wr _ _ _ v (Some (off v + adm)) H1 V) as (W2 & H2). rewrite W2. cbn [bind]. rewrite Wr. cbn [bind].
    rewrite (holds_rd _ _ _ w (r_p _ _ _ R) W). cbn [bind]. rewrite Wp. cbn [bind]. eexists. split; [reflexivity|]. injection E as <-.
    split; cbn [x_p x_rm x_lm x_best x_nb x_stack x_top x_te price rmatch lmatch best active total_e].
    + exact Hp.
    + exact Hr.
    + exact Rmr.
    + eapply holds_ext; [exact H2|]. intros i I. cbv beta. unfold upd. destruct (Nat.eqb_spec i v) as [->|]; [reflexivity|]. destruct (Nat.eqb i u); reflexivity.
    + intros i k I. unfold upd. destruct (Nat.eqb_spec i v) as [->|]; [intros X; injection X as <-; exact A|]. destruct (Nat.eqb i u); [discriminate|apply (r_lmr _ _ _ R), I].
    + exact Mb.
    + exact Mn.
    + exact Best.
    + exact St.
    + constructor; [exact U|apply (r_act _ _ _ R)].
    + cbn [length]. lia.
    + lia.
    + apply (r_te _ _ _ R).
  - destruct (holds_wr _ _ _ v (Some (off v + adm)) (r_lm _ _ _ R) V) as (W2 & H2). rewrite W2. cbn [bind]. rewrite Wr. cbn [bind].
    rewrite (holds_rd _ _ _ w (r_p _ _ _ R) W). cbn [bind]. rewrite Wp. cbn [bind]. eexists. split; [reflexivity|]. injection E as <-.
    split; cbn [x_p x_rm x_lm x_best x_nb x_stack x_top x_te price rmatch lmatch best active total_e].
    + exact Hp.
    + exact Hr.
    + exact Rmr.
    + eapply holds_ext; [exact H2|]. intros i I. cbv beta. unfold upd. destruct (Nat.eqb_spec i v) as [->|]; reflexivity.
    + intros i k I. unfold upd. destruct (Nat.eqb_spec i v) as [->|]; [intros X; injection X as <-; exact A|]. apply (r_lmr _ _ _ R), I.
    + exact Mb.
    + exact Mn.
    + exact Best.
    + apply (r_st _ _ _ R).
    + apply (r_act _ _ _ R).
    + lia.
    + lia.
    + rewrite (r_te _ _ _ R). reflexivity.
Qed.

Definition unmatch_step (s : csa) (v : nat) : csa :=
  let s1 := match lmatch s v with
            | Some k => mkCsa (price s) (upd (rmatch s) (a_head (arc_at g v k)) None) (upd (lmatch s) v None) (best s) (active s) (total_e s)
            | None => s end in
  mkCsa (price s1) (rmatch s1) (lmatch s1) (best s1) (v :: active s1) (S (total_e s1)).
Lemma unmatch_step_ok s x v : rel 0 s x -> v < N -> total_e s < N ->
  exists x', unmatchx G v x = Ok x' /\ rel 0 (unmatch_step s v) x' /\ total_e (unmatch_step s v) = S (total_e s).
Proof.
  intros R V T. unfold unmatchx. rewrite (holds_rd _ _ _ v (r_lm _ _ _ R) V). cbn [bind]. assert (Cnt := r_cnt _ _ _ R).
  destruct (push_ok _ _ _ v (r_st _ _ _ R) ltac:(lia)) as (st & Ep & St). unfold unmatch_step. destruct (lmatch s v) as [k|] eqn:El; cbn [option_map].
  - assert (K := r_lmr _ _ _ R v k V El). rewrite Harcs by assumption. cbn [bind fst]. set (w := a_head (arc_at g v k)). assert (W : w < N) by (apply Hheads; assumption).
    destruct (holds_wr _ _ _ w None (r_rm _ _ _ R) W) as (W1 & H1). rewrite W1. cbn [bind]. destruct (holds_wr _ _ _ v None (r_lm _ _ _ R) V) as (W2 & H2). rewrite W2. cbn [bind].
    rewrite Ep. cbn [bind]. eexists. split; [reflexivity|]. split; [|reflexivity].
    split; cbn [x_p x_rm x_lm x_best x_nb x_stack x_top x_te price rmatch lmatch best active total_e].
    + apply (r_p _ _ _ R).
    + exact H1.
    + intros w0 u W0. unfold upd. destruct (Nat.eqb w0 w); [discriminate|apply (r_rmr _ _ _ R), W0].
    + eapply holds_ext; [exact H2|]. intros i I. cbv beta. unfold upd. destruct (Nat.eqb i v); reflexivity.
    + intros i q I. unfold upd. destruct (Nat.eqb i v); [discriminate|apply (r_lmr _ _ _ R), I].
    + apply (r_b _ _ _ R).
    + apply (r_n _ _ _ R).
    + apply (r_best _ _ _ R).
    + exact St.
    + constructor; [exact V|apply (r_act _ _ _ R)].
    + cbn [length]. lia.
    + lia.
    + rewrite (r_te _ _ _ R). reflexivity.
  - cbn [bind]. rewrite Ep. cbn [bind]. eexists. split; [reflexivity|]. split; [|reflexivity].
    split; cbn [x_p x_rm x_lm x_best x_nb x_stack x_top x_te price rmatch lmatch best active total_e].
    + apply (r_p _ _ _ R).
    + apply (r_rm _ _ _ R).
    + apply (r_rmr _ _ _ R).
    + apply (r_lm _ _ _ R).
    + apply (r_lmr _ _ _ R).
    + apply (r_b _ _ _ R).
    + apply (r_n _ _ _ R).
    + apply (r_best _ _ _ R).
    + exact St.
    + constructor; [exact V|apply (r_act _ _ _ R)].
    + cbn [length]. lia.
    + lia.
    + rewrite (r_te _ _ _ R). reflexivity.
Qed.
(** Between two calls of refine: no active node. *)
Definition idle (s : csa) (x : node_mem) : Prop := rel 0 s x /\ total_e s = 0.
Lemma unmatch_loop_ok s x : rel 0 s x -> total_e s = 0 -> forall k, k <= N ->
  exists x', loopM (unmatchx G) (seq 0 k) x = Ok x' /\ rel 0 (fold_left unmatch_step (seq 0 k) s) x' /\ total_e (fold_left unmatch_step (seq 0 k) s) = k.
Proof.
  intros R T. induction k as [|k IH]; intros K; [exists x; split; [reflexivity|split; assumption]|].
  destruct (IH ltac:(lia)) as (x1 & E & R1 & T1). rewrite seq_S, loopM_app, fold_left_app, E. cbn [bind loopM fold_left Nat.add].
  destruct (unmatch_step_ok _ x1 k R1 ltac:(lia) ltac:(lia)) as (x2 & E2 & R2 & T2). rewrite E2. exists x2. split; [reflexivity|]. split; [exact R2|lia].
Qed.
Lemma push_loop_ok n eps fuel : forall s x r, rel 0 s x -> push_loop g fuel n eps s = Ok r ->
  match r with
  | None => push_loopx G fuel n eps x = Ok None
  | Some s' => exists x', push_loopx G fuel n eps x = Ok (Some x') /\ idle s' x' end.
Proof.
  induction fuel as [|fuel IH]; intros s x r R E; cbn [push_loop push_loopx] in *; [injection E as <-; reflexivity|].
  rewrite (r_te _ _ _ R). destruct (Nat.ltb_spec 0 (total_e s)) as [T|T].
  - destruct (active s) as [|v rest] eqn:Ea; [discriminate|]. assert (Cnt := r_cnt _ _ _ R). assert (Le := r_le _ _ _ R). rewrite Ea in Cnt. cbn [length] in Cnt.
    assert (St := r_st _ _ _ R). rewrite Ea in St. destruct (pop_ok _ _ _ _ St ltac:(lia)) as (Ep & St'). rewrite Ep. cbn [bind].
    assert (Act := r_act _ _ _ R). rewrite Ea in Act. inversion Act as [|? ? V Act' [Q1 Q2]].
    destruct (double_push g n eps v (mkCsa (price s) (rmatch s) (lmatch s) (best s) rest (total_e s))) as [s1|e] eqn:Ed; [|discriminate]. cbn [bind] in E.
    assert (R1 : rel 1 (mkCsa (price s) (rmatch s) (lmatch s) (best s) rest (total_e s)) (mkNodeMem (x_p x) (x_rm x) (x_lm x) (x_best x) (x_nb x) (x_stack x) (length rest) (total_e s))).
    { split; cbn [x_p x_rm x_lm x_best x_nb x_stack x_top x_te price rmatch lmatch best active total_e]; try apply R; try assumption; try reflexivity. lia. }
    destruct (double_push_ok n eps _ _ v s1 R1 V Ed) as (x1 & E1 & R2). rewrite E1. cbn [bind]. apply (IH s1 x1 r R2 E).
  - injection E as <-. exists x. split; [reflexivity|]. split; [exact R|lia].
Qed.
Lemma refine_ok n eps fuel s x r : idle s x -> refine g fuel N n eps s = Ok r ->
  match r with
  | None => refinex N G fuel n eps x = Ok None
  | Some s' => exists x', refinex N G fuel n eps x = Ok (Some x') /\ idle s' x' end.
Proof.
  intros [R T] E. unfold refine in E. unfold refinex. assert (Cnt := r_cnt _ _ _ R).
  assert (R0 : rel 0 (mkCsa (price s) (rmatch s) (lmatch s) (best s) (active s) 0) (mkNodeMem (x_p x) (x_rm x) (x_lm x) (x_best x) (x_nb x) (x_stack x) (x_top x) 0)).
  { split; cbn [x_p x_rm x_lm x_best x_nb x_stack x_top x_te price rmatch lmatch best active total_e]; try apply R; try reflexivity; try lia. }
  destruct (unmatch_loop_ok _ _ R0 eq_refl N (le_n _)) as (x1 & E1 & R1 & _). rewrite E1. cbn [bind]. apply (push_loop_ok n eps fuel _ _ _ R1). exact E.
Qed.
Lemma main_loop_ok n me pfuel fuel : forall eps s x r, idle s x -> main_loop g fuel pfuel N n me eps s = Ok r ->
  match r with
  | None => main_loopx N G fuel pfuel n me eps x = Ok None
  | Some s' => exists x', main_loopx N G fuel pfuel n me eps x = Ok (Some x') /\ idle s' x' end.
Proof.
  induction fuel as [|fuel IH]; intros eps s x r I E; cbn [main_loop main_loopx] in *; [injection E as <-; reflexivity|].
  destruct (Qltb me eps); [|injection E as <-; exists x; split; [reflexivity|exact I]].
  destruct (refine g pfuel N n (update_epsilon me eps) s) as [[s1|]|e] eqn:Er; [| |discriminate]; cbn [bind] in E.
  - destruct (refine_ok _ _ _ _ _ _ I Er) as (x1 & E1 & I1). rewrite E1. cbn [bind]. apply (IH _ _ _ _ I1 E).
  - rewrite (refine_ok _ _ _ _ _ _ I Er). cbn [bind]. injection E as <-. reflexivity.
Qed.
Lemma init_ok : exists x, init_mem N G = Ok x /\ idle (init_csa g) x.
Proof.
  unfold init_mem. destruct (fill_holds N (@None nat)) as (lm & El & Hl). rewrite El. cbn [bind].
  destruct (fill_holds N 0%Q) as (p & Ep & Hp). rewrite Ep. cbn [bind].
  destruct (loop_seq (fun v s => bind (rdm (x_few G) v) (fun few => if few then Ok s else best_buildx G p v (fst s) (snd s)))
    (fun i s => msize (fst s) = 3 * N /\ msize (snd s) = N /\ forall v, v < i -> few_arcs g v = false -> bs (fst s) (snd s) v (best_build g (fun _ => 0%Q) v))
    N (malloc (3 * N), malloc N)) as ([b n] & E & Mb & Mn & B).
  - split; [reflexivity|]. split; [reflexivity|]. intros v V. lia.
  - intros i [b n] I (Mb & Mn & B). cbn [fst snd] in *. rewrite Hfew by exact I. cbn [bind]. destruct (few_arcs g i) eqn:Fi.
    + exists (b, n). split; [reflexivity|]. split; [exact Mb|]. split; [exact Mn|]. intros v V Fv. destruct (Nat.eq_dec v i) as [->|]; [congruence|apply B; [lia|exact Fv]].
    + destruct (best_build_ok p _ b n i Hp I (few_len i Fi) Mb Mn) as (b' & n' & E & Bi & Fb & Fn). exists (b', n'). split; [exact E|]. cbn [fst snd].
      assert (Mb' : msize b' = 3 * N) by apply Bi. assert (Mn' : msize n' = N) by apply Bi. split; [exact Mb'|]. split; [exact Mn'|].
      intros v V Fv. destruct (Nat.eq_dec v i) as [->|Ne]; [exact Bi|]. eapply bs_frame; [|exact Ne|apply B; [lia|exact Fv]|exact Mb'|exact Mn'|exact Fb|exact Fn]. lia.
  - rewrite E. cbn [bind]. eexists. split; [reflexivity|]. split; [|reflexivity]. cbn [fst snd] in *.
    split; cbn [x_p x_rm x_lm x_best x_nb x_stack x_top x_te price rmatch lmatch best active total_e init_csa]; try reflexivity; try assumption; try discriminate; try lia.
    + split; [reflexivity|]. split; [reflexivity|]. intros i I. cbn in I. lia.
    + constructor.
Qed.
Definition out (s : csa) (v : nat) : nat * Z :=
  match lmatch s v with Some k => (a_head (arc_at g v k), a_cost (arc_at g v k)) | None => (0, 0%Z) end.
Lemma store_results_out s vs : forall l, store_results g s vs = Ok l -> l = map (out s) vs /\ Forall (fun v => lmatch s v <> None) vs.
Proof.
  induction vs as [|v vs IH]; intros l E; cbn [store_results] in E; [injection E as <-; split; [reflexivity|constructor]|].
  destruct (lmatch s v) as [k|] eqn:El; [|discriminate]. destruct (store_results g s vs) as [r|]; [|discriminate]. cbn [bind] in E. injection E as <-.
  destruct (IH r eq_refl) as (-> & F). split; [cbn [map]; f_equal; unfold out; rewrite El; reflexivity|]. constructor; [congruence|exact F].
Qed.
Lemma store_ok s x l : rel 0 s x -> store_results g s (seq 0 N) = Ok l ->
  exists rs, store_resultsx N G x = Ok rs /\ loopM (fun i l => bind (rdm rs i) (fun e => Ok (l ++ [e]))) (seq 0 N) [] = Ok l.
Proof.
  intros R E. destruct (store_results_out s _ l E) as (-> & F). rewrite Forall_forall in F. unfold store_resultsx.
  destruct (loop_seq (fun v r => bind (rdm (x_lm x) v) (fun o => match o with None => crash | Some a => bind (rdm (x_arcs G) a) (fun hc => wrm r v hc) end))
    (fun i m => msize m = N /\ forall v, v < i -> mcell m v = Some (out s v)) N (malloc N)) as (rs & Er & M & C).
  - split; [reflexivity|]. intros v V. lia.
  - intros v m V (M & C). rewrite (holds_rd _ _ _ v (r_lm _ _ _ R) V). cbn [bind]. destruct (lmatch s v) as [k|] eqn:El; [|exfalso; apply (F v); [apply in_seq; lia|exact El]].
    cbn [option_map]. rewrite Harcs by (try assumption; apply (r_lmr _ _ _ R v k V El)). cbn [bind]. rewrite wrm_put by lia. eexists. split; [reflexivity|]. split; [exact M|].
    intros u U. rewrite put_cell. destruct (Nat.eqb_spec u v) as [->|]; [unfold out; rewrite El; reflexivity|apply C; lia].
  - exists rs. split; [exact Er|].
    destruct (loop_seq (fun i l => bind (rdm rs i) (fun e => Ok (l ++ [e]))) (fun i l => l = map (out s) (seq 0 i)) N []) as (l & E2 & ->).
    + reflexivity.
    + intros i l I ->. rewrite (rdm_cell rs i (out s i)) by (try apply C; lia). cbn [bind]. eexists. split; [reflexivity|]. rewrite seq_S, map_app. reflexivity.
    + exact E2.
Qed.
End Solver.
