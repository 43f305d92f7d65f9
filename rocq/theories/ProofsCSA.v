(** Correctness of the assignment solver. *)
From Verif Require Import ModelCSA SpecMatch ProofsImage.
From Coq Require Import Lqa Permutation ZifyBool ZifyNat.
Open Scope nat_scope.

Lemma Qltb_true a b : Qltb a b = true <-> (a < b)%Q.
Proof. unfold Qltb. rewrite negb_true_iff, <- not_true_iff_false, Qle_bool_iff. split; [apply Qnot_le_lt|apply Qlt_not_le]. Qed.
Lemma Qltb_false a b : Qltb a b = false <-> (b <= a)%Q.
Proof. unfold Qltb. rewrite negb_false_iff. apply Qle_bool_iff. Qed.
Ltac qcase a b := let H := fresh "Hq" in destruct (Qltb a b) eqn:H; [apply Qltb_true in H|apply Qltb_false in H].

Lemma upd_same {A} (f : nat -> A) k v : upd f k v k = v.
Proof. unfold upd. rewrite Nat.eqb_refl. reflexivity. Qed.
Lemma upd_other {A} (f : nat -> A) k v i : i <> k -> upd f k v i = f i.
Proof. unfold upd. intros H. destruct (Nat.eqb_spec i k); [contradiction|reflexivity]. Qed.

Section Csa.
Variable g : list garc.
Notation len v := (length (adj g v)).
Notation rcg := (rc g).

(** ** Part I *)
Definition scan_ok (p : nat -> Q) (v : nat) (seen : list nat) (s : Q * Q * nat) : Prop :=
  let '(pref, second, adm) := s in
  In adm seen /\ pref = rcg p v adm /\ (pref <= second)%Q /\
  forall k, In k seen -> k <> adm -> (second <= rcg p v k)%Q.
Lemma scan_step_ok p v seen s k : scan_ok p v seen s -> scan_ok p v (k :: seen) (scan_step g p v s k).
Proof.
  destruct s as [[pref second] adm]. intros (A & B & C & D). unfold scan_step. qcase (rcg p v k) pref.
  - split; [left; reflexivity|]. split; [reflexivity|]. split; [lra|].
    intros j [->|Hj] Hn; [contradiction|]. destruct (Nat.eq_dec j adm) as [->|Hne]; [rewrite B; lra|].
    specialize (D j Hj Hne). lra.
  - qcase (rcg p v k) second.
    + split; [right; exact A|]. split; [exact B|]. split; [exact Hq|].
      intros j [->|Hj] Hn; [lra|]. specialize (D j Hj Hn). lra.
    + split; [right; exact A|]. split; [exact B|]. split; [exact C|].
      intros j [->|Hj] Hn; [exact Hq0|]. apply D; assumption.
Qed.
Lemma scan_ok_iff p v s l l' : (forall k, In k l <-> In k l') -> scan_ok p v l s -> scan_ok p v l' s.
Proof.
  destruct s as [[pref second] adm]. intros E (A & B & C & D). split; [apply E; exact A|]. split; [exact B|].
  split; [exact C|]. intros k Hk. apply D, E, Hk.
Qed.
Lemma scan_fold_ok p v ks : forall seen s, scan_ok p v seen s -> scan_ok p v (ks ++ seen) (fold_left (scan_step g p v) ks s).
Proof.
  induction ks as [|k ks IH]; intros seen s H; [exact H|]. cbn [fold_left].
  apply (scan_step_ok _ _ _ _ k) in H. apply IH in H. eapply scan_ok_iff; [|exact H].
  intros j. cbn [app]. rewrite !in_app_iff. cbn [In]. rewrite in_app_iff. tauto.
Qed.

(** [best] holds three different arcs and all others cost at least [next_best]. *)
Definition best_ok (p : nat -> Q) (v : nat) (bst : list nat * Q) : Prop :=
  few_arcs g v = true \/
  exists a b c, fst bst = [a; b; c] /\ a < len v /\ b < len v /\ c < len v /\ a <> b /\ a <> c /\ b <> c /\
    forall k, k < len v -> k <> a -> k <> b -> k <> c -> (snd bst <= rcg p v k)%Q.
(** ... and right after a rebuild they are sorted and at most [next_best]. *)
Definition built (p : nat -> Q) (v j : nat) (bst : list nat * Q) : Prop :=
  exists a b c, fst bst = [a; b; c] /\ a < j /\ b < j /\ c < j /\ a <> b /\ a <> c /\ b <> c /\
    (rcg p v a <= rcg p v b)%Q /\ (rcg p v b <= rcg p v c)%Q /\ (rcg p v c <= snd bst)%Q /\
    forall k, k < j -> k <> a -> k <> b -> k <> c -> (snd bst <= rcg p v k)%Q.

Definition three (p : nat -> Q) (v j : nat) (l : list nat) : Prop :=
  exists a b c, l = [a; b; c] /\ a < j /\ b < j /\ c < j /\ a <> b /\ a <> c /\ b <> c /\
    (rcg p v a <= rcg p v b)%Q /\ (rcg p v b <= rcg p v c)%Q.
Lemma first_three p v : three p v 3 (sort_insert g p v (sort_insert g p v (sort_insert g p v [] 0 1) 1 2) 2 3).
Proof.
  unfold sort_insert. cbn [insert_before firstn]. qcase (rcg p v 1) (rcg p v 0); cbn [insert_before firstn].
  - qcase (rcg p v 2) (rcg p v 1); cbn [insert_before firstn].
    + exists 2, 1, 0. repeat (split; [try reflexivity; try lia; try lra|]); lra.
    + qcase (rcg p v 2) (rcg p v 0); cbn [insert_before firstn].
      * exists 1, 2, 0. repeat (split; [try reflexivity; try lia; try lra|]); lra.
      * exists 1, 0, 2. repeat (split; [try reflexivity; try lia; try lra|]); lra.
  - qcase (rcg p v 2) (rcg p v 0); cbn [insert_before firstn].
    + exists 2, 0, 1. repeat (split; [try reflexivity; try lia; try lra|]); lra.
    + qcase (rcg p v 2) (rcg p v 1); cbn [insert_before firstn].
      * exists 0, 2, 1. repeat (split; [try reflexivity; try lia; try lra|]); lra.
      * exists 0, 1, 2. repeat (split; [try reflexivity; try lia; try lra|]); lra.
Qed.
Lemma insert3 p v a b c k : (rcg p v a <= rcg p v b)%Q -> (rcg p v b <= rcg p v c)%Q -> (rcg p v k < rcg p v c)%Q ->
  exists a' b' c', sort_insert g p v [a; b; c] k 3 = [a'; b'; c'] /\
    (rcg p v a' <= rcg p v b')%Q /\ (rcg p v b' <= rcg p v c')%Q /\ (rcg p v c' <= rcg p v c)%Q /\
    Permutation [a'; b'; c'] [a; b; k].
Proof.
  intros H1 H2 H3. unfold sort_insert. cbn [insert_before firstn].
  qcase (rcg p v k) (rcg p v a); cbn [firstn].
  - exists k, a, b. split; [reflexivity|]. split; [lra|]. split; [lra|]. split; [lra|].
    apply Permutation_sym. change [a; b; k] with ([a; b] ++ [k]). change [k; a; b] with ([k] ++ [a; b]). apply Permutation_app_comm.
  - qcase (rcg p v k) (rcg p v b); cbn [firstn].
    + exists a, k, b. split; [reflexivity|]. split; [lra|]. split; [lra|]. split; [lra|]. constructor. apply perm_swap.
    + qcase (rcg p v k) (rcg p v c); cbn [firstn]; [|lra].
      exists a, b, k. split; [reflexivity|]. split; [lra|]. split; [lra|]. split; [lra|]. apply Permutation_refl.
Qed.
Lemma perm3_distinct (a b c a' b' c' : nat) : Permutation [a'; b'; c'] [a; b; c] -> a <> b -> a <> c -> b <> c ->
  a' <> b' /\ a' <> c' /\ b' <> c'.
Proof.
  intros P H1 H2 H3. assert (N : NoDup [a'; b'; c']).
  { apply (Permutation_NoDup (Permutation_sym P)). repeat constructor; simpl; intuition congruence. }
  inversion N as [|? ? N1 N2]; subst. inversion N2 as [|? ? N3 N4]; subst. simpl in *. intuition congruence.
Qed.
Lemma perm3_in (a b c a' b' c' k : nat) : Permutation [a'; b'; c'] [a; b; c] ->
  (k = a' \/ k = b' \/ k = c') <-> (k = a \/ k = b \/ k = c).
Proof.
  intros P. assert (E : In k [a'; b'; c'] <-> In k [a; b; c]).
  { split; apply Permutation_in; [exact P|apply Permutation_sym, P]. }
  cbn [In] in E. destruct E as [E1 E2]. split; intros H.
  - assert (X : a = k \/ b = k \/ c = k \/ False) by (apply E1; destruct H as [->|[->| ->]]; auto). destruct X as [->|[->|[->|[]]]]; auto.
  - assert (X : a' = k \/ b' = k \/ c' = k \/ False) by (apply E2; destruct H as [->|[->| ->]]; auto). destruct X as [->|[->|[->|[]]]]; auto.
Qed.
Lemma insert3_built p v j a b c nb k : k = j -> a < j -> b < j -> c < j -> a <> b -> a <> c -> b <> c ->
  (rcg p v a <= rcg p v b)%Q -> (rcg p v b <= rcg p v c)%Q -> (rcg p v c <= nb)%Q ->
  (forall i, i < j -> i <> a -> i <> b -> i <> c -> (nb <= rcg p v i)%Q) ->
  (rcg p v k < rcg p v c)%Q ->
  built p v (S j) (sort_insert g p v [a; b; c] k 3, rcg p v c).
Proof.
  intros -> Ha Hb Hc D1 D2 D3 S1 S2 S3 O L.
  destruct (insert3 p v a b c j S1 S2 L) as (a' & b' & c' & E & T1 & T2 & T3 & P).
  exists a', b', c'. cbn [fst snd]. split; [exact E|].
  destruct (perm3_distinct _ _ _ _ _ _ P) as (X1 & X2 & X3); [lia|lia|lia|].
  assert (M : forall i, (i = a' \/ i = b' \/ i = c') -> i < S j).
  { intros i Hi. apply (perm3_in _ _ _ _ _ _ i P) in Hi. destruct Hi as [->|[->| ->]]; lia. }
  split; [apply M; auto|]. split; [apply M; auto|]. split; [apply M; auto|]. split; [exact X1|]. split; [exact X2|].
  split; [exact X3|]. split; [exact T1|]. split; [exact T2|]. split; [exact T3|].
  intros i Hi N1 N2 N3. destruct (Nat.eq_dec i c) as [->|Nc]; [lra|].
  assert (Q : ~ (i = a \/ i = b \/ i = j)).
  { intros H. apply (perm3_in _ _ _ _ _ _ i P) in H. intuition. }
  assert (Hi' : (nb <= rcg p v i)%Q) by (apply O; [lia| | |exact Nc]; intuition). lra.
Qed.
Lemma bb_step_built p v j s : built p v j s -> built p v (S j) (bb_step g p v s j).
Proof.
  destruct s as [l nb]. intros (a & b & c & E & Ha & Hb & Hc & D1 & D2 & D3 & S1 & S2 & S3 & O). cbn [fst snd] in *. subst l.
  unfold bb_step. unfold bb_last; cbn [nth]. qcase (rcg p v j) nb.
  - qcase (rcg p v j) (rcg p v c).
    + eapply insert3_built; eauto.
    + exists a, b, c. cbn [fst snd]. split; [reflexivity|]. do 3 (split; [lia|]). do 3 (split; [assumption|]).
      do 3 (split; [assumption|]). intros k Hk N1 N2 N3. destruct (Nat.eq_dec k j) as [->|]; [lra|].
      specialize (O k ltac:(lia) N1 N2 N3). lra.
  - exists a, b, c. cbn [fst snd]. split; [reflexivity|]. do 3 (split; [lia|]). do 3 (split; [assumption|]).
    do 3 (split; [assumption|]). intros k Hk N1 N2 N3. destruct (Nat.eq_dec k j) as [->|]; [exact Hq|]. apply O; [lia|assumption..].
Qed.
Lemma bb_fold_built p v n : forall j s, built p v j s -> built p v (j + n) (fold_left (bb_step g p v) (seq j n) s).
Proof.
  induction n as [|n IH]; intros j s H; [rewrite Nat.add_0_r; exact H|]. cbn [seq fold_left].
  replace (j + S n) with (S j + n) by lia. apply IH, bb_step_built, H.
Qed.
Lemma best_build_built p v : few_arcs g v = false -> built p v (len v) (best_build g p v).
Proof.
  intros F. unfold few_arcs in F. apply Nat.ltb_ge in F. unfold best_build.
  replace (len v) with (4 + (len v - 4)) at 1 by lia. apply bb_fold_built.
  destruct (first_three p v) as (a & b & c & E & Ha & Hb & Hc & D1 & D2 & D3 & S1 & S2). rewrite E.
  unfold bb_last; cbn [nth]. qcase (rcg p v 3) (rcg p v c).
  - eapply (insert3_built p v 3 a b c (rcg p v c)); eauto; [lra|]. intros i Hi N1 N2 N3. exfalso. lia.
  - exists a, b, c. cbn [fst snd]. split; [reflexivity|]. do 3 (split; [lia|]). do 3 (split; [assumption|]).
    do 3 (split; [assumption|]). intros k Hk N1 N2 N3. assert (k = 3) as -> by lia. lra.
Qed.
Lemma built_best_ok p v bst : built p v (len v) bst -> best_ok p v bst.
Proof.
  intros (a & b & c & E & Ha & Hb & Hc & D1 & D2 & D3 & S1 & S2 & S3 & O). right. exists a, b, c.
  repeat (split; [assumption|]). exact O.
Qed.
Lemma best_ok_lower p p' v bst : (forall w, (p' w <= p w)%Q) -> best_ok p v bst -> best_ok p' v bst.
Proof.
  intros L [F|(a & b & c & E & Ha & Hb & Hc & D1 & D2 & D3 & O)]; [left; exact F|]. right. exists a, b, c.
  repeat (split; [assumption|]). intros k Hk N1 N2 N3. specialize (O k Hk N1 N2 N3). unfold rc in *.
  specialize (L (a_head (arc_at g v k))). lra.
Qed.

Definition chosen (p : nat -> Q) (v : nat) (pref second : Q) (adm : nat) : Prop :=
  adm < len v /\ pref = rcg p v adm /\ (pref <= second)%Q /\
  forall k, k < len v -> k <> adm -> (second <= rcg p v k)%Q.
Lemma part1_ok n eps p v bst : (0 < eps)%Q -> (0 <= n)%Q -> 0 < len v -> best_ok p v bst ->
  exists pref second adm bst', part1 g n eps p v bst = Ok (pref, second, adm, bst') /\
    chosen p v pref second adm /\ best_ok p v bst'.
Proof.
  intros He Hn Hl B. unfold part1. destruct (few_arcs g v) eqn:F.
  - destruct (len v) as [|m] eqn:L; [lia|].
    set (s := fold_left _ _ _).
    assert (S : scan_ok p v (seq 1 m ++ [0]) s).
    { apply scan_fold_ok. split; [left; reflexivity|]. split; [reflexivity|]. split.
      - unfold po_cost_thresh. assert (0 <= eps * (2 * n * (10 + 1) + 1))%Q; [|lra].
        apply Qmult_le_0_compat; [lra|]. lra.
      - intros k [<-|[]] H. contradiction. }
    destruct s as [[pref second] adm]. exists pref, second, adm, bst. split; [reflexivity|]. split; [|exact B].
    destruct S as (S1 & S2 & S3 & S4). split; [|split; [exact S2|split; [exact S3|]]].
    + apply in_app_iff in S1. rewrite in_seq in S1. simpl in S1. lia.
    + intros k Hk. apply S4. apply in_app_iff. rewrite in_seq. simpl. lia.
  - destruct B as [B|(a & b & c & E & Ha & Hb & Hc & D1 & D2 & D3 & O)]; [congruence|]. rewrite E. cbn [fold_left].
    set (s0 := if Qltb (rcg p v b) (rcg p v a) then _ else _).
    assert (S : scan_ok p v [c; a; b] (scan_step g p v s0 c)).
    { apply scan_step_ok. unfold s0. qcase (rcg p v b) (rcg p v a).
      - split; [right; left; reflexivity|]. split; [reflexivity|]. split; [lra|].
        intros k [<-|[<-|[]]] H; [lra|contradiction].
      - split; [left; reflexivity|]. split; [reflexivity|]. split; [lra|].
        intros k [<-|[<-|[]]] H; [contradiction|lra]. }
    destruct (scan_step g p v s0 c) as [[pref second] adm] eqn:Es.
    destruct S as (S1 & S2 & S3 & S4). qcase (snd bst) second.
    + pose proof (best_build_built p v F) as T. pose proof (built_best_ok _ _ _ T) as T'.
      destruct T as (a' & b' & c' & E' & Ha' & Hb' & Hc' & D1' & D2' & D3' & Q1 & Q2 & Q3 & O').
      destruct (best_build g p v) as [l nb]. cbn [fst snd] in *. subst l.
      exists (rcg p v a'), (rcg p v b'), a', ([a'; b'; c'], nb). split; [reflexivity|]. split; [|exact T'].
      split; [exact Ha'|]. split; [reflexivity|]. split; [exact Q1|]. intros k Hk Hne.
      destruct (Nat.eq_dec k b') as [->|Nb]; [lra|]. destruct (Nat.eq_dec k c') as [->|Nc]; [exact Q2|].
      specialize (O' k Hk Hne Nb Nc). lra.
    + exists pref, second, adm, bst. split; [reflexivity|]. split; [|right; exists a, b, c; repeat (split; [assumption|]); exact O].
      split; [destruct S1 as [<-|[<-|[<-|[]]]]; assumption|]. split; [exact S2|]. split; [exact S3|].
      intros k Hk Hne. destruct (in_dec Nat.eq_dec k [c; a; b]) as [I|I]; [apply S4; assumption|].
      simpl in I. specialize (O k Hk ltac:(intuition) ltac:(intuition) ltac:(intuition)). lra.
Qed.
End Csa.
