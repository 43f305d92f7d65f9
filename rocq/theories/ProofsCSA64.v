(** Correctness of the assignment solver in binary64: the choice of the arc. *)
From Verif Require Import ModelCSA64 SpecMatch ProofsImage ProofsFloat ProofsCSA.
From Coq Require Import Lra Permutation ZifyBool ZifyNat.
Open Scope R_scope.
Open Scope nat_scope.

Lemma Rltb_true a b : Rltb a b = true <-> (a < b)%R.
Proof. unfold Rltb. destruct (Rlt_dec a b); split; congruence || auto. Qed.
Lemma Rltb_false a b : Rltb a b = false <-> (b <= a)%R.
Proof. unfold Rltb. destruct (Rlt_dec a b); split; intros; try congruence; lra. Qed.
Ltac rcase a b := let H := fresh "Hq" in destruct (Rltb a b) eqn:H; [apply Rltb_true in H|apply Rltb_false in H].

Section Csa.
Variable g : list garc.
Notation len v := (List.length (adj g v)).
Notation rcg := (drc g).

(** ** Part I *)
Definition dscan_ok (p : nat -> R) (v : nat) (seen : list nat) (s : R * R * nat) : Prop :=
  let '(pref, second, adm) := s in
  In adm seen /\ pref = rcg p v adm /\ (pref <= second)%R /\
  forall k, In k seen -> k <> adm -> (second <= rcg p v k)%R.
Lemma dscan_step_ok p v seen s k : dscan_ok p v seen s -> dscan_ok p v (k :: seen) (dscan_step g p v s k).
Proof.
  destruct s as [[pref second] adm]. intros (A & B & C & D). unfold dscan_step. rcase (rcg p v k) pref.
  - split; [left; reflexivity|]. split; [reflexivity|]. split; [lra|].
    intros j [->|Hj] Hn; [contradiction|]. destruct (Nat.eq_dec j adm) as [->|Hne]; [rewrite B; lra|].
    specialize (D j Hj Hne). lra.
  - rcase (rcg p v k) second.
    + split; [right; exact A|]. split; [exact B|]. split; [exact Hq|].
      intros j [->|Hj] Hn; [lra|]. specialize (D j Hj Hn). lra.
    + split; [right; exact A|]. split; [exact B|]. split; [exact C|].
      intros j [->|Hj] Hn; [exact Hq0|]. apply D; assumption.
Qed.
Lemma dscan_ok_iff p v s l l' : (forall k, In k l <-> In k l') -> dscan_ok p v l s -> dscan_ok p v l' s.
Proof.
  destruct s as [[pref second] adm]. intros E (A & B & C & D). split; [apply E; exact A|]. split; [exact B|].
  split; [exact C|]. intros k Hk. apply D, E, Hk.
Qed.
Lemma dscan_fold_ok p v ks : forall seen s, dscan_ok p v seen s -> dscan_ok p v (ks ++ seen) (fold_left (dscan_step g p v) ks s).
Proof.
  induction ks as [|k ks IH]; intros seen s H; [exact H|]. cbn [fold_left].
  apply (dscan_step_ok _ _ _ _ k) in H. apply IH in H. eapply dscan_ok_iff; [|exact H].
  intros j. cbn [app]. rewrite !in_app_iff. cbn [In]. rewrite in_app_iff. tauto.
Qed.

(** [best] holds dthree different arcs and all others cost at least [next_best]. *)
Definition dbest_ok (p : nat -> R) (v : nat) (bst : list nat * R) : Prop :=
  few_arcs g v = true \/
  exists a b c, fst bst = [a; b; c] /\ a < len v /\ b < len v /\ c < len v /\ a <> b /\ a <> c /\ b <> c /\
    forall k, k < len v -> k <> a -> k <> b -> k <> c -> (snd bst <= rcg p v k)%R.
(** ... and right after a rebuild they are sorted and at most [next_best]. *)
Definition dbuilt (p : nat -> R) (v j : nat) (bst : list nat * R) : Prop :=
  exists a b c, fst bst = [a; b; c] /\ a < j /\ b < j /\ c < j /\ a <> b /\ a <> c /\ b <> c /\
    (rcg p v a <= rcg p v b)%R /\ (rcg p v b <= rcg p v c)%R /\ (rcg p v c <= snd bst)%R /\
    forall k, k < j -> k <> a -> k <> b -> k <> c -> (snd bst <= rcg p v k)%R.

Definition dthree (p : nat -> R) (v j : nat) (l : list nat) : Prop :=
  exists a b c, l = [a; b; c] /\ a < j /\ b < j /\ c < j /\ a <> b /\ a <> c /\ b <> c /\
    (rcg p v a <= rcg p v b)%R /\ (rcg p v b <= rcg p v c)%R.
Lemma dfirst_three p v : dthree p v 3 (dsort_insert g p v (dsort_insert g p v (dsort_insert g p v [] 0 1) 1 2) 2 3).
Proof.
  unfold dsort_insert. cbn [dinsert_before firstn]. rcase (rcg p v 1) (rcg p v 0); cbn [dinsert_before firstn].
  - rcase (rcg p v 2) (rcg p v 1); cbn [dinsert_before firstn].
    + exists 2, 1, 0. repeat (split; [try reflexivity; try lia; try lra|]); lra.
    + rcase (rcg p v 2) (rcg p v 0); cbn [dinsert_before firstn].
      * exists 1, 2, 0. repeat (split; [try reflexivity; try lia; try lra|]); lra.
      * exists 1, 0, 2. repeat (split; [try reflexivity; try lia; try lra|]); lra.
  - rcase (rcg p v 2) (rcg p v 0); cbn [dinsert_before firstn].
    + exists 2, 0, 1. repeat (split; [try reflexivity; try lia; try lra|]); lra.
    + rcase (rcg p v 2) (rcg p v 1); cbn [dinsert_before firstn].
      * exists 0, 2, 1. repeat (split; [try reflexivity; try lia; try lra|]); lra.
      * exists 0, 1, 2. repeat (split; [try reflexivity; try lia; try lra|]); lra.
Qed.
Lemma dinsert3 p v a b c k : (rcg p v a <= rcg p v b)%R -> (rcg p v b <= rcg p v c)%R -> (rcg p v k < rcg p v c)%R ->
  exists a' b' c', dsort_insert g p v [a; b; c] k 3 = [a'; b'; c'] /\
    (rcg p v a' <= rcg p v b')%R /\ (rcg p v b' <= rcg p v c')%R /\ (rcg p v c' <= rcg p v c)%R /\
    Permutation [a'; b'; c'] [a; b; k].
Proof.
  intros H1 H2 H3. unfold dsort_insert. cbn [dinsert_before firstn].
  rcase (rcg p v k) (rcg p v a); cbn [firstn].
  - exists k, a, b. split; [reflexivity|]. split; [lra|]. split; [lra|]. split; [lra|].
    apply Permutation_sym. change [a; b; k] with ([a; b] ++ [k]). change [k; a; b] with ([k] ++ [a; b]). apply Permutation_app_comm.
  - rcase (rcg p v k) (rcg p v b); cbn [firstn].
    + exists a, k, b. split; [reflexivity|]. split; [lra|]. split; [lra|]. split; [lra|]. constructor. apply perm_swap.
    + rcase (rcg p v k) (rcg p v c); cbn [firstn]; [|lra].
      exists a, b, k. split; [reflexivity|]. split; [lra|]. split; [lra|]. split; [lra|]. apply Permutation_refl.
Qed.
Lemma dinsert3_built p v j a b c nb k : k = j -> a < j -> b < j -> c < j -> a <> b -> a <> c -> b <> c ->
  (rcg p v a <= rcg p v b)%R -> (rcg p v b <= rcg p v c)%R -> (rcg p v c <= nb)%R ->
  (forall i, i < j -> i <> a -> i <> b -> i <> c -> (nb <= rcg p v i)%R) ->
  (rcg p v k < rcg p v c)%R ->
  dbuilt p v (S j) (dsort_insert g p v [a; b; c] k 3, rcg p v c).
Proof.
  intros -> Ha Hb Hc D1 D2 D3 S1 S2 S3 O L.
  destruct (dinsert3 p v a b c j S1 S2 L) as (a' & b' & c' & E & T1 & T2 & T3 & P).
  exists a', b', c'. cbn [fst snd]. split; [exact E|].
  destruct (perm3_distinct _ _ _ _ _ _ P) as (X1 & X2 & X3); [lia|lia|lia|].
  assert (M : forall i, (i = a' \/ i = b' \/ i = c') -> i < S j).
  { intros i Hi. apply (perm3_in _ _ _ _ _ _ i P) in Hi. destruct Hi as [->|[->| ->]]; lia. }
  split; [apply M; auto|]. split; [apply M; auto|]. split; [apply M; auto|]. split; [exact X1|]. split; [exact X2|].
  split; [exact X3|]. split; [exact T1|]. split; [exact T2|]. split; [exact T3|].
  intros i Hi N1 N2 N3. destruct (Nat.eq_dec i c) as [->|Nc]; [lra|].
  assert (Q : ~ (i = a \/ i = b \/ i = j)).
  { intros H. apply (perm3_in _ _ _ _ _ _ i P) in H. intuition. }
  assert (Hi' : (nb <= rcg p v i)%R) by (apply O; [lia| | |exact Nc]; intuition). lra.
Qed.
Lemma dbb_step_built p v j s : dbuilt p v j s -> dbuilt p v (S j) (dbb_step g p v s j).
Proof.
  destruct s as [l nb]. intros (a & b & c & E & Ha & Hb & Hc & D1 & D2 & D3 & S1 & S2 & S3 & O). cbn [fst snd] in *. subst l.
  unfold dbb_step. unfold dbb_last; cbn [nth]. rcase (rcg p v j) nb.
  - rcase (rcg p v j) (rcg p v c).
    + eapply dinsert3_built; eauto.
    + exists a, b, c. cbn [fst snd]. split; [reflexivity|]. do 3 (split; [lia|]). do 3 (split; [assumption|]).
      do 3 (split; [assumption|]). intros k Hk N1 N2 N3. destruct (Nat.eq_dec k j) as [->|]; [lra|].
      specialize (O k ltac:(lia) N1 N2 N3). lra.
  - exists a, b, c. cbn [fst snd]. split; [reflexivity|]. do 3 (split; [lia|]). do 3 (split; [assumption|]).
    do 3 (split; [assumption|]). intros k Hk N1 N2 N3. destruct (Nat.eq_dec k j) as [->|]; [exact Hq|]. apply O; [lia|assumption..].
Qed.
Lemma dbb_fold_built p v n : forall j s, dbuilt p v j s -> dbuilt p v (j + n) (fold_left (dbb_step g p v) (seq j n) s).
Proof.
  induction n as [|n IH]; intros j s H; [rewrite Nat.add_0_r; exact H|]. cbn [seq fold_left].
  replace (j + S n) with (S j + n) by lia. apply IH, dbb_step_built, H.
Qed.
Lemma dbest_build_built p v : few_arcs g v = false -> dbuilt p v (len v) (dbest_build g p v).
Proof.
  intros F. unfold few_arcs in F. apply Nat.ltb_ge in F. unfold dbest_build.
  replace (len v) with (4 + (len v - 4)) at 1 by lia. apply dbb_fold_built.
  destruct (dfirst_three p v) as (a & b & c & E & Ha & Hb & Hc & D1 & D2 & D3 & S1 & S2). rewrite E.
  unfold dbb_last; cbn [nth]. rcase (rcg p v 3) (rcg p v c).
  - eapply (dinsert3_built p v 3 a b c (rcg p v c)); eauto; [lra|]. intros i Hi N1 N2 N3. exfalso. lia.
  - exists a, b, c. cbn [fst snd]. split; [reflexivity|]. do 3 (split; [lia|]). do 3 (split; [assumption|]).
    do 3 (split; [assumption|]). intros k Hk N1 N2 N3. assert (k = 3) as -> by lia. lra.
Qed.
Lemma dbuilt_best_ok p v bst : dbuilt p v (len v) bst -> dbest_ok p v bst.
Proof.
  intros (a & b & c & E & Ha & Hb & Hc & D1 & D2 & D3 & S1 & S2 & S3 & O). right. exists a, b, c.
  repeat (split; [assumption|]). exact O.
Qed.
Lemma dbest_ok_lower p p' v bst : (forall w, (p' w <= p w)%R) -> dbest_ok p v bst -> dbest_ok p' v bst.
Proof.
  intros L [F|(a & b & c & E & Ha & Hb & Hc & D1 & D2 & D3 & O)]; [left; exact F|]. right. exists a, b, c.
  repeat (split; [assumption|]). intros k Hk N1 N2 N3. specialize (O k Hk N1 N2 N3). 
  apply Rle_trans with (1 := O). unfold drc, fsub. apply rnd_le. specialize (L (a_head (arc_at g v k))). lra.
Qed.

Definition dchosen (p : nat -> R) (v : nat) (pref second : R) (adm : nat) : Prop :=
  adm < len v /\ pref = rcg p v adm /\ (pref <= second)%R /\
  forall k, k < len v -> k <> adm -> (second <= rcg p v k)%R.
Lemma dpart1_ok n eps p v bst : (0 < eps)%R -> (0 <= n)%R -> 0 < len v -> dbest_ok p v bst ->
  exists pref second adm bst', dpart1 g n eps p v bst = Ok (pref, second, adm, bst') /\
    dchosen p v pref second adm /\ dbest_ok p v bst' /\
    (len v = 1 -> second = fadd pref (fmul eps (fadd (dpo_cost_thresh n) 1))).
Proof.
  intros He Hn Hl B. unfold dpart1. destruct (few_arcs g v) eqn:F.
  - destruct (len v) as [|m] eqn:L; [lia|].
    set (s := fold_left _ _ _).
    assert (S : dscan_ok p v (seq 1 m ++ [0]) s).
    { apply dscan_fold_ok. split; [left; reflexivity|]. split; [reflexivity|]. split.
      - unfold fadd at 1. apply rnd_ge_fmt; [apply rnd_fmt|]. assert (0 <= fmul eps (fadd (dpo_cost_thresh n) 1))%R; [|lra].
        apply rnd_nonneg, Rmult_le_pos; [lra|]. apply rnd_nonneg. assert (0 <= dpo_cost_thresh n)%R; [|lra].
        apply rnd_nonneg, Rmult_le_pos; apply rnd_nonneg; lra.
      - intros k [<-|[]] H. contradiction. }
    assert (One : Datatypes.S m = 1 -> s = (rcg p v 0, fadd (rcg p v 0) (fmul eps (fadd (dpo_cost_thresh n) 1)), 0)) by (intros E1; injection E1 as ->; reflexivity). clearbody s.
    destruct s as [[pref second] adm]. exists pref, second, adm, bst. split; [reflexivity|]. split; [|split; [exact B|intros E1; specialize (One E1); congruence]].
    destruct S as (S1 & S2 & S3 & S4). split; [|split; [exact S2|split; [exact S3|]]].
    + apply in_app_iff in S1. rewrite in_seq in S1. simpl in S1. lia.
    + intros k Hk. apply S4. apply in_app_iff. rewrite in_seq. simpl. lia.
  - destruct B as [B|(a & b & c & E & Ha & Hb & Hc & D1 & D2 & D3 & O)]; [congruence|]. rewrite E. cbn [fold_left].
    assert (Big : len v <> 1) by (unfold few_arcs in F; apply Nat.ltb_ge in F; lia).
    set (s0 := if Rltb (rcg p v b) (rcg p v a) then _ else _).
    assert (S : dscan_ok p v [c; a; b] (dscan_step g p v s0 c)).
    { apply dscan_step_ok. unfold s0. rcase (rcg p v b) (rcg p v a).
      - split; [right; left; reflexivity|]. split; [reflexivity|]. split; [lra|].
        intros k [<-|[<-|[]]] H; [lra|contradiction].
      - split; [left; reflexivity|]. split; [reflexivity|]. split; [lra|].
        intros k [<-|[<-|[]]] H; [contradiction|lra]. }
    destruct (dscan_step g p v s0 c) as [[pref second] adm] eqn:Es.
    destruct S as (S1 & S2 & S3 & S4). rcase (snd bst) second.
    + pose proof (dbest_build_built p v F) as T. pose proof (dbuilt_best_ok _ _ _ T) as T'.
      destruct T as (a' & b' & c' & E' & Ha' & Hb' & Hc' & D1' & D2' & D3' & Q1 & Q2 & Q3 & O').
      destruct (dbest_build g p v) as [l nb]. cbn [fst snd] in *. subst l.
      exists (rcg p v a'), (rcg p v b'), a', ([a'; b'; c'], nb). split; [reflexivity|]. split; [|split; [exact T'|contradiction]].
      split; [exact Ha'|]. split; [reflexivity|]. split; [exact Q1|]. intros k Hk Hne.
      destruct (Nat.eq_dec k b') as [->|Nb]; [lra|]. destruct (Nat.eq_dec k c') as [->|Nc]; [exact Q2|].
      specialize (O' k Hk Hne Nb Nc). lra.
    + exists pref, second, adm, bst. split; [reflexivity|]. split; [|split; [right; exists a, b, c; repeat (split; [assumption|]); exact O|contradiction]].
      split; [destruct S1 as [<-|[<-|[<-|[]]]]; assumption|]. split; [exact S2|]. split; [exact S3|].
      intros k Hk Hne. destruct (in_dec Nat.eq_dec k [c; a; b]) as [I|I]; [apply S4; assumption|].
      simpl in I. specialize (O k Hk ltac:(intuition) ltac:(intuition) ltac:(intuition)). lra.
Qed.
End Csa.
