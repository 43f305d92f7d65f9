(** Proofs about the graph handed to the solver by match.cc. *)
From Verif Require Export ProofsMatch.
From Coq Require Import Lqa.
Open Scope Z_scope.
Open Scope list_scope.

Lemma map_flat_map {A B C} (f : B -> C) (g : A -> list B) l : map f (flat_map g l) = flat_map (fun a => map f (g a)) l.
Proof. induction l as [|a l IH]; [reflexivity|]. cbn [flat_map]. rewrite map_app, IH. reflexivity. Qed.

(** What one loop iteration may produce. *)
Lemma sample_loop_ok (P : nat -> list garc -> Prop) f : forall is s,
  valid_stream s ->
  (forall i s, In i is -> valid_stream s -> exists a s', f i s = Ok (a, s') /\ valid_stream s' /\ P i a) ->
  exists la s', sample_loop is f s = Ok (concat la, s') /\ valid_stream s' /\ Forall2 P is la.
Proof.
  induction is as [|i is IH]; intros s V H.
  - exists [], s. split; [reflexivity|]. split; [exact V|constructor].
  - destruct (H i s (or_introl eq_refl) V) as (a & s1 & E1 & V1 & P1). cbn [sample_loop]. rewrite E1. cbn [bind].
    destruct (IH s1 V1 (fun j s Hj => H j s (or_intror Hj))) as (la & s2 & E2 & V2 & P2). rewrite E2. cbn [bind].
    exists (a :: la), s2. split; [reflexivity|]. split; [exact V2|]. constructor; assumption.
Qed.
Lemma Forall2_concat_in (P : nat -> list garc -> Prop) is la x : Forall2 P is la -> In x (concat la) ->
  exists i a, In i is /\ P i a /\ In x a.
Proof.
  induction 1 as [|i a is la Pa F IH]; [intros []|]. cbn [concat]. intros H. apply in_app_or in H. destruct H as [H|H].
  - exists i, a. split; [left; reflexivity|]. tauto.
  - destruct (IH H) as (j & b & A & B & C). exists j, b. split; [right; exact A|]. tauto.
Qed.
Lemma Forall2_concat_length (P : nat -> list garc -> Prop) k is la : Forall2 P is la ->
  (forall i a, P i a -> Z.of_nat (length a) = k) -> Z.of_nat (length (concat la)) = k * Z.of_nat (length is).
Proof.
  intros F H. induction F as [|i a is la Pa F IH]; [cbn; lia|]. cbn [concat length]. rewrite app_length.
  specialize (H i a Pa). lia.
Qed.
Definition key (a : garc) : nat * nat := (a_tail a, a_head a).
Lemma Forall2_concat_NoDup (P : nat -> list garc -> Prop) (owner : garc -> nat) is la : Forall2 P is la -> NoDup is ->
  (forall i a, P i a -> NoDup (map key a)) -> (forall i a x, P i a -> In x a -> owner x = i) ->
  (forall x y, key x = key y -> owner x = owner y) -> NoDup (map key (concat la)).
Proof.
  intros F D H O K. induction F as [|i a is la Pa F IH]; [constructor|]. apply NoDup_cons_iff in D. destruct D as [D1 D2].
  cbn [concat]. rewrite map_app. apply NoDup_app_intro; [exact (H i a Pa)|exact (IH D2)|].
  intros x X Y. apply in_map_iff in X, Y. destruct X as (e & <- & X), Y as (e' & E & Y).
  destruct (Forall2_concat_in P is la e' F Y) as (j & b & A & B & C). apply D1.
  rewrite <- (O i a e Pa X), (K e e' (eq_sym E)), (O j b e' B C). exact A.
Qed.
(** Complete sampling. *)
Lemma Forall2_concat_intro (P : nat -> list garc -> Prop) is la i : Forall2 P is la -> In i is ->
  exists a, P i a /\ incl a (concat la).
Proof.
  induction 1 as [|j a is la Pa F IH]; [intros []|]. intros [->|H].
  - exists a. split; [exact Pa|]. intros x X. cbn [concat]. apply in_or_app. left. exact X.
  - destruct (IH H) as (b & B & C). exists b. split; [exact B|]. intros x X. cbn [concat]. apply in_or_app. right. apply C, X.
Qed.

Lemma shift_diag_spec i j n : 0 <= j < n - 1 -> 0 <= i < n -> i <> shift_diag i j /\ 0 <= shift_diag i j < n.
Proof. intros H I. unfold shift_diag. destruct (Z.leb_spec i j); lia. Qed.
Lemma shift_diag_inj i j j' : shift_diag i j = shift_diag i j' -> j = j'.
Proof. unfold shift_diag. destruct (Z.leb_spec i j), (Z.leb_spec i j'); lia. Qed.

Lemma check_ok {A} (b : bool) (r : res A) : b = true -> check b r = r.
Proof. intros ->. reflexivity. Qed.

Lemma ow_positive (md2 oc2 : Q) : (0 <= md2)%Q -> (md2 < oc2)%Q -> 1 <= ow oc2.
Proof.
  intros Hmd Hoc. unfold ModelMatch.ow, ceil_sqrt. assert (0 < Qceiling (oc2 * inject_Z (multiplier * multiplier))).
  { rewrite Zlt_Qlt. eapply Qlt_le_trans; [|apply Qle_ceiling]. change (inject_Z (multiplier * multiplier)) with (10000#1)%Q.
    change (inject_Z 0) with 0%Q. lra. }
  assert (X := Z.sqrt_up_pos (Qceiling (oc2 * inject_Z (multiplier * multiplier)))). lia.
Qed.

Lemma in_seq0 i n : In i (seq 0 n) <-> (i < n)%nat. Proof. rewrite in_seq. lia. Qed.
Section Match.
Variable h w : nat.
Variable b1 b2 : image bool.
Variable md2 oc2 : Q.
Hypothesis W1 : wf b1.
Hypothesis W2 : wf b2.
Hypothesis Eh1 : ht b1 = h.
Hypothesis Ew1 : wd b1 = w.
Hypothesis Eh2 : ht b2 = h.
Hypothesis Ew2 : wd b2 = w.
Hypothesis Hmd : (0 <= md2)%Q.
Hypothesis Hoc : (md2 < oc2)%Q.

Notation nodes1 := (nodes1 h w b1 b2 md2).
Notation nodes2 := (nodes2 h w b1 b2 md2).
Notation n1 := (n1 h w b1 b2 md2).
Notation n2 := (n2 h w b1 b2 md2).
Notation real_edges := (real_edges h w b1 b2 md2).
Notation ow := (ow oc2).
Notation deg1 := (deg1 h w b1 b2 md2).
Notation deg2 := (deg2 h w b1 b2 md2).
Notation deg3 := (deg3 h w b1 b2 md2).
Notation nmin := (nmin h w b1 b2 md2).
Notation nmax := (nmax h w b1 b2 md2).
Notation dd := (-1, -1).
Definition near_nodes (i j : nat) : Prop :=
  (i < n1)%nat /\ (j < n2)%nat /\ near md2 (nth i nodes1 dd) (nth j nodes2 dd).
Definition d2_nodes (i j : nat) : Z := dist2 (nth i nodes1 dd) (nth j nodes2 dd).

Let H1 := in_nodes1 h w b1 b2 md2 W1 W2 Eh1 Ew1 Eh2 Ew2.
Let H2 := in_nodes2 h w b1 b2 md2 W1 W2 Eh1 Ew1 Eh2 Ew2.
Let M1 := matchable1_spec h w b1 b2 md2 W1 W2 Eh1 Ew1 Eh2 Ew2.
Let M2 := matchable2_spec h w b1 b2 md2 W1 W2 Eh1 Ew1 Eh2 Ew2.
Let D1 : NoDup nodes1 := NoDup_nodes1 h w b1 b2 md2.
Let D2 : NoDup nodes2 := NoDup_nodes2 h w b1 b2 md2.

Lemma in_real_edges i j d : In (i, j, d) real_edges <-> near_nodes i j /\ d = d2_nodes i j.
Proof.
  unfold ModelMatch.real_edges. rewrite in_flat_map. split.
  - intros (p & Hp & H). destruct (matchable1 h w b1 b2 md2 p) eqn:A; [|destruct H].
    apply in_flat_map in H. destruct H as (q & Hq & H). destruct (matchable2 h w b1 b2 md2 q) eqn:B; [|destruct H].
    destruct H as [H|[]]. injection H as <- <- <-. apply H1 in A. apply H2 in B.
    destruct (index_of_in p nodes1 dd A) as [A1 A2]. destruct (index_of_in q nodes2 dd B) as [B1 B2].
    unfold near_nodes, d2_nodes. rewrite A2, B2. split; [|reflexivity]. split; [exact A1|]. split; [exact B1|].
    apply in_around_uv in Hq. apply Hq.
  - intros [(A & B & N) ->]. set (p := nth i nodes1 dd). set (q := nth j nodes2 dd).
    assert (Ip : In p nodes1) by (apply nth_In; exact A). assert (Iq : In q nodes2) by (apply nth_In; exact B).
    assert (Mp := proj1 (H1 p) Ip). assert (Mq := proj1 (H2 q) Iq).
    exists p. split; [apply in_colmajor, (at1_in h w b1 W1 Eh1 Ew1), (proj1 (M1 p)), Mp|]. rewrite Mp.
    apply in_flat_map. exists q. split; [apply in_around_uv; split; [apply (at2_in h w b2 W2 Eh2 Ew2), (proj1 (M2 q)), Mq|exact N]|].
    rewrite Mq. left. unfold p, q. rewrite !index_of_nth; [reflexivity|exact D2|exact B|exact D1|exact A].
Qed.
Lemma real_edges_NoDup : NoDup (map fst real_edges).
Proof.
  unfold ModelMatch.real_edges. rewrite map_flat_map.
  assert (X : forall p q x, In x (map fst (if matchable2 h w b1 b2 md2 q then [(index_of p nodes1, index_of q nodes2, dist2 p q)] else [])) ->
     In q nodes2 /\ x = (index_of p nodes1, index_of q nodes2)).
  { intros p q x. destruct (matchable2 h w b1 b2 md2 q) eqn:B; [|intros []]. intros [<-|[]]. split; [apply H2; exact B|reflexivity]. }
  apply NoDup_flat_map; [apply NoDup_colmajor| |].
  - intros p _. destruct (matchable1 h w b1 b2 md2 p); [|constructor]. rewrite map_flat_map.
    apply NoDup_flat_map; [apply NoDup_around_uv| |].
    + intros q _. destruct (matchable2 h w b1 b2 md2 q); [|constructor]. constructor; [intros []|constructor].
    + intros q q' x _ _ A B. apply X in A, B. destruct A as [A ->], B as [B E]. injection E as E.
      rewrite <- (proj2 (index_of_in q nodes2 dd A)), E. apply index_of_in. exact B.
  - intros p p' x _ _ A B.
    destruct (matchable1 h w b1 b2 md2 p) eqn:Mp; [|destruct A]. destruct (matchable1 h w b1 b2 md2 p') eqn:Mp'; [|destruct B].
    rewrite map_flat_map in A, B. apply in_flat_map in A, B. destruct A as (q & _ & A), B as (q' & _ & B).
    apply X in A, B. destruct A as [_ ->], B as [_ E]. injection E as E _. apply H1 in Mp, Mp'.
    rewrite <- (proj2 (index_of_in p nodes1 dd Mp)), E. apply index_of_in. exact Mp'.
Qed.

Lemma ow_pos : 1 <= ow.
Proof. exact (ow_positive md2 oc2 Hmd Hoc). Qed.

(** The blocks of the graph. *)
Definition P1 (i : nat) (a : list garc) : Prop := (i < n1)%nat /\ exists l, k_subset deg1 0 (Z.of_nat n1 - 1) l /\
  a = map (fun j => mkArc i (n2 + Z.to_nat j) ow) (map (shift_diag (Z.of_nat i)) l).
Definition P2 (j : nat) (a : list garc) : Prop := (j < n2)%nat /\ exists l, k_subset deg2 0 (Z.of_nat n2 - 1) l /\
  a = map (fun i => mkArc (n1 + Z.to_nat i) j ow) (map (shift_diag (Z.of_nat j)) l).
Definition P3 (i : nat) (a : list garc) : Prop := (i < nmax)%nat /\ exists l, k_subset deg3 0 (Z.of_nat nmin) l /\
  a = map (fun j => if Nat.ltb n1 n2 then mkArc (n1 + i) (n2 + Z.to_nat j) ow else mkArc (n1 + Z.to_nat j) (n2 + i) ow) l.

Lemma outliers1_ok i s : (i < n1)%nat -> valid_stream s ->
  exists a s', outliers1 h w b1 b2 md2 oc2 i s = Ok (a, s') /\ valid_stream s' /\ P1 i a.
Proof.
  intros Hi V. unfold outliers1. destruct (kofn_ok deg1 (Z.of_nat n1 - 1) s V) as (l & s' & E & V' & K); [unfold ModelMatch.deg1; lia|].
  rewrite E. cbn [bind]. rewrite check_ok.
  - eexists _, s'. split; [reflexivity|]. split; [exact V'|]. split; [exact Hi|]. exists l. split; [exact K|reflexivity].
  - apply forallb_forall. intros j Hj. apply in_map_iff in Hj. destruct Hj as (k & <- & Hk).
    destruct K as (_ & _ & K). rewrite Forall_forall in K. specialize (K k Hk).
    destruct (shift_diag_spec (Z.of_nat i) k (Z.of_nat n1)) as [A B]; lia.
Qed.
Lemma outliers2_ok j s : (j < n2)%nat -> valid_stream s ->
  exists a s', outliers2 h w b1 b2 md2 oc2 j s = Ok (a, s') /\ valid_stream s' /\ P2 j a.
Proof.
  intros Hi V. unfold outliers2. destruct (kofn_ok deg2 (Z.of_nat n2 - 1) s V) as (l & s' & E & V' & K); [unfold ModelMatch.deg2; lia|].
  rewrite E. cbn [bind]. rewrite check_ok.
  - eexists _, s'. split; [reflexivity|]. split; [exact V'|]. split; [exact Hi|]. exists l. split; [exact K|reflexivity].
  - apply forallb_forall. intros i Hj. apply in_map_iff in Hj. destruct Hj as (k & <- & Hk).
    destruct K as (_ & _ & K). rewrite Forall_forall in K. specialize (K k Hk).
    destruct (shift_diag_spec (Z.of_nat j) k (Z.of_nat n2)) as [A B]; lia.
Qed.
Lemma outliers3_ok i s : (i < nmax)%nat -> valid_stream s ->
  exists a s', outliers3 h w b1 b2 md2 oc2 i s = Ok (a, s') /\ valid_stream s' /\ P3 i a.
Proof.
  intros Hi V. unfold outliers3. destruct (kofn_ok deg3 (Z.of_nat nmin) s V) as (l & s' & E & V' & K);
    [unfold ModelMatch.deg3, degree; lia|].
  rewrite E. cbn [bind]. rewrite check_ok.
  - eexists _, s'. split; [reflexivity|]. split; [exact V'|]. split; [exact Hi|]. exists l. split; [exact K|reflexivity].
  - apply forallb_forall. intros k Hk. destruct K as (_ & _ & K). rewrite Forall_forall in K. specialize (K k Hk). lia.
Qed.

(** Everything about the graph. *)
Definition real_arcs : list garc := map (fun '(i, j, d2) => mkArc i j (weight d2)) real_edges.
Definition built (g : list garc) : Prop := exists l1 l2 l3,
  g = real_arcs ++ concat l1 ++ concat l2 ++ concat l3 ++ overlay h w b1 b2 md2 oc2 /\
  Forall2 P1 (seq 0 n1) l1 /\ Forall2 P2 (seq 0 n2) l2 /\ Forall2 P3 (seq 0 nmax) l3.


Lemma P1_arc i a x : P1 i a -> In x a -> exists j, a_tail x = i /\ a_head x = (n2 + j)%nat /\ (j < n1)%nat /\ j <> i /\ (i < n1)%nat /\ a_cost x = ow.
Proof.
  intros (Hi & l & (_ & _ & K) & ->) X. apply in_map_iff in X. destruct X as (j & <- & X). apply in_map_iff in X.
  destruct X as (k & <- & Hk). rewrite Forall_forall in K. specialize (K k Hk).
  destruct (shift_diag_spec (Z.of_nat i) k (Z.of_nat n1)) as [A B]; [lia|lia|].
  exists (Z.to_nat (shift_diag (Z.of_nat i) k)). cbn [a_tail a_head a_cost].
  split; [reflexivity|]. split; [reflexivity|]. split; [lia|]. split; [lia|]. split; [exact Hi|reflexivity].
Qed.
Lemma P2_arc j a x : P2 j a -> In x a -> exists i, a_tail x = (n1 + i)%nat /\ a_head x = j /\ (i < n2)%nat /\ i <> j /\ (j < n2)%nat /\ a_cost x = ow.
Proof.
  intros (Hi & l & (_ & _ & K) & ->) X. apply in_map_iff in X. destruct X as (i & <- & X). apply in_map_iff in X.
  destruct X as (k & <- & Hk). rewrite Forall_forall in K. specialize (K k Hk).
  destruct (shift_diag_spec (Z.of_nat j) k (Z.of_nat n2)) as [A B]; [lia|lia|].
  exists (Z.to_nat (shift_diag (Z.of_nat j) k)). cbn [a_tail a_head a_cost].
  split; [reflexivity|]. split; [reflexivity|]. split; [lia|]. split; [lia|]. split; [exact Hi|reflexivity].
Qed.
Lemma P3_arc i a x : P3 i a -> In x a -> exists k j, a_tail x = (n1 + k)%nat /\ a_head x = (n2 + j)%nat /\ (k < n2)%nat /\ (j < n1)%nat /\ a_cost x = ow /\
  i = if Nat.ltb n1 n2 then k else j.
Proof.
  intros (Hi & l & (_ & _ & K) & ->) X. apply in_map_iff in X. destruct X as (k & <- & Hk).
  rewrite Forall_forall in K. specialize (K k Hk). unfold ModelMatch.nmax in Hi. unfold ModelMatch.nmin in K.
  destruct (Nat.ltb_spec n1 n2) as [L|L]; cbn [a_tail a_head a_cost].
  - exists i, (Z.to_nat k). split; [reflexivity|]. split; [reflexivity|]. split; [lia|]. split; [lia|]. split; reflexivity.
  - exists (Z.to_nat k), i. split; [reflexivity|]. split; [reflexivity|]. split; [lia|]. split; [lia|]. split; reflexivity.
Qed.
Lemma overlay_arc x : In x (overlay h w b1 b2 md2 oc2) -> a_cost x = ow * multiplier /\
  ((a_tail x < n1)%nat /\ a_head x = (n2 + a_tail x)%nat \/ (a_head x < n2)%nat /\ a_tail x = (n1 + a_head x)%nat).
Proof.
  intros X. apply in_app_or in X. destruct X as [X|X]; apply in_map_iff in X; destruct X as (i & <- & X); apply in_seq0 in X;
    cbn [a_cost a_tail a_head]; (split; [reflexivity|]); [left|right]; split; first [exact X|reflexivity].
Qed.
Lemma real_arc x : In x real_arcs -> near_nodes (a_tail x) (a_head x) /\ a_cost x = weight (d2_nodes (a_tail x) (a_head x)).
Proof.
  intros X. apply in_map_iff in X. destruct X as (((i & j) & d) & <- & X). apply in_real_edges in X. destruct X as [A ->].
  cbn [a_tail a_head a_cost]. split; [exact A|reflexivity].
Qed.
Lemma real_arc_intro i j : near_nodes i j -> In (mkArc i j (weight (d2_nodes i j))) real_arcs.
Proof.
  intros N. apply in_map_iff. exists (i, j, d2_nodes i j). split; [reflexivity|]. apply in_real_edges. split; [exact N|reflexivity].
Qed.

(** The kinds of arcs. *)
Definition arc_kind (x : garc) : Prop :=
  near_nodes (a_tail x) (a_head x) /\ a_cost x = weight (d2_nodes (a_tail x) (a_head x))
  \/ (exists i j, a_tail x = i /\ a_head x = (n2 + j)%nat /\ (i < n1)%nat /\ (j < n1)%nat /\ (i <> j /\ a_cost x = ow \/ i = j /\ a_cost x = ow * multiplier))
  \/ (exists i j, a_tail x = (n1 + i)%nat /\ a_head x = j /\ (i < n2)%nat /\ (j < n2)%nat /\ (i <> j /\ a_cost x = ow \/ i = j /\ a_cost x = ow * multiplier))
  \/ (exists i j, a_tail x = (n1 + i)%nat /\ a_head x = (n2 + j)%nat /\ (i < n2)%nat /\ (j < n1)%nat /\ a_cost x = ow).
Lemma built_kind g x : built g -> In x g -> arc_kind x.
Proof.
  intros (l1 & l2 & l3 & -> & F1 & F2 & F3) X. rewrite !in_app_iff in X. destruct X as [X|[X|[X|[X|X]]]].
  - left. apply real_arc. exact X.
  - right. left. destruct (Forall2_concat_in _ _ _ _ F1 X) as (i & a & _ & A & B).
    destruct (P1_arc i a x A B) as (j & E1 & E2 & E3 & E4 & E5 & E6). exists i, j. repeat (split; [assumption|]). left. split; [lia|exact E6].
  - right. right. left. destruct (Forall2_concat_in _ _ _ _ F2 X) as (j & a & _ & A & B).
    destruct (P2_arc j a x A B) as (i & E1 & E2 & E3 & E4 & E5 & E6). exists i, j. repeat (split; [assumption|]). left. split; [lia|exact E6].
  - right. right. right. destruct (Forall2_concat_in _ _ _ _ F3 X) as (i & a & _ & A & B).
    destruct (P3_arc i a x A B) as (k & j & E1 & E2 & E3 & E4 & E5 & _). exists k, j. repeat (split; [assumption|]). exact E5.
  - apply overlay_arc in X. destruct X as (C & [[X Y]|[X Y]]).
    + right. left. exists (a_tail x), (a_tail x). split; [reflexivity|]. split; [exact Y|]. split; [exact X|]. split; [exact X|]. right. split; [reflexivity|exact C].
    + right. right. left. exists (a_head x), (a_head x). split; [exact Y|]. split; [reflexivity|]. split; [exact X|]. split; [exact X|]. right. split; [reflexivity|exact C].
Qed.
Lemma kind_range x : arc_kind x -> (a_tail x < n1 + n2)%nat /\ (a_head x < n1 + n2)%nat /\ 0 <= a_cost x.
Proof.
  assert (O := ow_pos). unfold multiplier in *.
  intros [[(A & B & _) E]|[(i & j & A & B & C & D & E)|[(i & j & A & B & C & D & E)|(i & j & A & B & C & D & E)]]]; unfold multiplier in *.
  - rewrite E. assert (X := weight_nonneg (d2_nodes (a_tail x) (a_head x))). lia.
  - lia.
  - lia.
  - lia.
Qed.
Lemma built_valid g : built g -> valid_graph (n1 + n2) g.
Proof. intros B x X. destruct (kind_range x (built_kind g x B X)) as (A & C & _). split; assumption. Qed.

Lemma real_arcs_length : length real_arcs = length real_edges. Proof. apply map_length. Qed.
Lemma built_length g : built g -> Z.of_nat (length g) = n_arcs h w b1 b2 md2.
Proof.
  intros (l1 & l2 & l3 & -> & F1 & F2 & F3). rewrite !app_length, real_arcs_length. unfold n_arcs.
  rewrite !Nat2Z.inj_add.
  rewrite (Forall2_concat_length _ deg1 _ _ F1), (Forall2_concat_length _ deg2 _ _ F2), (Forall2_concat_length _ deg3 _ _ F3).
  - unfold overlay. rewrite app_length, !map_length, !seq_length. lia.
  - intros i a (_ & l & (K & _) & ->). rewrite map_length. exact K.
  - intros i a (_ & l & (K & _) & ->). rewrite !map_length. exact K.
  - intros i a (_ & l & (K & _) & ->). rewrite !map_length. exact K.
Qed.

Lemma built_NoDup g : built g -> NoDup (map key g).
Proof.
  intros (l1 & l2 & l3 & -> & F1 & F2 & F3). rewrite !map_app.
  assert (Kr : forall k, In k (map key real_arcs) -> (fst k < n1)%nat /\ (snd k < n2)%nat).
  { intros k X. apply in_map_iff in X. destruct X as (x & <- & X). apply real_arc in X. destruct X as [(A & B & _) _]. split; assumption. }
  assert (K1 : forall k, In k (map key (concat l1)) -> (fst k < n1)%nat /\ exists j, snd k = (n2 + j)%nat /\ j <> fst k).
  { intros k X. apply in_map_iff in X. destruct X as (x & <- & X). destruct (Forall2_concat_in _ _ _ _ F1 X) as (i & a & _ & A & B).
    destruct (P1_arc i a x A B) as (j & E1 & E2 & E3 & E4 & E5 & _). cbn [key fst snd]. rewrite E1. split; [exact E5|]. exists j. split; assumption. }
  assert (K2 : forall k, In k (map key (concat l2)) -> (snd k < n2)%nat /\ exists j, fst k = (n1 + j)%nat /\ j <> snd k).
  { intros k X. apply in_map_iff in X. destruct X as (x & <- & X). destruct (Forall2_concat_in _ _ _ _ F2 X) as (i & a & _ & A & B).
    destruct (P2_arc i a x A B) as (j & E1 & E2 & E3 & E4 & E5 & _). cbn [key fst snd]. rewrite E2. split; [exact E5|]. exists j. split; assumption. }
  assert (K3 : forall k, In k (map key (concat l3)) -> (n1 <= fst k)%nat /\ (n2 <= snd k)%nat).
  { intros k X. apply in_map_iff in X. destruct X as (x & <- & X). destruct (Forall2_concat_in _ _ _ _ F3 X) as (i & a & _ & A & B).
    destruct (P3_arc i a x A B) as (q & j & E1 & E2 & _). cbn [key fst snd]. lia. }
  assert (K4 : forall k, In k (map key (overlay h w b1 b2 md2 oc2)) -> (fst k < n1)%nat /\ snd k = (n2 + fst k)%nat \/ (snd k < n2)%nat /\ fst k = (n1 + snd k)%nat).
  { intros k X. apply in_map_iff in X. destruct X as (x & <- & X). apply overlay_arc in X. apply X. }
  assert (N0 : NoDup (map key real_arcs)).
  { unfold real_arcs. rewrite map_map. erewrite map_ext; [exact real_edges_NoDup|]. intros ((i & j) & d). reflexivity. }
  assert (N1 : NoDup (map key (concat l1))).
  { apply (Forall2_concat_NoDup P1 a_tail (seq 0 n1)); [exact F1|apply seq_NoDup| | |].
    - intros i a (Hi & l & (_ & S & K) & ->). rewrite map_map. apply NoDup_map_inj_on; [|apply NoDup_map_inj_on; [|apply SSorted_NoDup; exact S]].
      + intros x y X Y E. unfold key in E. cbn [a_tail a_head] in E. injection E as E. apply in_map_iff in X, Y.
        destruct X as (x' & <- & X), Y as (y' & <- & Y). rewrite Forall_forall in K. assert (KX := K _ X). assert (KY := K _ Y).
        destruct (shift_diag_spec (Z.of_nat i) x' (Z.of_nat n1) ltac:(lia) ltac:(lia)), (shift_diag_spec (Z.of_nat i) y' (Z.of_nat n1) ltac:(lia) ltac:(lia)). lia.
      + intros x y _ _. apply shift_diag_inj.
    - intros i a x A B. destruct (P1_arc i a x A B) as (j & E & _). exact E.
    - intros x y E. injection E. intros _ E'. exact E'. }
  assert (N2 : NoDup (map key (concat l2))).
  { apply (Forall2_concat_NoDup P2 a_head (seq 0 n2)); [exact F2|apply seq_NoDup| | |].
    - intros i a (Hi & l & (_ & S & K) & ->). rewrite map_map. apply NoDup_map_inj_on; [|apply NoDup_map_inj_on; [|apply SSorted_NoDup; exact S]].
      + intros x y X Y E. unfold key in E. cbn [a_tail a_head] in E. injection E as E. apply in_map_iff in X, Y.
        destruct X as (x' & <- & X), Y as (y' & <- & Y). rewrite Forall_forall in K. assert (KX := K _ X). assert (KY := K _ Y).
        destruct (shift_diag_spec (Z.of_nat i) x' (Z.of_nat n2) ltac:(lia) ltac:(lia)), (shift_diag_spec (Z.of_nat i) y' (Z.of_nat n2) ltac:(lia) ltac:(lia)). lia.
      + intros x y _ _. apply shift_diag_inj.
    - intros i a x A B. destruct (P2_arc i a x A B) as (j & _ & E & _). exact E.
    - intros x y E. injection E. intros E' _. exact E'. }
  assert (N3 : NoDup (map key (concat l3))).
  { apply (Forall2_concat_NoDup P3 (fun x => if Nat.ltb n1 n2 then (a_tail x - n1)%nat else (a_head x - n2)%nat) (seq 0 nmax)); [exact F3|apply seq_NoDup| | |].
    - intros i a (Hi & l & (_ & S & K) & ->). rewrite map_map. apply NoDup_map_inj_on; [|apply SSorted_NoDup; exact S].
      intros x y X Y E. unfold key in E. rewrite Forall_forall in K. assert (KX := K _ X). assert (KY := K _ Y).
      destruct (Nat.ltb n1 n2); cbn [a_tail a_head] in E; injection E as E; lia.
    - intros i a x A B. destruct (P3_arc i a x A B) as (k & j & E1 & E2 & _ & _ & _ & ->). destruct (Nat.ltb n1 n2); lia.
    - intros x y E. injection E. intros E1 E2. rewrite E1, E2. reflexivity. }
  assert (N4 : NoDup (map key (overlay h w b1 b2 md2 oc2))).
  { unfold overlay. rewrite map_app, !map_map. apply NoDup_app_intro.
    - apply FinFun.Injective_map_NoDup; [|apply seq_NoDup]. intros x y E. injection E. intros _ E'. exact E'.
    - apply FinFun.Injective_map_NoDup; [|apply seq_NoDup]. intros x y E. injection E. intros E' _. exact E'.
    - intros x X Y. apply in_map_iff in X, Y. destruct X as (i & <- & X), Y as (j & E & Y). apply in_seq0 in X, Y.
      unfold key in E. cbn [a_tail a_head] in E. injection E as E1 E2. lia. }
  apply NoDup_app_intro; [exact N0| |].
  - apply NoDup_app_intro; [exact N1| |].
    + apply NoDup_app_intro; [exact N2| |].
      * apply NoDup_app_intro; [exact N3|exact N4|]. intros k X Y. apply K3 in X. apply K4 in Y. lia.
      * intros k X Y. apply K2 in X. destruct X as (X1 & j & X2 & X3). apply in_app_or in Y.
        destruct Y as [Y|Y]; [apply K3 in Y; lia|]. apply K4 in Y. lia.
    + intros k X Y. apply K1 in X. destruct X as (X1 & j & X2 & X3). rewrite !in_app_iff in Y.
      destruct Y as [Y|[Y|Y]]; [apply K2 in Y; lia|apply K3 in Y; lia|apply K4 in Y; lia].
  - intros k X Y. apply Kr in X. rewrite !in_app_iff in Y.
    destruct Y as [Y|[Y|[Y|Y]]]; [apply K1 in Y; destruct Y as (? & ? & ? & ?); lia|apply K2 in Y; destruct Y as (? & ? & ? & ?); lia|apply K3 in Y; lia|apply K4 in Y; lia].
Qed.

Lemma build_graph_ok s : valid_stream s ->
  exists g s', build_graph h w b1 b2 md2 oc2 s = Ok (g, s') /\ valid_stream s' /\ built g.
Proof.
  intros V. unfold build_graph. rewrite check_ok.
  2: { rewrite !andb_true_iff, forallb_forall. split; [split; [split|]|].
       - unfold ModelMatch.deg1, degree. lia.
       - unfold ModelMatch.deg2, degree. lia.
       - unfold ModelMatch.deg3, ModelMatch.nmin, degree. lia.
       - intros ((i & j) & d) X. apply in_real_edges in X. destruct X as [(A & B & N) ->]. unfold near in N.
         rewrite !andb_true_iff. split; [split; apply Nat.ltb_lt; assumption|]. apply Qltb_true. unfold d2_nodes. lra. }
  destruct (sample_loop_ok P1 (outliers1 h w b1 b2 md2 oc2) (seq 0 n1) s V) as (l1 & s1 & E1 & V1 & F1).
  { intros i t Hi Vt. apply outliers1_ok; [apply in_seq0; exact Hi|exact Vt]. }
  rewrite E1. cbn [bind].
  destruct (sample_loop_ok P2 (outliers2 h w b1 b2 md2 oc2) (seq 0 n2) s1 V1) as (l2 & s2 & E2 & V2 & F2).
  { intros i t Hi Vt. apply outliers2_ok; [apply in_seq0; exact Hi|exact Vt]. }
  rewrite E2. cbn [bind].
  destruct (sample_loop_ok P3 (outliers3 h w b1 b2 md2 oc2) (seq 0 nmax) s2 V2) as (l3 & s3 & E3 & V3 & F3).
  { intros i t Hi Vt. apply outliers3_ok; [apply in_seq0; exact Hi|exact Vt]. }
  rewrite E3. cbn [bind].
  assert (B : built (real_arcs ++ concat l1 ++ concat l2 ++ concat l3 ++ overlay h w b1 b2 md2 oc2)).
  { exists l1, l2, l3. split; [reflexivity|]. split; [exact F1|]. split; assumption. }
  fold real_arcs. rewrite check_ok.
  - eexists _, s3. split; [reflexivity|]. split; [exact V3|exact B].
  - rewrite andb_true_iff. split; [apply Z.eqb_eq, built_length, B|]. apply forallb_forall. intros x X.
    destruct (built_valid _ B x X). apply andb_true_iff. split; apply Nat.ltb_lt; assumption.
Qed.

Definition overlay_matching : list (nat * Z) :=
  map (fun i => ((n2 + i)%nat, ow * multiplier)) (seq 0 n1) ++ map (fun i => (i, ow * multiplier)) (seq 0 n2).
Lemma overlay_perfect g : built g -> perfect_matching (n1 + n2) g overlay_matching.
Proof.
  intros (l1 & l2 & l3 & -> & _). unfold overlay_matching. split; [rewrite app_length, !map_length, !seq_length; reflexivity|]. split.
  - rewrite map_app, !map_map. cbn [fst]. apply NoDup_app_intro.
    + apply FinFun.Injective_map_NoDup; [|apply seq_NoDup]. intros x y E. lia.
    + rewrite map_id. apply seq_NoDup.
    + intros x X Y. apply in_map_iff in X, Y. destruct X as (i & <- & X), Y as (j & E & Y). apply in_seq0 in Y. lia.
  - intros v x c E. rewrite !in_app_iff. destruct (Nat.lt_ge_cases v n1) as [L|L].
    + rewrite nth_error_app1 in E by (rewrite map_length, seq_length; exact L). rewrite nth_error_map_seq in E by exact L.
      injection E as <- <-. split; [lia|]. do 4 right. unfold overlay. apply in_or_app. left. apply in_map_iff. exists v.
      split; [reflexivity|apply in_seq0; exact L].
    + rewrite nth_error_app2 in E by (rewrite map_length, seq_length; exact L). rewrite map_length, seq_length in E.
      assert (L2 : (v - n1 < n2)%nat).
      { assert (X : nth_error (map (fun i => (i, ow * multiplier)) (seq 0 n2)) (v - n1) <> None) by (rewrite E; discriminate).
        apply nth_error_Some in X. rewrite map_length, seq_length in X. exact X. }
      rewrite nth_error_map_seq in E by exact L2. injection E as <- <-. split; [lia|]. do 4 right. unfold overlay. apply in_or_app. right.
      apply in_map_iff. exists (v - n1)%nat. split; [f_equal; lia|apply in_seq0; exact L2].
Qed.
Lemma built_max_cost g : built g -> (0 < n1 + n2)%nat -> 1 <= max_cost g.
Proof.
  intros B L. assert (O := ow_pos).
  assert (exists x, In x g /\ a_cost x = ow * multiplier) as (x & X & E).
  { destruct (overlay_perfect g B) as (A & _ & C). specialize (C 0%nat). 
    destruct (nth_error overlay_matching 0) as [[x c]|] eqn:E; [|apply nth_error_None in E; lia].
    destruct (C x c eq_refl) as [_ I]. eexists. split; [exact I|]. cbn [a_cost].
    apply nth_error_In in E. unfold overlay_matching in E. apply in_app_or in E. destruct E as [E|E]; apply in_map_iff in E; destruct E as (k & E & _); congruence. }
  assert (Y := max_cost_bound g x X). rewrite E in Y. unfold multiplier in Y. lia.
Qed.
Lemma n_arcs_zero : n_arcs h w b1 b2 md2 = 0 <-> (n1 + n2 = 0)%nat.
Proof.
  split; intros H.
  - unfold n_arcs in H. unfold ModelMatch.deg1, ModelMatch.deg2, ModelMatch.deg3, degree in H. nia.
  - assert (E : real_edges = []).
    { destruct real_edges as [|((i & j) & d) r] eqn:E; [reflexivity|]. assert (X : In (i, j, d) real_edges) by (rewrite E; left; reflexivity).
      apply in_real_edges in X. destruct X as [(A & _) _]. lia. }
    unfold n_arcs. rewrite E. unfold ModelMatch.deg1, ModelMatch.deg2, ModelMatch.deg3, ModelMatch.nmin, ModelMatch.nmax. cbn [length].
    replace n1 with 0%nat by lia. replace n2 with 0%nat by lia. reflexivity.
Qed.
End Match.
