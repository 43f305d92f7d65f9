(** The graph built by the code is the assignment graph of the specification. *)
From Verif Require Import ProofsMatch5 SpecGraph.
From Coq Require Import Lia ZifyBool ZifyNat Lqa.
Open Scope Z_scope.
Open Scope list_scope.

Lemma nearest_weight d c : 0 <= d -> (nearest_hundredths d c <-> c = weight d).
Proof.
  intros Hd. assert (U : nearest_hundredths d (weight d)).
  { unfold nearest_hundredths, weight, rint_sqrt, multiplier. set (n := d * (100 * 100)).
    assert (S := Z.sqrt_spec n ltac:(lia)). assert (P := Z.sqrt_nonneg n). set (s := Z.sqrt n) in *. cbv zeta.
    destruct (Z.ltb_spec (s * (s + 1)) n).
    - split; [lia|]. split; [unfold n in *; nia|]. right. unfold n in *. nia.
    - split; [lia|]. split; [unfold n in *; nia|]. destruct (Z.eq_dec s 0); [left; assumption|right]. unfold n in *. nia. }
  split; [|intros ->; exact U]. destruct U as (U1 & U2 & U3). intros (V1 & V2 & V3). set (e := weight d) in *. nia.
Qed.
Lemma ceiling_ow q : (0 <= q)%Q -> ceiling_hundredths q (ow q).
Proof.
  intros Hq. unfold ceiling_hundredths, ow, ceil_sqrt, multiplier.
  change (inject_Z (100 * 100)) with 10000%Q. set (z := Qceiling (q * 10000)).
  assert (Hz : 0 <= z). { apply Qle_ceiling_Z. change (inject_Z 0) with 0%Q. lra. }
  assert (N := Z.sqrt_up_nonneg z). split; [exact N|]. split.
  - assert (L := Qle_ceiling (q * 10000)). fold z in L.
    assert (X : z <= Z.sqrt_up z * Z.sqrt_up z). { destruct (Z.eq_dec z 0) as [->|Z0]; [cbn; lia|]. assert (S := Z.sqrt_up_spec z ltac:(lia)). lia. }
    rewrite Zle_Qle in X. lra.
  - intros d Hd Ld. apply Z.sqrt_up_le_square; [lia|exact Hd|]. unfold z. 
    apply Z.lt_succ_r. apply Z.nle_gt. intros X. 
    assert (Y := Qceiling_lt (q * 10000)). rewrite Zlt_Qlt in Y || idtac.
    assert (G : (q * 10000 <= inject_Z (d * d))%Q) by lra.
    apply Qceiling_resp_le in G. rewrite Qceiling_Z in G. lia.
Qed.

(** The blocks of a sampled part, as a function of the node. *)
Lemma blocks (P : nat -> list garc -> Prop) is la : Forall2 P is la -> NoDup is ->
  exists f, (forall k, In k is -> P k (f k)) /\ forall x, In x (concat la) <-> exists k, In k is /\ In x (f k).
Proof.
  induction 1 as [|i a is la Hp F IH]; intros N.
  - exists (fun _ => []). split; [intros k []|]. intros x. split; [intros []|intros (k & [] & _)].
  - inversion N as [|? ? Ni N']; subst. destruct (IH N') as (f & F1 & F2).
    exists (fun k => if Nat.eqb k i then a else f k). split.
    + intros k [<-|X]; [rewrite Nat.eqb_refl; exact Hp|]. destruct (Nat.eqb_spec k i) as [->|]; [contradiction|]. apply F1. exact X.
    + intros x. cbn [concat]. rewrite in_app_iff, F2. split.
      * intros [X|(k & K & X)]; [exists i; split; [left; reflexivity|rewrite Nat.eqb_refl; exact X]|].
        exists k. split; [right; exact K|]. destruct (Nat.eqb_spec k i) as [->|]; [contradiction|exact X].
      * intros (k & [<-|K] & X); [rewrite Nat.eqb_refl in X; left; exact X|]. right. exists k. split; [exact K|].
        destruct (Nat.eqb_spec k i) as [->|]; [contradiction|exact X].
Qed.
Lemma subset_choice k n l : k_subset (Z.of_nat k) 0 (Z.of_nat n) l -> choice k n None (map Z.to_nat l).
Proof.
  intros (L & S & F). rewrite Forall_forall in F. split; [rewrite map_length; lia|]. split.
  - apply NoDup_map_inj_on; [|apply SSorted_NoDup; exact S]. intros x y X Y E. apply F in X, Y. lia.
  - intros j X. apply in_map_iff in X. destruct X as (v & <- & X). apply F in X. split; [lia|discriminate].
Qed.
Lemma shifted_choice k n i l : (i < n)%nat -> k_subset (Z.of_nat k) 0 (Z.of_nat n - 1) l ->
  choice k n (Some i) (map Z.to_nat (map (shift_diag (Z.of_nat i)) l)).
Proof.
  intros Hi (L & S & F). rewrite Forall_forall in F.
  assert (R : forall v, In v l -> Z.of_nat i <> shift_diag (Z.of_nat i) v /\ 0 <= shift_diag (Z.of_nat i) v < Z.of_nat n).
  { intros v X. apply F in X. apply shift_diag_spec; lia. }
  split; [rewrite !map_length; lia|]. split.
  - rewrite map_map. apply NoDup_map_inj_on; [|apply SSorted_NoDup; exact S]. intros x y X Y E.
    apply R in X, Y. apply (shift_diag_inj (Z.of_nat i)). lia.
  - intros j X. rewrite map_map in X. apply in_map_iff in X. destruct X as (v & <- & X). apply R in X. split; [lia|]. intros E. injection E as E. lia.
Qed.

Section G.
Variable h w : nat.
Variable b1 b2 : image bool.
Variable md2 oc2 : Q.
Hypothesis W1 : wf b1.
Hypothesis W2 : wf b2.
Hypothesis Eh1 : ht b1 = h.
Hypothesis Ew1 : wd b1 = w.
Hypothesis Eh2 : ht b2 = h.
Hypothesis Ew2 : wd b2 = w.
Hypothesis Hmd : (0 <= md2)%Q.
Hypothesis Hoc : (md2 < oc2)%Q.
Notation nodes1 := (nodes1 h w b1 b2 md2).
Notation nodes2 := (nodes2 h w b1 b2 md2).
Notation n1 := (n1 h w b1 b2 md2).
Notation n2 := (n2 h w b1 b2 md2).
Notation dd := (-1, -1).

Lemma built_assignment g : built h w b1 b2 md2 oc2 g -> assignment_graph nodes1 nodes2 md2 (ow oc2) g.
Proof.
  intros B. assert (O := ow_pos md2 oc2 Hmd Hoc). assert (B' := B).
  destruct B' as (l1 & l2 & l3 & G & F1 & F2 & F3).
  destruct (blocks _ _ _ F1 (seq_NoDup _ _)) as (f1 & Q1 & I1).
  destruct (blocks _ _ _ F2 (seq_NoDup _ _)) as (f2 & Q2 & I2).
  destruct (blocks _ _ _ F3 (seq_NoDup _ _)) as (f3 & Q3 & I3).
  assert (I : forall x, In x g <-> In x (real_arcs h w b1 b2 md2) \/ (exists k, (k < n1)%nat /\ In x (f1 k)) \/ (exists k, (k < n2)%nat /\ In x (f2 k)) \/
     (exists k, (k < nmax h w b1 b2 md2)%nat /\ In x (f3 k)) \/ In x (overlay h w b1 b2 md2 oc2)).
  { intros x. rewrite G, !in_app_iff, I1, I2, I3. setoid_rewrite in_seq0. reflexivity. }
  assert (T1 : forall k, (k < n1)%nat -> P1 h w b1 b2 md2 oc2 k (f1 k)) by (intros k K; apply Q1, in_seq0; exact K).
  assert (T2 : forall k, (k < n2)%nat -> P2 h w b1 b2 md2 oc2 k (f2 k)) by (intros k K; apply Q2, in_seq0; exact K).
  assert (T3 : forall k, (k < nmax h w b1 b2 md2)%nat -> P3 h w b1 b2 md2 oc2 k (f3 k)) by (intros k K; apply Q3, in_seq0; exact K).
  clear F1 F2 F3 Q1 Q2 Q3 I1 I2 I3 G.
  assert (Rr : forall x, In x (real_arcs h w b1 b2 md2) -> (a_tail x < n1)%nat /\ (a_head x < n2)%nat).
  { intros x X. eapply real_arc in X; try eassumption. destruct X as [(X1 & X2 & _) _]. split; assumption. }
  assert (R1 : forall k x, (k < n1)%nat -> In x (f1 k) -> a_tail x = k /\ (n2 <= a_head x)%nat).
  { intros k x K X. destruct (P1_arc h w b1 b2 md2 oc2 Eh1 Ew1 Eh2 Ew2 k (f1 k) x (T1 k K) X) as (j & E1 & E2 & _). split; [exact E1|lia]. }
  assert (R2 : forall k x, (k < n2)%nat -> In x (f2 k) -> a_head x = k /\ (n1 <= a_tail x)%nat).
  { intros k x K X. destruct (P2_arc h w b1 b2 md2 oc2 Eh1 Ew1 Eh2 Ew2 k (f2 k) x (T2 k K) X) as (j & E1 & E2 & _). split; [exact E2|lia]. }
  assert (R3 : forall k x, (k < nmax h w b1 b2 md2)%nat -> In x (f3 k) -> (n1 <= a_tail x)%nat /\ (n2 <= a_head x)%nat).
  { intros k x K X. destruct (P3_arc h w b1 b2 md2 oc2 Eh1 Ew1 Eh2 Ew2 k (f3 k) x (T3 k K) X) as (i & j & E1 & E2 & _). lia. }
  assert (Ro : forall x, In x (overlay h w b1 b2 md2 oc2) <-> a_cost x = ow oc2 * 100 /\
     ((a_tail x < n1)%nat /\ a_head x = (n2 + a_tail x)%nat \/ (a_head x < n2)%nat /\ a_tail x = (n1 + a_head x)%nat)).
  { intros x. split; [apply overlay_arc|]. destruct x as [t e c]. cbn [a_tail a_head a_cost]. intros (-> & [[A ->]|[A ->]]); unfold overlay; apply in_or_app.
    - left. apply in_map_iff. exists t. split; [reflexivity|apply in_seq0; exact A].
    - right. apply in_map_iff. exists e. split; [reflexivity|apply in_seq0; exact A]. }
  assert (D1 : forall n, Z.max 0 (Z.min degree (Z.of_nat n - 1)) = Z.of_nat (Nat.min 6 (n - 1))) by (intros n; unfold degree; lia).
  assert (N12 : n1 = length nodes1 /\ n2 = length nodes2) by (split; reflexivity). destruct N12 as [N1 N2].
  constructor; change (@length (Z * Z) nodes1) with n1; change (@length (Z * Z) nodes2) with n2.
  - intros i j x y x' y' c A C. assert (Li : (i < n1)%nat) by (apply nth_error_Some; intros Q; discriminate (eq_trans (eq_sym A) Q)). assert (Lj : (j < n2)%nat) by (apply nth_error_Some; intros Q; discriminate (eq_trans (eq_sym C) Q)).
    assert (Ai : nth i nodes1 dd = (x, y)) by (apply nth_error_nth; exact A). assert (Cj : nth j nodes2 dd = (x', y')) by (apply nth_error_nth; exact C).
    assert (Ds : d2_nodes h w b1 b2 md2 i j = sqdist y x y' x') by (unfold d2_nodes; rewrite Ai, Cj; reflexivity).
    rewrite nearest_weight by (unfold sqdist; assert (S1 := Z.square_nonneg (x - x')); assert (S2 := Z.square_nonneg (y - y')); lia). rewrite I. split.
    + intros [X|[(k & K & X)|[(k & K & X)|[(k & K & X)|X]]]].
      * eapply real_arc in X; try eassumption. destruct X as [(X1 & X2 & X3) X4]. cbn [a_tail a_head a_cost] in *. rewrite Ds in X4. rewrite Ai, Cj in X3. split; [exact X3|exact X4].
      * apply R1 in X; [|exact K]. cbn [a_tail a_head a_cost] in X. lia.
      * apply R2 in X; [|exact K]. cbn [a_tail a_head a_cost] in X. lia.
      * apply R3 in X; [|exact K]. cbn [a_tail a_head a_cost] in X. lia.
      * apply Ro in X. cbn [a_tail a_head a_cost] in X. lia.
    + intros [X ->]. left. rewrite <- Ds. apply real_arc_intro; try assumption. split; [exact Li|]. split; [exact Lj|]. rewrite Ai, Cj. exact X.
  - intros i Hi. destruct (T1 i Hi) as (_ & l & K & E). unfold deg1 in K. rewrite D1 in K.
    exists (map Z.to_nat (map (shift_diag (Z.of_nat i)) l)). split; [apply shifted_choice; assumption|]. intros j c Hj. rewrite I. split.
    + intros [X|[(k & Kk & X)|[(k & Kk & X)|[(k & Kk & X)|X]]]].
      * apply Rr in X. cbn [a_tail a_head a_cost] in X. lia.
      * assert (Y := R1 _ _ Kk X). cbn [a_tail] in Y. destruct Y as [<- _]. rewrite E in X. apply in_map_iff in X. destruct X as (v & Ev & X).
        injection Ev as Ev1 Ev2. left. split; [|congruence]. replace j with (Z.to_nat v) by lia. apply in_map. exact X.
      * apply R2 in X; [|exact Kk]. cbn [a_tail a_head a_cost] in X. lia.
      * apply R3 in X; [|exact Kk]. cbn [a_tail a_head a_cost] in X. lia.
      * apply Ro in X. cbn [a_tail a_head a_cost] in X. right. lia.
    + intros [[X ->]|[-> ->]].
      * right. left. exists i. split; [exact Hi|]. rewrite E. apply in_map_iff in X. destruct X as (v & <- & X). apply in_map_iff. exists v. split; [reflexivity|exact X].
      * do 4 right. apply Ro. cbn [a_tail a_head a_cost]. split; [lia|left]. split; [exact Hi|reflexivity].
  - intros j Hj. destruct (T2 j Hj) as (_ & l & K & E). unfold deg2 in K. rewrite D1 in K.
    exists (map Z.to_nat (map (shift_diag (Z.of_nat j)) l)). split; [apply shifted_choice; assumption|]. intros i c Hi. rewrite I. split.
    + intros [X|[(k & Kk & X)|[(k & Kk & X)|[(k & Kk & X)|X]]]].
      * apply Rr in X. cbn [a_tail a_head a_cost] in X. lia.
      * apply R1 in X; [|exact Kk]. cbn [a_tail a_head a_cost] in X. lia.
      * assert (Y := R2 _ _ Kk X). cbn [a_head] in Y. destruct Y as [<- _]. rewrite E in X. apply in_map_iff in X. destruct X as (v & Ev & X).
        injection Ev as Ev1 Ev2. left. split; [|congruence]. replace i with (Z.to_nat v) by lia. apply in_map. exact X.
      * apply R3 in X; [|exact Kk]. cbn [a_tail a_head a_cost] in X. lia.
      * apply Ro in X. cbn [a_tail a_head a_cost] in X. right. lia.
    + intros [[X ->]|[-> ->]].
      * right. right. left. exists j. split; [exact Hj|]. rewrite E. apply in_map_iff in X. destruct X as (v & <- & X). apply in_map_iff. exists v. split; [reflexivity|exact X].
      * do 4 right. apply Ro. cbn [a_tail a_head a_cost]. split; [lia|right]. split; [exact Hj|reflexivity].
  - intros L i Hi. assert (Hm : (i < nmax h w b1 b2 md2)%nat) by (unfold nmax; lia). destruct (T3 i Hm) as (_ & l & K & E).
    assert (M : nmin h w b1 b2 md2 = n1) by (unfold nmin; lia). rewrite M in K.
    replace (deg3 h w b1 b2 md2) with (Z.of_nat (Nat.min 6 n1)) in K by (unfold deg3, degree; rewrite M; lia).
    replace (Nat.ltb n1 n2) with true in E by lia.
    exists (map Z.to_nat l). split; [apply subset_choice; exact K|]. intros j c Hj. rewrite I. split.
    + intros [X|[(k & Kk & X)|[(k & Kk & X)|[(k & Kk & X)|X]]]].
      * apply Rr in X. cbn [a_tail a_head a_cost] in X. lia.
      * apply R1 in X; [|exact Kk]. cbn [a_tail a_head a_cost] in X. lia.
      * apply R2 in X; [|exact Kk]. cbn [a_tail a_head a_cost] in X. lia.
      * destruct (P3_arc h w b1 b2 md2 oc2 Eh1 Ew1 Eh2 Ew2 k (f3 k) _ (T3 k Kk) X) as (i' & j' & E1 & _ & _ & _ & _ & E3). replace (Nat.ltb n1 n2) with true in E3 by lia.
        cbn [a_tail] in E1. assert (H : k = i) by lia. rewrite H, E in X. apply in_map_iff in X. destruct X as (v & Ev & X).
        injection Ev as Ev1 Ev2. split; [|congruence]. replace j with (Z.to_nat v) by lia. apply in_map. exact X.
      * apply Ro in X. cbn [a_tail a_head a_cost] in X. lia.
    + intros [X ->]. do 3 right. left. exists i. split; [exact Hm|]. rewrite E. apply in_map_iff in X. destruct X as (v & <- & X).
      apply in_map_iff. exists v. split; [reflexivity|exact X].
  - intros L j Hj. assert (Hm : (j < nmax h w b1 b2 md2)%nat) by (unfold nmax; lia). destruct (T3 j Hm) as (_ & l & K & E).
    assert (M : nmin h w b1 b2 md2 = n2) by (unfold nmin; lia). rewrite M in K.
    replace (deg3 h w b1 b2 md2) with (Z.of_nat (Nat.min 6 n2)) in K by (unfold deg3, degree; rewrite M; lia).
    replace (Nat.ltb n1 n2) with false in E by lia.
    exists (map Z.to_nat l). split; [apply subset_choice; exact K|]. intros i c Hi. rewrite I. split.
    + intros [X|[(k & Kk & X)|[(k & Kk & X)|[(k & Kk & X)|X]]]].
      * apply Rr in X. cbn [a_tail a_head a_cost] in X. lia.
      * apply R1 in X; [|exact Kk]. cbn [a_tail a_head a_cost] in X. lia.
      * apply R2 in X; [|exact Kk]. cbn [a_tail a_head a_cost] in X. lia.
      * destruct (P3_arc h w b1 b2 md2 oc2 Eh1 Ew1 Eh2 Ew2 k (f3 k) _ (T3 k Kk) X) as (i' & j' & _ & E1 & _ & _ & _ & E3). replace (Nat.ltb n1 n2) with false in E3 by lia.
        cbn [a_head] in E1. assert (H : k = j) by lia. rewrite H, E in X. apply in_map_iff in X. destruct X as (v & Ev & X).
        injection Ev as Ev1 Ev2. split; [|congruence]. replace i with (Z.to_nat v) by lia. apply in_map. exact X.
      * apply Ro in X. cbn [a_tail a_head a_cost] in X. lia.
    + intros [X ->]. do 3 right. left. exists j. split; [exact Hm|]. rewrite E. apply in_map_iff in X. destruct X as (v & <- & X).
      apply in_map_iff. exists v. split; [reflexivity|exact X].
  - intros a X. assert (Ka : arc_kind h w b1 b2 md2 oc2 a) by (eapply (built_kind h w b1 b2 md2 oc2); try exact B; assumption).
    eapply (kind_range h w b1 b2 md2 oc2) in Ka; try assumption. split; apply Ka.
  - eapply (built_NoDup h w b1 b2 md2 oc2); try exact B; assumption.
Qed.
End G.
