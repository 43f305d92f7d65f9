(** Small maps are matched as fully as possible: an augmenting path would lower the cost. *)
From Verif Require Import ModelMatch ProofsMatch5 SpecGraph ProofsMatch6.
From Coq Require Import Lia ZifyBool ZifyNat Lqa.
Open Scope Z_scope.
Open Scope list_scope.

(** ** Partial matchings as lists of pairs *)
Definition injection_list (M : list (nat * nat)) : Prop := NoDup (map fst M) /\ NoDup (map snd M).
Lemma inj_right M i i' j : injection_list M -> In (i, j) M -> In (i', j) M -> i = i'.
Proof.
  intros [_ N]. induction M as [|[a b] M IH]; intros X Y; [destruct X|]. cbn [map snd] in N. inversion N as [|? ? Na N']; subst.
  destruct X as [X|X], Y as [Y|Y].
  - congruence.
  - injection X as <- <-. exfalso. apply Na. change b with (snd (i', b)). apply in_map. exact Y.
  - injection Y as <- <-. exfalso. apply Na. change b with (snd (i, b)). apply in_map. exact X.
  - exact (IH N' X Y).
Qed.
Lemma inj_remove M1 p M2 : injection_list (M1 ++ p :: M2) -> injection_list (M1 ++ M2).
Proof. intros [A B]. rewrite map_app in A, B. cbn [map] in A, B. apply NoDup_remove_1 in A, B. split; rewrite map_app; assumption. Qed.
Lemma not_ran_dec (M : list (nat * nat)) j : (exists i, In (i, j) M) \/ (forall i, ~ In (i, j) M).
Proof.
  destruct (in_dec Nat.eq_dec j (map snd M)) as [X|X].
  - left. apply in_map_iff in X. destruct X as ([a b] & E & X). cbn in E. subst b. exists a. exact X.
  - right. intros i Y. apply X. change j with (snd (i, j)). apply in_map. exact Y.
Qed.
(** An augmenting path, as the set of its left nodes. *)
Lemma augmenting : forall n M M', length M' = n -> injection_list M -> injection_list M' -> (length M < length M')%nat ->
  exists i0 P j0, In i0 P /\ NoDup P /\ (forall j, ~ In (i0, j) M) /\ (forall i, ~ In (i, j0) M) /\ (exists i, In (i, j0) M') /\
    forall i, In i P -> exists j, In (i, j) M' /\ (j = j0 \/ exists i', In i' P /\ In (i', j) M).
Proof.
  induction n as [|n IH]; intros M M' Ln IM IM' L; [lia|].
  assert (exists i0 j, In (i0, j) M' /\ forall j', ~ In (i0, j') M) as (i0 & j & I0 & N0).
  { destruct (list_eq_dec Nat.eq_dec (filter (fun i => negb (if in_dec Nat.eq_dec i (map fst M) then true else false)) (map fst M')) []) as [E|E].
    - exfalso. assert (Inc : incl (map fst M') (map fst M)).
      { intros i X. destruct (in_dec Nat.eq_dec i (map fst M)) as [Y|Y]; [exact Y|exfalso].
        assert (Z : In i []); [|exact Z]. rewrite <- E. apply filter_In. split; [exact X|]. destruct (in_dec Nat.eq_dec i (map fst M)); [contradiction|reflexivity]. }
      apply NoDup_incl_length in Inc; [|apply IM']. rewrite !map_length in Inc. lia.
    - destruct (filter _ _) as [|i l] eqn:F; [congruence|]. assert (X : In i (i :: l)) by (left; reflexivity). rewrite <- F in X. apply filter_In in X.
      destruct X as [X Y]. apply in_map_iff in X. destruct X as ([a b] & Ea & X). cbn in Ea. subst a. exists i, b. split; [exact X|].
      intros j' Z. destruct (in_dec Nat.eq_dec i (map fst M)) as [W|W]; [discriminate|]. apply W. change i with (fst (i, j')). apply in_map. exact Z. }
  destruct (not_ran_dec M j) as [(i1 & I1)|Nj].
  2: { exists i0, [i0], j. split; [left; reflexivity|]. split; [constructor; [intros []|constructor]|]. split; [exact N0|]. split; [exact Nj|].
       split; [exists i0; exact I0|]. intros i [<-|[]]. exists j. split; [exact I0|left; reflexivity]. }
  destruct (in_split _ _ I1) as (A & B & EM). destruct (in_split _ _ I0) as (A' & B' & EM').
  assert (SM : forall p, In p M <-> p = (i1, j) \/ In p (A ++ B)). { intros p. rewrite EM, !in_app_iff. cbn. intuition congruence. }
  assert (S' : forall p, In p M' <-> p = (i0, j) \/ In p (A' ++ B')). { intros p. rewrite EM', !in_app_iff. cbn. intuition congruence. }
  assert (IA : injection_list (A ++ B)) by (apply (inj_remove A (i1, j) B); rewrite <- EM; exact IM).
  assert (IA' : injection_list (A' ++ B')) by (apply (inj_remove A' (i0, j) B'); rewrite <- EM'; exact IM').
  assert (U' : forall p, In p (A' ++ B') -> fst p <> i0 /\ snd p <> j).
  { intros p X. destruct IM' as [X1 X2]. rewrite EM', map_app in X1, X2. cbn [map fst snd] in X1, X2. apply NoDup_remove_2 in X1, X2.
    rewrite <- map_app in X1, X2. split; intros <-; [apply X1|apply X2]; apply in_map; exact X. }
  assert (LM : length M = S (length (A ++ B))) by (rewrite EM, !app_length; cbn; lia).
  assert (LM' : length M' = S (length (A' ++ B'))) by (rewrite EM', !app_length; cbn; lia).
  destruct (IH (A ++ B) (A' ++ B')) as (s & P & j0 & Is & NP & Ns & Nj0 & (it & It) & C); [lia|exact IA|exact IA'|lia|].
  assert (Nj0' : forall i, ~ In (i, j0) M).
  { intros i X. apply SM in X. destruct X as [X|X]; [|exact (Nj0 i X)]. injection X as -> ->. apply (U' _ It). reflexivity. }
  assert (C' : forall i, In i P -> exists k, In (i, k) M' /\ (k = j0 \/ exists i', In i' P /\ In (i', k) M)).
  { intros i X. destruct (C i X) as (k & K & D). exists k. split; [apply S'; right; exact K|]. destruct D as [D|(i' & D1 & D2)]; [left; exact D|].
    right. exists i'. split; [exact D1|apply SM; right; exact D2]. }
  destruct (Nat.eq_dec s i1) as [->|Neq].
  - exists i0, (i0 :: P), j0. split; [left; reflexivity|]. split.
    { constructor; [|exact NP]. intros X. destruct (C _ X) as (k & K & _). apply (proj1 (U' _ K)). reflexivity. }
    split; [exact N0|]. split; [exact Nj0'|]. split; [exists it; apply S'; right; exact It|].
    intros i [<-|X].
    + exists j. split; [exact I0|]. right. exists i1. split; [right; exact Is|exact I1].
    + destruct (C' i X) as (k & K & [D|(i' & D1 & D2)]); exists k; (split; [exact K|]); [left; exact D|right; exists i'; split; [right; exact D1|exact D2]].
  - exists s, P, j0. split; [exact Is|]. split; [exact NP|]. split.
    { intros k X. apply SM in X. destruct X as [X|X]; [injection X as X1 X2; contradiction|exact (Ns k X)]. }
    split; [exact Nj0'|]. split; [exists it; apply S'; right; exact It|exact C'].
Qed.

Lemma choice_all n l : choice n n None l -> forall j, (j < n)%nat -> In j l.
Proof.
  intros (L & N & F) j Hj. assert (X : incl (seq 0 n) l); [|apply X, in_seq; lia].
  apply NoDup_length_incl; [exact N|rewrite seq_length; lia|]. intros k K. apply F in K. apply in_seq. lia.
Qed.

(** ** The exchange *)
Section X.
Variable A B : list (Z * Z).
Variable tol2 : Q.
Variable W : Z.
Variable g : list garc.
Hypothesis G : assignment_graph A B tol2 W g.
Hypothesis HW : 0 < W.
Notation a := (length A).
Notation b := (length B).
Hypothesis Small : (Nat.min a b <= 6)%nat.

Lemma spare_arc i j : (i < b)%nat -> (j < a)%nat -> In (mkArc (a + i) (b + j) W) g.
Proof.
  intros Hi Hj. destruct (Nat.lt_ge_cases a b) as [L|L].
  - destruct (ag_spare_lt _ _ _ _ _ G L i Hi) as (l & C & E). apply E; [exact Hj|]. split; [|reflexivity].
    apply (choice_all a); [|exact Hj]. replace (Nat.min 6 a) with a in C by lia. exact C.
  - destruct (ag_spare_ge _ _ _ _ _ G L j Hj) as (l & C & E). apply E; [exact Hi|]. split; [|reflexivity].
    apply (choice_all b); [|exact Hi]. replace (Nat.min 6 b) with b in C by lia. exact C.
Qed.
Lemma outlier_cost1 i j c : (i < a)%nat -> In (mkArc i j c) g -> (b <= j)%nat -> W <= c.
Proof.
  intros Hi X Hj. destruct (ag_range _ _ _ _ _ G _ X) as [_ R]. cbn [a_head] in R.
  destruct (ag_outliers1 _ _ _ _ _ G i Hi) as (l & _ & E). replace j with (b + (j - b))%nat in X by lia. apply E in X; lia.
Qed.
Lemma outlier_cost2 i j c : (a <= i)%nat -> In (mkArc i j c) g -> (j < b)%nat -> W <= c.
Proof.
  intros Hi X Hj. destruct (ag_range _ _ _ _ _ G _ X) as [R _]. cbn [a_tail] in R.
  destruct (ag_outliers2 _ _ _ _ _ G j Hj) as (l & _ & E). replace i with (a + (i - a))%nat in X by lia. apply E in X; lia.
Qed.
Lemma arc_nonneg x : In x g -> 0 <= a_cost x.
Proof.
  intros X. destruct x as [i j c]. cbn [a_cost]. destruct (ag_range _ _ _ _ _ G _ X) as [R1 R2]. cbn [a_tail a_head] in *.
  destruct (Nat.lt_ge_cases i a) as [L|L], (Nat.lt_ge_cases j b) as [K|K].
  - destruct (nth_error A i) as [[x y]|] eqn:Ea; [|apply nth_error_None in Ea; lia].
    destruct (nth_error B j) as [[x' y']|] eqn:Eb; [|apply nth_error_None in Eb; lia].
    apply (ag_pixels _ _ _ _ _ G i j x y x' y' c Ea Eb) in X. apply X.
  - apply (outlier_cost1 i j c) in X; lia.
  - apply (outlier_cost2 i j c) in X; lia.
  - destruct (Nat.lt_ge_cases a b) as [Lt|Ge].
    + destruct (ag_spare_lt _ _ _ _ _ G Lt (i - a)) as (l & _ & E); [lia|]. replace i with (a + (i - a))%nat in X by lia.
      replace j with (b + (j - b))%nat in X by lia. apply E in X; lia.
    + destruct (ag_spare_ge _ _ _ _ _ G Ge (j - b)) as (l & _ & E); [lia|]. replace i with (a + (i - a))%nat in X by lia.
      replace j with (b + (j - b))%nat in X by lia. apply E in X; lia.
Qed.

Variable l : list (nat * Z).
Hypothesis Mn : minimum_cost_matching (a + b) g l.
Variable M M' : list (nat * nat).
Hypothesis IM : injection_list M.
Hypothesis IM' : injection_list M'.
Hypothesis EM : forall i j, In (i, j) M <-> (i < a)%nat /\ (j < b)%nat /\ exists c, nth_error l i = Some (j, c).
Variable mw : Z.
Hypothesis Hm : forall i j, In (i, j) M' -> (i < a)%nat /\ (j < b)%nat /\ exists c, In (mkArc i j c) g /\ c <= mw.
Hypothesis Pay : 6 * mw < W.
Hypothesis Pm : 0 <= mw.

Lemma no_larger : (length M' <= length M)%nat.
Proof.
  destruct (Nat.le_gt_cases (length M') (length M)) as [L|L]; [exact L|exfalso].
  destruct (augmenting (length M') M M' eq_refl IM IM' L) as (i0 & P & j0 & I0 & NP & N0 & Nj & (it & It) & C).
  destruct Mn as [(Ll & Nl & Al) Best].
  assert (Pd : forall i, In i P -> (i < a)%nat) by (intros i X; destruct (C i X) as (j & J & _); apply Hm in J; apply J).
  assert (Bj : (j0 < b)%nat) by (apply Hm in It; apply It).
  assert (Nth : forall v, (v < a + b)%nat -> nth_error l v = Some (nth v l (0%nat, 0))) by (intros v Hv; apply nth_error_nth'; lia).
  set (tgt := fun v => fst (nth v l (0%nat, 0))). set (f := fun v => snd (nth v l (0%nat, 0))).
  assert (Arc : forall v, (v < a + b)%nat -> (tgt v < a + b)%nat /\ In (mkArc v (tgt v) (f v)) g).
  { intros v Hv. apply Al. rewrite Nth by exact Hv. unfold tgt, f. destruct (nth v l (0%nat, 0)); reflexivity. }
  assert (Inj : forall u v, (u < a + b)%nat -> (v < a + b)%nat -> tgt u = tgt v -> u = v).
  { intros u v Hu Hv E. rewrite NoDup_nth with (d := 0%nat) in Nl. rewrite map_length in Nl. apply Nl; [lia|lia|].
    change 0%nat with (fst (0%nat, 0)). rewrite !map_nth. exact E. }
  assert (Surj : forall w, (w < a + b)%nat -> exists v, (v < a + b)%nat /\ tgt v = w).
  { intros w Hw. assert (X : incl (seq 0 (a + b)) (map fst l)).
    { apply NoDup_length_incl; [exact Nl|rewrite map_length, seq_length; lia|]. intros k K. apply in_map_iff in K. destruct K as ([k' c] & <- & K).
      apply In_nth_error in K. destruct K as (v & K). apply Al in K. cbn. apply in_seq. lia. }
    assert (Y : In w (map fst l)) by (apply X, in_seq; lia). apply in_map_iff in Y. destruct Y as ([k c] & <- & Y). apply In_nth_error in Y. destruct Y as (v & Y).
    exists v. assert (Hv : (v < length l)%nat) by (apply nth_error_Some; congruence). split; [lia|]. unfold tgt. rewrite (nth_error_nth l v _ Y). reflexivity. }
  assert (InM : forall i, (i < a)%nat -> (tgt i < b)%nat -> In (i, tgt i) M).
  { intros i Hi Ht. apply EM. split; [exact Hi|]. split; [exact Ht|]. exists (f i). rewrite Nth by lia. unfold tgt, f. destruct (nth i l (0%nat, 0)); reflexivity. }
  assert (MIn : forall i j, In (i, j) M -> (i < a)%nat /\ (j < b)%nat /\ tgt i = j).
  { intros i j X. apply EM in X. destruct X as (X1 & X2 & c & X3). split; [exact X1|]. split; [exact X2|]. unfold tgt. rewrite (nth_error_nth l i _ X3). reflexivity. }
  assert (Hi0 := Pd i0 I0).
  assert (O0 : (b <= tgt i0)%nat). { destruct (Nat.lt_ge_cases (tgt i0) b) as [X|X]; [|exact X]. exfalso. exact (N0 _ (InM i0 Hi0 X)). }
  destruct (Surj j0) as (u & Hu & Eu); [lia|].
  assert (Ou : (a <= u)%nat). { destruct (Nat.lt_ge_cases u a) as [X|X]; [|exact X]. exfalso. apply (Nj u). rewrite <- Eu. apply InM; [exact X|rewrite Eu; exact Bj]. }
  assert (exists h, forall i, In i P -> In (i, h i) M' /\ (h i = j0 \/ exists i', In i' P /\ In (i', h i) M)) as (h & Hh).
  { clear - C. induction P as [|p P' IH] using rev_ind; [exists (fun _ => 0%nat); intros i []|].
    assert (D : forall Q : list nat, (forall i, In i Q -> exists j, In (i, j) M' /\ (j = j0 \/ exists i', In i' (P' ++ [p]) /\ In (i', j) M)) ->
      exists h, forall i, In i Q -> In (i, h i) M' /\ (h i = j0 \/ exists i', In i' (P' ++ [p]) /\ In (i', h i) M)).
    { clear. induction Q as [|q Q IH]; intros D; [exists (fun _ => 0%nat); intros i []|]. destruct IH as (h & Hh); [intros i X; apply D; right; exact X|].
      destruct (D q (or_introl eq_refl)) as (j & J). exists (fun i => if Nat.eqb i q then j else h i). intros i [<-|X]; [rewrite Nat.eqb_refl; exact J|].
      destruct (Nat.eqb_spec i q) as [->|]; [exact J|apply Hh; exact X]. }
    apply D. exact C. }
  assert (exists wt, forall i, In i P -> In (mkArc i (h i) (wt i)) g /\ wt i <= mw) as (wt & Hwt).
  { assert (D : forall Q : list nat, incl Q P -> exists wt, forall i, In i Q -> In (mkArc i (h i) (wt i)) g /\ wt i <= mw).
    { induction Q as [|q Q IH]; intros D; [exists (fun _ => 0); intros i []|]. destruct IH as (wt & Hw'); [intros i X; apply D; right; exact X|].
      destruct (Hm q (h q)) as (_ & _ & c & K1 & K2); [apply Hh, D; left; reflexivity|]. exists (fun i => if Nat.eqb i q then c else wt i).
      intros i [<-|X]; [rewrite Nat.eqb_refl; split; assumption|]. destruct (Nat.eqb_spec i q) as [->|]; [split; assumption|apply Hw'; exact X]. }
    apply D. intros i X. exact X. }
  set (inP := fun v => if in_dec Nat.eq_dec v P then true else false).
  assert (inP_spec : forall v, inP v = true <-> In v P) by (intros v; unfold inP; destruct (in_dec Nat.eq_dec v P); split; intros; congruence || assumption || reflexivity).
  set (tgt' := fun v => if inP v then h v else if Nat.eqb v u then tgt i0 else tgt v).
  set (f' := fun v => if inP v then wt v else if Nat.eqb v u then W else f v).
  set (l' := map (fun v => (tgt' v, f' v)) (seq 0 (a + b))).
  assert (hb : forall v, In v P -> (h v < b)%nat) by (intros v X; destruct (Hh v X) as [Y _]; apply Hm in Y; apply Y).
  assert (PM : perfect_matching (a + b) g l').
  { split; [unfold l'; rewrite map_length, seq_length; reflexivity|]. split.
    - unfold l'. rewrite map_map. cbn [fst]. apply NoDup_map_inj_on; [|apply seq_NoDup]. intros v v' Hv Hv'.
      apply in_seq in Hv, Hv'. assert (Hv2 : (v < a + b)%nat) by lia. assert (Hv2' : (v' < a + b)%nat) by lia. clear Hv Hv'.
      assert (One : forall v v', (v < a + b)%nat -> (v' < a + b)%nat -> inP v = true -> inP v' = false -> tgt' v = tgt' v' -> False).
      { clear v v' Hv2 Hv2'. intros v v' Hv Hv' E E' Eq. unfold tgt' in Eq. rewrite E, E' in Eq. apply inP_spec in E.
        destruct (Nat.eqb_spec v' u) as [->|Nu]; [specialize (hb v E); lia|].
        destruct (Hh v E) as [_ [K|(i' & K1 & K2)]].
        - apply Nu, Inj; [exact Hv'|exact Hu|]. congruence.
        - apply MIn in K2. destruct K2 as (K2 & _ & K3). assert (v' = i') by (apply Inj; [exact Hv'|lia|congruence]). subst v'. apply inP_spec in K1. congruence. }
      destruct (inP v) eqn:E, (inP v') eqn:E'; intros Eq.
      + unfold tgt' in Eq. rewrite E, E' in Eq. apply inP_spec in E, E'. apply (inj_right M' v v' (h v) IM'); [apply Hh; exact E|rewrite Eq; apply Hh; exact E'].
      + exfalso. exact (One v v' Hv2 Hv2' E E' Eq).
      + exfalso. exact (One v' v Hv2' Hv2 E' E (eq_sym Eq)).
      + unfold tgt' in Eq. rewrite E, E' in Eq. destruct (Nat.eqb_spec v u) as [->|Nv], (Nat.eqb_spec v' u) as [->|Nv'].
        * reflexivity.
        * exfalso. assert (v' = i0) by (apply Inj; [exact Hv2'|lia|congruence]). subst v'. apply inP_spec in I0. congruence.
        * exfalso. assert (v = i0) by (apply Inj; [exact Hv2|lia|congruence]). subst v. apply inP_spec in I0. congruence.
        * apply Inj; assumption.
    - intros v x c E. assert (Hv : (v < a + b)%nat).
      { assert (X : nth_error l' v <> None) by congruence. apply nth_error_Some in X. unfold l' in X. rewrite map_length, seq_length in X. exact X. }
      unfold l' in E. rewrite nth_error_map_seq in E by exact Hv. injection E as <- <-. unfold tgt', f'.
      destruct (inP v) eqn:Ev; [apply inP_spec in Ev; split; [specialize (hb v Ev); lia|apply Hwt; exact Ev]|].
      destruct (Nat.eqb_spec v u) as [->|Nu]; [|apply Arc; exact Hv].
      destruct (Arc i0 ltac:(lia)) as [R _]. split; [exact R|].
      replace u with (a + (u - a))%nat by lia. replace (tgt i0) with (b + (tgt i0 - b))%nat by lia. apply spare_arc; lia. }
  apply Best in PM. unfold total_cost in PM. unfold l' in PM. rewrite map_map in PM. cbn [snd] in PM.
  assert (El : zsum (map snd l) = zsum (map f (seq 0 (a + b)))).
  { rewrite (list_as_table (0%nat, 0) l) at 1. rewrite map_map, Ll. reflexivity. }
  rewrite El in PM.
  assert (Step : forall v, (v < a + b)%nat -> f' v <= f v + (if inP v then mw else 0) - (if Nat.eqb v i0 then W else 0)).
  { intros v Hv. unfold f'. destruct (Arc v Hv) as [R Av]. assert (F := arc_nonneg _ Av). cbn [a_cost] in F.
    destruct (inP v) eqn:Ev.
    - assert (Ev' := proj1 (inP_spec v) Ev). destruct (Hwt v Ev') as [_ K]. destruct (Nat.eqb_spec v i0) as [->|]; [|lia].
      assert (Q := outlier_cost1 i0 (tgt i0) (f i0) Hi0 Av O0). lia.
    - destruct (Nat.eqb_spec v i0) as [->|]; [apply inP_spec in I0; congruence|]. destruct (Nat.eqb_spec v u) as [->|]; [|lia].
      assert (Q := outlier_cost2 u (tgt u) (f u) Ou Av). lia. }
  assert (Sum : forall L, NoDup L -> (forall v, In v L -> (v < a + b)%nat) ->
    zsum (map f' L) <= zsum (map f L) + mw * Z.of_nat (length (filter inP L)) - (if in_dec Nat.eq_dec i0 L then W else 0)).
  { clear L. intros L; induction L as [|v L IH]; intros N H; [destruct (in_dec Nat.eq_dec i0 []) as [[]|]; cbn [map filter length]; change (zsum []) with 0; lia|]. apply NoDup_cons_iff in N. destruct N as [Nv N'].
    assert (S1 := Step v (H v (or_introl eq_refl))). assert (S2 := IH N' (fun x X => H x (or_intror X))). cbn [map filter].
    change (zsum (f' v :: map f' L)) with (f' v + zsum (map f' L)). change (zsum (f v :: map f L)) with (f v + zsum (map f L)).
    destruct (in_dec Nat.eq_dec i0 L) as [X|X], (in_dec Nat.eq_dec i0 (v :: L)) as [Y|Y].
    - destruct (Nat.eqb_spec v i0); [subst; contradiction|]. destruct (inP v); cbn [length]; lia.
    - exfalso. apply Y. right. exact X.
    - destruct Y as [Y|Y]; [|contradiction]. subst v. rewrite Nat.eqb_refl in S1. destruct (inP i0); cbn [length]; lia.
    - destruct (Nat.eqb_spec v i0) as [->|]; [exfalso; apply Y; left; reflexivity|]. destruct (inP v); cbn [length]; lia. }
  specialize (Sum (seq 0 (a + b)) (seq_NoDup _ _)). 
  assert (Hs : forall v, In v (seq 0 (a + b)) -> (v < a + b)%nat) by (intros v X; apply in_seq in X; lia). specialize (Sum Hs).
  destruct (in_dec Nat.eq_dec i0 (seq 0 (a + b))) as [_|X]; [|apply X, in_seq; lia].
  assert (Cf : (length (filter inP (seq 0 (a + b))) <= length P)%nat).
  { apply NoDup_incl_length; [apply NoDup_filter, seq_NoDup|]. intros v X. apply filter_In in X. apply inP_spec. apply X. }
  assert (CP : (length P <= Nat.min a b)%nat).
  { apply Nat.min_glb.
    - rewrite <- (seq_length a 0). apply NoDup_incl_length; [exact NP|]. intros v X. apply in_seq. specialize (Pd v X). lia.
    - rewrite <- (map_length h P), <- (seq_length b 0). apply NoDup_incl_length.
      + apply NoDup_map_inj_on; [|exact NP]. intros x y X Y E. apply (inj_right M' x y (h x) IM'); [apply Hh; exact X|rewrite E; apply Hh; exact Y].
      + intros v X. apply in_map_iff in X. destruct X as (x & <- & X). apply in_seq. specialize (hb x X). lia. }
  change (map (fun x : nat => f' x) (seq 0 (a + b))) with (map f' (seq 0 (a + b))) in PM.
  set (k := length (filter inP (seq 0 (a + b)))) in *. assert (Kk : mw * Z.of_nat k <= mw * 6) by (apply Z.mul_le_mono_nonneg_l; [exact Pm|lia]). lia.
Qed.
End X.

(** ** Correspondences as lists of index pairs *)
Lemma corr_pairs b1 b2 tol2 m1 m2 A B : wf b1 -> wf b2 -> same_shape b1 b2 -> is_correspondence b1 b2 tol2 m1 m2 ->
  NoDup A -> NoDup B ->
  (forall x y, In (x, y) A <-> exists y' x', matchable_pair b1 b2 tol2 y x y' x') ->
  (forall x' y', In (x', y') B <-> exists y x, matchable_pair b1 b2 tol2 y x y' x') ->
  exists M, injection_list M /\ length M = matched m1 /\
    forall i j, In (i, j) M <-> exists x y x' y', nth_error A i = Some (x, y) /\ nth_error B j = Some (x', y') /\
      px false b2 y' x' = true /\ px 0 m1 y x = pixel_code (ht b1) y' x'.
Proof.
  intros W1 W2 S K DA DB IA IB. assert (I := injective_matches b1 b2 tol2 W1 W2 S m1 m2 K).
  destruct K as ((Wm1 & _) & (Wm2 & _) & P & _). set (h := Z.of_nat (ht b1)).
  set (f := fun p : Z * Z => ((px 0 m1 (fst p) (snd p) - 1) / h, (px 0 m1 (fst p) (snd p) - 1) mod h)).
  assert (Dec : forall y x y' x', px 0 m1 y x = pixel_code (ht b1) y' x' -> 0 <= y' < h -> f (y, x) = (x', y')).
  { intros y x y' x' E Hy. unfold f. cbn [fst snd]. rewrite E. unfold pixel_code. fold h. replace (x' * h + y' + 1 - 1) with (y' + x' * h) by ring.
    rewrite Z.mod_add, Z.div_add by lia. rewrite Z.mod_small, Z.div_small by lia. f_equal. }
  destruct S as [S1 S2].
  assert (F : forall y x, In (y, x) (nz m1) -> exists y' x', px 0 m1 y x = pixel_code (ht b1) y' x' /\ f (y, x) = (x', y') /\
     px false b2 y' x' = true /\ In (x, y) A /\ In (x', y') B).
  { intros y x H. apply in_nz in H; [|exact Wm1]. destruct (P y x H) as (A1 & y' & x' & B1 & C1 & D1 & E1).
    exists y', x'. split; [exact B1|]. assert (C2 := C1). apply inside in C2; [|assumption]. rewrite inb_spec in C2.
    split; [apply Dec; [exact B1|unfold h; lia]|]. split; [exact C1|].
    split; [apply IA; exists y', x'|apply IB; exists y, x]; (split; [exact A1|]; split; [exact C1|exact D1]). }
  set (gm := fun p : Z * Z => (index_of (swap p) A, index_of (f p) B)).
  exists (map gm (nz m1)). split; [split|split].
  - rewrite map_map. apply NoDup_map_inj_on; [|apply NoDup_fg_list]. intros [y x] [v u] X Y E. cbn [fst gm swap] in E. unfold gm, swap in E. cbn [fst snd] in E.
    destruct (F _ _ X) as (_ & _ & _ & _ & _ & X1 & _). destruct (F _ _ Y) as (_ & _ & _ & _ & _ & Y1 & _).
    destruct (index_of_in _ _ (-1, -1) X1) as [_ X2]. destruct (index_of_in _ _ (-1, -1) Y1) as [_ Y2]. rewrite E in X2. rewrite X2 in Y2. congruence.
  - rewrite map_map. apply NoDup_map_inj_on; [|apply NoDup_fg_list]. intros [y x] [v u] X Y E. unfold gm in E. cbn [snd] in E.
    destruct (F _ _ X) as (y1 & x1 & Ex & Fx & _ & _ & X1). destruct (F _ _ Y) as (y2 & x2 & Ey & Fy & _ & _ & Y1).
    rewrite Fx, Fy in E. destruct (index_of_in _ _ (-1, -1) X1) as [_ X2]. destruct (index_of_in _ _ (-1, -1) Y1) as [_ Y2].
    rewrite E in X2. rewrite X2 in Y2. injection Y2 as -> ->. apply in_nz in X; [|exact Wm1]. destruct (I y x v u X) as [-> ->]; [congruence|reflexivity].
  - rewrite map_length. unfold matched. rewrite count_true_fg by (apply wf_imap; assumption). reflexivity.
  - intros i j. rewrite in_map_iff. split.
    + intros ([y x] & E & X). destruct (F _ _ X) as (y' & x' & Ex & Fx & Px & X1 & X2). unfold gm, swap in E. cbn [fst snd] in E. rewrite Fx in E. injection E as <- <-.
      exists x, y, x', y'. destruct (index_of_in _ _ (-1, -1) X1) as [L1 V1]. destruct (index_of_in _ _ (-1, -1) X2) as [L2 V2].
      split; [rewrite (nth_error_nth' A (-1, -1) L1); f_equal; exact V1|]. split; [rewrite (nth_error_nth' B (-1, -1) L2); f_equal; exact V2|]. split; assumption.
    + intros (x & y & x' & y' & E1 & E2 & Px & Ex). exists (y, x).
      assert (Px' := Px). apply inside in Px'; [|assumption]. rewrite inb_spec in Px'.
      assert (Fx : f (y, x) = (x', y')) by (apply Dec; [exact Ex|unfold h; lia]). split.
      * unfold gm, swap. cbn [fst snd]. rewrite Fx.
        assert (Li : (i < length A)%nat) by (apply nth_error_Some; intros Q; discriminate (eq_trans (eq_sym E1) Q)).
        assert (Lj : (j < length B)%nat) by (apply nth_error_Some; intros Q; discriminate (eq_trans (eq_sym E2) Q)).
        assert (T1 : index_of (x, y) A = i) by (rewrite <- (nth_error_nth A i (-1, -1) E1); apply index_of_nth; [exact DA|exact Li]).
        assert (T2 : index_of (x', y') B = j) by (rewrite <- (nth_error_nth B j (-1, -1) E2); apply index_of_nth; [exact DB|exact Lj]).
        rewrite T1, T2. reflexivity.
      * apply in_nz; [exact Wm1|]. rewrite Ex. unfold pixel_code. fold h. nia.
Qed.

(** With an outlier cost of at least 7, six arcs between pixels cost less than one outlier. *)
Lemma six_arcs oc tol2 W d c : (7 <= oc)%Q -> (0 < tol2)%Q -> ceiling_hundredths (oc * oc * tol2) W -> (inject_Z d <= tol2)%Q -> 0 <= d ->
  nearest_hundredths d c -> c <= (W - 1) / 6.
Proof.
  intros Ho Ht (C1 & C2 & _) Hd Pd (N1 & N2 & N3).
  assert (K : (49 <= oc * oc)%Q). { assert (X : (0 <= (oc - 7) * (oc - 7))%Q) by (apply Qmult_le_0_compat; lra). lra. }
  assert (K3 : (0 <= (oc * oc - 49) * tol2)%Q) by (apply Qmult_le_0_compat; lra).
  assert (W1 : 490000 * d <= W * W).
  { rewrite Zle_Qle, inject_Z_mult. change (inject_Z 490000) with (490000 # 1)%Q. lra. }
  assert (W2 : 1 <= W). { destruct (Z.eq_dec W 0) as [->|]; [|lia]. exfalso. change (inject_Z (0 * 0)) with 0%Q in C2. lra. }
  apply Z.div_le_lower_bound; [lia|]. destruct N3 as [->|N3]; [lia|].
  assert (1 <= d \/ d = 0) as [D| ->] by lia; [|nia].
  assert (700 <= W) by nia. assert (7 * (2 * c - 1) < 2 * W) by nia. lia.
Qed.
