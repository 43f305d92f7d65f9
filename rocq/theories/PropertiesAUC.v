(** C07 in full: the exact value of the AUC; and the division guards of C01. *)
From Verif Require Import ModelMetrics SpecMetrics SpecAUC ProofsMetrics ProofsMetrics2.
From Coq Require Import Lqa Sorted Permutation.
Open Scope Q_scope.

(** ** The division guards: what is divided by is never zero *)
Theorem division_is_guarded :
  (forall c s, ~ inject_Z (s + b2z (s =? 0)) == 0 /\ recall c s * inject_Z (s + b2z (s =? 0)) == inject_Z c /\
     precision c s * inject_Z (s + b2z (s =? 0)) == inject_Z c) /\
  (forall c, recall c 0 == inject_Z c /\ precision c 0 == inject_Z c) /\
  (forall p r, p + r == 0 -> f1 p r == 2 * p * r).
Proof.
  assert (N : forall s, ~ inject_Z (s + b2z (s =? 0)) == 0).
  { intros s. unfold Qeq; cbn. destruct (Z.eqb_spec s 0); cbn [b2z]; lia. }
  split; [|split].
  - intros c s. split; [apply N|]. unfold precision, recall. split; field; apply N.
  - intros c. unfold precision, recall. cbn. split; field.
  - intros p r E. unfold f1. assert (B : Qeq_bool (p + r) 0 = true) by (apply Qeq_bool_iff; exact E).
    rewrite B. rewrite E. field.
Qed.
Print Assumptions division_is_guarded.

(** ** The table of first occurrences *)
Definition firsts (l : list (Q * Q)) (q : Q * Q) : Prop :=
  exists i, (i < length l)%nat /\ nth i l (0, 0) = q /\
    forall j, (j < i)%nat -> ~ fst (nth j l (0, 0)) == fst q.

Lemma insert_keeps r p l q : In q l -> In q (insert_unique r p l).
Proof.
  induction l as [|[r' p'] l IH]; [intros []|]. cbn [insert_unique In].
  intros H. destruct (r ?= r'); cbn [In]; intuition.
Qed.
Lemma insert_new r p l : sorted_fst l -> (forall q, In q l -> ~ fst q == r) -> In (r, p) (insert_unique r p l).
Proof.
  induction l as [|[r' p'] l IH]; intros S H; [left; reflexivity|]. cbn [insert_unique].
  inversion S as [|? ? S' F]; subst. destruct (r ?= r') eqn:E.
  - apply Qeq_alt in E. exfalso. apply (H (r', p') (or_introl eq_refl)). cbn. symmetry; exact E.
  - left; reflexivity.
  - right. apply IH; [exact S'|]. intros q Hq; apply H; right; exact Hq.
Qed.
Lemma insert_old r p l : sorted_fst l -> (exists q, In q l /\ fst q == r) -> insert_unique r p l = l.
Proof.
  induction l as [|[r' p'] l IH]; intros S (q & Hq & E); [destruct Hq|]. cbn [insert_unique].
  inversion S as [|? ? S' F]; subst. destruct (r ?= r') eqn:C.
  - reflexivity.
  - apply Qlt_alt in C. exfalso. destruct Hq as [<-|Hq]; cbn in E; [lra|].
    rewrite Forall_forall in F. specialize (F q Hq). cbn in F. lra.
  - apply Qgt_alt in C. destruct Hq as [<-|Hq]; cbn in E; [lra|]. rewrite IH; eauto.
Qed.

Definition table (l : list (Q * Q)) : list (Q * Q) :=
  fold_left (fun acc rp => insert_unique (fst rp) (snd rp) acc) l [].
Lemma table_snoc l a : table (l ++ [a]) = insert_unique (fst a) (snd a) (table l).
Proof. unfold table. rewrite fold_left_app. reflexivity. Qed.
Lemma table_sorted l : sorted_fst (table l).
Proof.
  induction l as [|a l IH] using rev_ind; [constructor|]. rewrite table_snoc. apply insert_unique_sorted, IH.
Qed.
Lemma firsts_snoc l a q : firsts (l ++ [a]) q <->
  firsts l q \/ (q = a /\ forall b, In b l -> ~ fst b == fst a).
Proof.
  split.
  - intros (i & Hi & E & F). rewrite app_length in Hi; cbn in Hi.
    destruct (Nat.eq_dec i (length l)) as [->|N].
    + right. rewrite app_nth2, Nat.sub_diag in E by lia. cbn in E. subst q. split; [reflexivity|].
      intros b Hb. destruct (In_nth l b (0, 0) Hb) as (j & Hj & <-). specialize (F j Hj).
      rewrite app_nth1 in F by exact Hj. exact F.
    + left. exists i. split; [lia|]. rewrite app_nth1 in E by lia. split; [exact E|].
      intros j Hj. specialize (F j Hj). rewrite app_nth1 in F by lia. exact F.
  - intros [(i & Hi & E & F)|(-> & F)].
    + exists i. rewrite app_length; cbn. split; [lia|]. rewrite app_nth1 by lia. split; [exact E|].
      intros j Hj. rewrite app_nth1 by lia. apply F; exact Hj.
    + exists (length l). rewrite app_length; cbn. split; [lia|]. rewrite app_nth2, Nat.sub_diag by lia.
      split; [reflexivity|]. intros j Hj. rewrite app_nth1 by exact Hj. apply F, nth_In, Hj.
Qed.
(** The table lists exactly the first occurrences, and no recall is lost. *)
Lemma table_spec l : (forall q, In q (table l) <-> firsts l q) /\
  (forall b, In b l -> exists q, In q (table l) /\ fst q == fst b).
Proof.
  induction l as [|a l [IH1 IH2]] using rev_ind.
  - split; [|intros b []]. intros q; split; [intros []|]. intros (i & Hi & _). cbn in Hi; lia.
  - rewrite table_snoc. pose proof (table_sorted l) as S.
    assert (D : (exists q, In q (table l) /\ fst q == fst a) \/ (forall q, In q (table l) -> ~ fst q == fst a)).
    { clear. induction (table l) as [|q t IH]; [right; intros q []|].
      destruct (Qeq_dec (fst q) (fst a)) as [E|E]; [left; exists q; split; [left; reflexivity|exact E]|].
      destruct IH as [(q' & H & E')|H]; [left; exists q'; split; [right; exact H|exact E']|].
      right. intros q' [<-|H']; [exact E|apply H, H']. }
    destruct D as [D|D].
    + rewrite insert_old by assumption. split.
      * intros q. rewrite firsts_snoc, IH1. split; [auto|]. intros [H|(-> & F)]; [exact H|]. exfalso.
        destruct D as (q & Hq & E). apply IH1 in Hq. destruct Hq as (i & Hi & En & _).
        apply (F q); [rewrite <- En; apply nth_In, Hi|exact E].
      * intros b Hb. apply in_app_iff in Hb. destruct Hb as [Hb|[<-|[]]]; [apply IH2, Hb|exact D].
    + assert (New : forall b, In b l -> ~ fst b == fst a).
      { intros b Hb E. destruct (IH2 b Hb) as (q & Hq & Eq). apply (D q Hq). rewrite Eq; exact E. }
      split.
      * intros q. rewrite firsts_snoc. split.
        -- intros H. apply insert_unique_in in H. destruct H as [->|H]; [right|left; apply IH1, H].
           split; [destruct a; reflexivity|exact New].
        -- intros [H|(-> & _)]; [apply insert_keeps, IH1, H|].
           destruct a as [ra pa]. apply insert_new; [exact S|exact D].
      * intros b Hb. apply in_app_iff in Hb. destruct Hb as [Hb|[<-|[]]].
        -- destruct (IH2 b Hb) as (q & Hq & E). exists q. split; [apply insert_keeps, Hq|exact E].
        -- exists (fst a, snd a). split; [apply insert_new; assumption|reflexivity].
Qed.

(** ** Interpolation in a sorted table *)
Inductive tcurve (l : list (Q * Q)) (x v : Q) : Prop :=
| tc_between a b : In a l -> In b l -> fst a < fst b ->
    (forall q, In q l -> fst q <= fst a \/ fst b <= fst q) -> fst a <= x -> x < fst b ->
    v == snd a + (snd b - snd a) * ((x - fst a) / (fst b - fst a)) -> tcurve l x v
| tc_end a : In a l -> (forall q, In q l -> fst q <= fst a) -> x == fst a -> v == snd a -> tcurve l x v
| tc_left : (forall q, In q l -> x < fst q) -> v == 0 -> tcurve l x v
| tc_right : (forall q, In q l -> fst q < x) -> v == 0 -> tcurve l x v.

Lemma interp_curve x l : sorted_fst l -> tcurve l x (interp_in x l).
Proof.
  induction l as [|[r p] l IH]; intros S; cbn [interp_in].
  - apply tc_left; [intros q []|reflexivity].
  - inversion S as [|? ? S' F]; subst. rewrite Forall_forall in F. cbn [fst] in F.
    destruct l as [|[r' p'] l'].
    + destruct (Qeq_bool x r) eqn:B.
      * apply Qeq_bool_iff in B. apply (tc_end _ _ _ (r, p)); [left; reflexivity| |exact B|reflexivity].
        intros q [<-|[]]; cbn; lra.
      * apply Qeq_bool_neq in B. destruct (Qlt_le_dec x r) as [L|L].
        -- apply tc_left; [|reflexivity]. intros q [<-|[]]; exact L.
        -- apply tc_right; [|reflexivity]. intros q [<-|[]]; cbn. apply Qle_lteq in L. destruct L as [L|L]; [exact L|].
           exfalso; apply B; symmetry; exact L.
    + destruct (Qle_bool r' x) eqn:B1.
      * apply Qle_bool_iff in B1. assert (Hrr : r < r') by (apply (F (r', p')); left; reflexivity).
        destruct (IH S') as [a b Ha Hb Hab Hn H1 H2 H3|a Ha Hm He Hv|Hl Hv|Hr Hv].
        -- apply (tc_between _ _ _ a b); auto; try (right; assumption).
           intros q [<-|Hq]; [left; cbn|apply Hn, Hq].
           specialize (F a Ha). cbn in F. lra.
        -- apply (tc_end _ _ _ a); auto; [right; exact Ha|]. intros q [<-|Hq]; [cbn|apply Hm, Hq].
           specialize (F a Ha). cbn in F. lra.
        -- exfalso. specialize (Hl (r', p') (or_introl eq_refl)). cbn in Hl. lra.
        -- apply tc_right; [|exact Hv]. intros q [<-|Hq]; [cbn; lra|apply Hr, Hq].
      * apply Qle_bool_false in B1. assert (Hrr : r < r') by (apply (F (r', p')); left; reflexivity).
        inversion S' as [|? ? S'' F']; subst. rewrite Forall_forall in F'. cbn [fst] in F'.
        destruct (Qle_bool r x) eqn:B2.
        -- apply Qle_bool_iff in B2. apply (tc_between _ _ _ (r, p) (r', p')); cbn [fst snd]; auto;
             try (left; reflexivity); try (right; left; reflexivity).
           ++ intros q [<-|[<-|Hq]]; [left; cbn; lra|right; cbn; lra|right]. specialize (F' q Hq). lra.
           ++ field. lra.
        -- apply Qle_bool_false in B2. apply tc_left; [|reflexivity].
           intros q [<-|Hq]; [cbn; exact B2|]. specialize (F q Hq). lra.
Qed.

(** ** Back to indices *)
Lemma nth_combine rec prec i : length rec = length prec ->
  nth i (combine rec prec) (0, 0) = (nth i rec 0, nth i prec 0).
Proof. intros L. apply combine_nth, L. Qed.
Lemma firsts_index rec prec q : length rec = length prec -> firsts (combine rec prec) q ->
  exists i, first_with_recall rec i /\ q = (R rec i, P prec i).
Proof.
  intros L (i & Hi & E & F). rewrite combine_length, <- L, Nat.min_id in Hi. rewrite nth_combine in E by exact L.
  exists i. split; [|symmetry; exact E]. split; [exact Hi|].
  intros j Hj. specialize (F j Hj). rewrite nth_combine in F by exact L. subst q. exact F.
Qed.
Lemma table_covers rec prec k : length rec = length prec -> (k < length rec)%nat ->
  exists q, In q (table (combine rec prec)) /\ fst q == R rec k.
Proof.
  intros L Hk. apply (proj2 (table_spec (combine rec prec)) (R rec k, P prec k)).
  unfold R, P. rewrite <- nth_combine by exact L. apply nth_In. rewrite combine_length. lia.
Qed.
Lemma curve_of_table rec prec x v : length rec = length prec -> tcurve (table (combine rec prec)) x v ->
  curve rec prec x v.
Proof.
  intros L [a b Ha Hb Hab Hn H1 H2 Hv|a Ha Hm He Hv|Hl Hv|Hr Hv].
  - apply (proj1 (table_spec _)) in Ha, Hb.
    destruct (firsts_index rec prec a L Ha) as (i & Fi & ->).
    destruct (firsts_index rec prec b L Hb) as (j & Fj & ->). cbn [fst snd] in *.
    apply (curve_between _ _ _ _ i j); auto. split; [exact Hab|].
    intros k Hk. destruct (table_covers rec prec k L Hk) as (q & Hq & E).
    rewrite <- E. apply Hn, Hq.
  - apply (proj1 (table_spec _)) in Ha. destruct (firsts_index rec prec a L Ha) as (i & Fi & ->).
    cbn [fst snd] in *. apply (curve_end _ _ _ _ i); auto.
    intros k Hk. destruct (table_covers rec prec k L Hk) as (q & Hq & E). rewrite <- E. apply Hm, Hq.
  - apply curve_left; [|exact Hv]. intros k Hk. destruct (table_covers rec prec k L Hk) as (q & Hq & E).
    rewrite <- E. apply Hl, Hq.
  - apply curve_right; [|exact Hv]. intros k Hk. destruct (table_covers rec prec k L Hk) as (q & Hq & E).
    rewrite <- E. apply Hr, Hq.
Qed.

(** The curve is a function: the height above each recall is unique. *)
Lemma first_unique rec i j : first_with_recall rec i -> first_with_recall rec j -> R rec i == R rec j -> i = j.
Proof.
  intros [_ Fi] [_ Fj] E. destruct (Nat.lt_trichotomy i j) as [H|[H|H]]; [|exact H|]; exfalso.
  - apply (Fj i H E).
  - apply (Fi j H). symmetry; exact E.
Qed.
Lemma curve_x {rec prec} x y v : x == y -> curve rec prec x v -> curve rec prec y v.
Proof.
  intros E [i j a b c d e f|i a b c d|a b|a b].
  - apply (curve_between _ _ _ _ i j); auto; try lra. rewrite <- E. exact f.
  - apply (curve_end _ _ _ _ i); auto. rewrite <- E; exact c.
  - apply curve_left; auto. intros k Hk. rewrite <- E; apply a, Hk.
  - apply curve_right; auto. intros k Hk. rewrite <- E; apply a, Hk.
Qed.
Theorem curve_is_a_function : forall rec prec x v w, curve rec prec x v -> curve rec prec x w -> v == w.
Proof.
  intros rec prec x v w H1 H2.
  destruct H1 as [i j Fi Fj [Lij Nij] H1 H2' Hv|i Fi Mi Ei Hv|Lv Hv|Rv Hv];
  destruct H2 as [i' j' Fi' Fj' [Lij' Nij'] H1' H2'' Hw|i' Fi' Mi' Ei' Hw|Lw Hw|Rw Hw];
  try (rewrite Hv, Hw; reflexivity).
  - assert (i = i') as ->.
    { apply (first_unique rec); auto. destruct (Nij i' (proj1 Fi')), (Nij' i (proj1 Fi)); lra. }
    assert (j = j') as ->.
    { apply (first_unique rec); auto. destruct (Nij j' (proj1 Fj')), (Nij' j (proj1 Fj)); lra. }
    rewrite Hv, Hw. reflexivity.
  - exfalso. specialize (Mi' j (proj1 Fj)). lra.
  - exfalso. specialize (Lw i (proj1 Fi)). lra.
  - exfalso. specialize (Rw j (proj1 Fj)). lra.
  - exfalso. specialize (Mi j' (proj1 Fj')). lra.
  - assert (i = i') as -> by (apply (first_unique rec); auto; lra). rewrite Hv, Hw. reflexivity.
  - exfalso. specialize (Lw i (proj1 Fi)). lra.
  - exfalso. specialize (Rw i (proj1 Fi)). lra.
  - exfalso. specialize (Lv i' (proj1 Fi')). lra.
  - exfalso. specialize (Lv i' (proj1 Fi')). lra.
  - exfalso. specialize (Rv j' (proj1 Fj')). lra.
  - exfalso. specialize (Rv i' (proj1 Fi')). lra.
Qed.
Print Assumptions curve_is_a_function.

(** C07: as soon as two thresholds have different recalls, the AUC is the mean height of the
    curve above the recalls 0, .01, ..., .99. *)
Theorem auc_is_mean_height_of_curve : forall rec prec i j, length rec = length prec ->
  (i < length rec)%nat -> (j < length rec)%nat -> ~ nth i rec 0 == nth j rec 0 ->
  exists heights, length heights = 100%nat /\
    (forall k, (k < 100)%nat -> curve rec prec (inject_Z (Z.of_nat k) / 100) (nth k heights 0)) /\
    auc rec prec == fold_right Qplus 0 heights / 100.
Proof.
  intros rec prec i j L Hi Hj N.
  exists (map (fun k => interp_in (inject_Z k / 100) (unique_first rec prec)) (zseq 100)).
  split; [rewrite map_length; reflexivity|]. split.
  - intros k Hk. rewrite nth_map_zseq by exact Hk. apply curve_of_table; [exact L|].
    apply interp_curve. apply unique_first_sorted.
  - unfold auc. assert (B : Nat.ltb 1 (length (unique_first rec prec)) = true).
    { destruct (table_covers rec prec i L Hi) as (q & Hq & Eq).
      destruct (table_covers rec prec j L Hj) as (q' & Hq' & Eq'). unfold R in Eq, Eq'.
      change (table (combine rec prec)) with (unique_first rec prec) in Hq, Hq'.
      destruct (unique_first rec prec) as [|a [|b t]]; [destruct Hq| |reflexivity]. exfalso.
      destruct Hq as [<-|[]]; destruct Hq' as [<-|[]]. apply N. rewrite <- Eq, <- Eq'. reflexivity. }
    rewrite B. unfold grid.
    assert (G : forall (f : Q -> Q) l z, fold_left Qplus (map f (map (fun k => inject_Z k / 100) l)) z ==
                z + fold_right Qplus 0 (map (fun k => f (inject_Z k / 100)) l)).
    { intros f. induction l as [|k l IH]; intros z; cbn [map fold_left fold_right]; [ring|]. rewrite IH. ring. }
    unfold qsum. rewrite G. field.
Qed.
Print Assumptions auc_is_mean_height_of_curve.

(** A curve with four thresholds, two of which share a recall: at recall 1/2 the precision of
    the first of them (3/4) is taken, not that of the later one (1/4). *)
Example ex_curve : curve [1; 1#2; 1#2; 0] [1#2; 3#4; 1#4; 1] (1#2) (3#4).
Proof.
  apply (curve_between _ _ _ _ 1 0); unfold R, P; cbn [nth]; try lra.
  - split; [cbn; lia|]. intros [|j] Hj; [cbn; lra|lia].
  - split; [cbn; lia|]. intros j Hj; lia.
  - split; [cbn; lra|]. intros [|[|[|[|k]]]] Hk; cbn in *; try lra; lia.
  - reflexivity.
Qed.
Example ex_curve_auc : exists h, auc [1; 1#2; 1#2; 0] [1#2; 3#4; 1#4; 1] == fold_right Qplus 0 h / 100 /\
  nth 50 h 0 == 3#4.
Proof.
  destruct (auc_is_mean_height_of_curve [1; 1#2; 1#2; 0] [1#2; 3#4; 1#4; 1] 0 1 eq_refl
    ltac:(cbn; lia) ltac:(cbn; lia) ltac:(cbn; lra)) as (h & _ & C & E).
  exists h. split; [exact E|]. apply (curve_is_a_function _ _ _ _ _ (C 50%nat ltac:(lia))).
  apply (curve_x (1#2)); [reflexivity|exact ex_curve].
Qed.
