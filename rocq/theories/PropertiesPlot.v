(** C55: the precision/recall plot. *)
From Verif Require Import SpecPlot SpecFloat PropertiesFloat PropertiesEvaluator2 PropertiesResults.
From Coq Require Import Lia ZifyBool ZifyNat Lqa Sorted.
Open Scope Z_scope.
Open Scope list_scope.

(** *** the points of the curve *)
Definition rising (l : list (Q * Q)) : Prop := StronglySorted (fun a b => (fst a < fst b)%Q) l.
Lemma insert_new_in p r l : rising l -> forall a, In a (insert_new p r l) <-> In a l \/ a = (p, r) /\ forall b, In b l -> ~ (fst b == p)%Q.
Proof.
  induction l as [|[p' r'] l IH]; intros S a.
  - cbn [insert_new In]. split; [intros [<-|[]]; right; split; [reflexivity|intros b []]|intros [[]|[-> _]]; left; reflexivity].
  - inversion S as [|? ? S' F]; subst. rewrite Forall_forall in F. cbn [insert_new]. destruct (Qcompare_spec p p') as [E|E|E].
    + split; [intros I; left; exact I|]. intros [I|[-> H]]; [exact I|]. exfalso. apply (H (p', r') (or_introl eq_refl)). cbn [fst]. rewrite E. reflexivity.
    + cbn [In]. split; [intros [<-|I]; [right; split; [reflexivity|]|left; exact I]|intros [I|[-> _]]; [right; exact I|left; reflexivity]].
      intros b [<-|I]; cbn [fst]; intros C; [rewrite C in E; eapply Qlt_irrefl; exact E|]. specialize (F b I). cbn [fst] in F. rewrite <- C in E. eapply Qlt_irrefl, Qlt_trans; eassumption.
    + cbn [In]. rewrite (IH S' a). split.
      * intros [<-|[I|[-> H]]]; [left; left; reflexivity|left; right; exact I|right; split; [reflexivity|]]. intros b [<-|I]; [cbn [fst]; intros C; rewrite C in E; eapply Qlt_irrefl; exact E|apply H, I].
      * intros [[<-|I]|[-> H]]; [left; reflexivity|right; left; exact I|right; right; split; [reflexivity|]]. intros b I. apply H. right. exact I.
Qed.
Lemma insert_new_rising p r l : rising l -> rising (insert_new p r l).
Proof.
  induction l as [|[p' r'] l IH]; intros S; [repeat constructor|]. inversion S as [|? ? S' F]; subst. cbn [insert_new]. destruct (Qcompare_spec p p') as [E|E|E]; [exact S| |].
  - constructor; [exact S|]. constructor; [exact E|]. rewrite Forall_forall in *. intros b I. cbn [fst]. eapply Qlt_trans; [exact E|]. apply (F b I).
  - constructor; [apply IH, S'|]. rewrite Forall_forall in *. intros b I. apply (insert_new_in p r l S') in I. destruct I as [I|[-> _]]; [apply F, I|exact E].
Qed.
Lemma unique_points_spec pr : rising (unique_points pr) /\ (forall p r, In (p, r) (unique_points pr) -> first_with pr p r) /\
  (forall row, In row pr -> exists p r, In (p, r) (unique_points pr) /\ (p == precision_of row)%Q).
Proof.
  unfold unique_points. change (fun (l : list (Q * Q)) (row : list Q) => insert_new (nth 2 row 0%Q) (nth 1 row 0%Q) l) with (fun (l : list (Q * Q)) row => insert_new (precision_of row) (recall_of row) l). assert (G : forall post pre l, rising l -> (forall p r, In (p, r) l -> first_with pre p r) -> (forall row, In row pre -> exists p r, In (p, r) l /\ (p == precision_of row)%Q) ->
    let l' := fold_left (fun l row => insert_new (precision_of row) (recall_of row) l) post l in
    rising l' /\ (forall p r, In (p, r) l' -> first_with (pre ++ post) p r) /\ (forall row, In row (pre ++ post) -> exists p r, In (p, r) l' /\ (p == precision_of row)%Q)).
  { induction post as [|row post IH]; intros pre l S A B; [rewrite app_nil_r; cbn [fold_left]; auto|]. cbn [fold_left]. cbv zeta in *.
    replace (pre ++ row :: post) with ((pre ++ [row]) ++ post) by (rewrite <- app_assoc; reflexivity). apply IH; [apply insert_new_rising, S| |].
    - intros p r I. apply (insert_new_in _ _ l S) in I. destruct I as [I|[E H]].
      + destruct (A p r I) as (a & x & b & -> & P & R & N). exists a, x, (b ++ [row]). split; [rewrite <- app_assoc; reflexivity|]. auto.
      + injection E as -> ->. exists pre, row, []. split; [reflexivity|]. split; [reflexivity|]. split; [reflexivity|]. intros row' I C. destruct (B row' I) as (p & r & I2 & E2). apply (H _ I2). cbn [fst]. rewrite E2. exact C.
    - intros row' I. apply in_app_or in I. destruct I as [I|[<-|[]]].
      + destruct (B row' I) as (p & r & I2 & E2). exists p, r. split; [apply (insert_new_in _ _ l S); left; exact I2|exact E2].
      + destruct (existsb (fun b => Qeq_bool (fst b) (precision_of row)) l) eqn:X.
        * apply existsb_exists in X. destruct X as ([p r] & I2 & E2). apply Qeq_bool_iff in E2. exists p, r. split; [apply (insert_new_in _ _ l S); left; exact I2|exact E2].
        * exists (precision_of row), (recall_of row). split; [|reflexivity]. apply (insert_new_in _ _ l S). right. split; [reflexivity|]. intros b I C.
          assert (Y : existsb (fun b => Qeq_bool (fst b) (precision_of row)) l = true) by (apply existsb_exists; exists b; split; [exact I|apply Qeq_bool_iff, C]). congruence. }
  apply (G pr [] []); [constructor|intros p r []|intros row []].
Qed.
Lemma interpolate_spec x : forall l, rising l -> match l with (p, _) :: _ => (p <= x)%Q | [] => True end ->
  match interpolate x l with
  | None => forall a, In a l -> (fst a < x)%Q
  | Some y => exists x0 y0 x1 y1, In (x0, y0) l /\ In (x1, y1) l /\ (x0 <= x <= x1)%Q /\ (forall a, In a l -> ~ (x0 < fst a < x1)%Q) /\
      ((x0 == x1)%Q /\ (y == y0)%Q \/ (x0 < x1)%Q /\ (y == y0 + (y1 - y0) * ((x - x0) / (x1 - x0)))%Q)
  end.
Proof.
  induction l as [|[x0 y0] l IH]; intros S H; [intros a []|]. cbn [interpolate]. assert (L : Qle_bool x0 x = true) by (apply Qle_bool_iff, H). rewrite L. cbn [negb].
  inversion S as [|? ? S' F]; subst. rewrite Forall_forall in F. destruct l as [|[x1 y1] l].
  - destruct (Qle_bool x x0) eqn:E.
    + apply Qle_bool_iff in E. exists x0, y0, x0, y0. split; [left; reflexivity|]. split; [left; reflexivity|]. split; [split; assumption|]. split; [|left; split; reflexivity].
      intros a _ [A B]. apply (Qlt_irrefl x0). eapply Qlt_trans; eassumption.
    + intros a [<-|[]]. cbn [fst]. apply Qnot_le_lt. intros C. apply Qle_bool_iff in C. congruence.
  - assert (O : (x0 < x1)%Q) by (apply (F (x1, y1)); left; reflexivity). destruct (Qle_bool x x1) eqn:E.
    + apply Qle_bool_iff in E. exists x0, y0, x1, y1. split; [left; reflexivity|]. split; [right; left; reflexivity|]. split; [split; assumption|]. split.
      * intros a [<-|[<-|I]] [A B]; cbn [fst] in *; [apply (Qlt_irrefl _ A)|apply (Qlt_irrefl _ B)|]. inversion S' as [|? ? _ F']; subst. rewrite Forall_forall in F'. specialize (F' a I). cbn [fst] in F'.
        apply (Qlt_irrefl x1). eapply Qlt_trans; eassumption.
      * right. split; [exact O|]. field. lra.
    + assert (X : (x1 < x)%Q) by (apply Qnot_le_lt; intros C; apply Qle_bool_iff in C; congruence). assert (R := IH S' (Qlt_le_weak _ _ X)). destruct (interpolate x ((x1, y1) :: l)) as [y|].
      * destruct R as (a0 & b0 & a1 & b1 & I0 & I1 & B & N & Q). exists a0, b0, a1, b1. split; [right; exact I0|]. split; [right; exact I1|]. split; [exact B|]. split; [|exact Q].
        intros a [<-|I]; [|apply N, I]. cbn [fst]. intros [C _]. specialize (F _ I0). cbn [fst] in F. apply (Qlt_irrefl x0). exact (Qlt_trans _ _ _ F C).
      * intros a [<-|I]; [cbn [fst]; lra|apply R, I].
Qed.
(** *** C55, theorem 1: R50 is the recall of the curve at precision 1/2 (at the smallest precision, if all are
    above 1/2); it is NaN exactly when all precisions are below 1/2. *)
Theorem r50_reads_the_curve : forall pr, pr <> [] -> exists x, read_at pr x /\
  match calc_r50 pr with
  | Ok (Some r) => recall_at pr x r
  | Ok None => forall row, In row pr -> (precision_of row < x)%Q
  | Err _ => False
  end.
Proof.
  intros pr Hne. destruct (unique_points_spec pr) as (S & A & B). unfold calc_r50. destruct (unique_points pr) as [|[p0 r0] l] eqn:E.
  { destruct pr as [|row pr]; [congruence|]. destruct (B row (or_introl eq_refl)) as (p & r & [] & _). }
  set (x := if Qle_bool p0 (1 # 2) then 1 # 2 else p0). exists x.
  assert (Px : (p0 <= x)%Q) by (unfold x; destruct (Qle_bool p0 (1 # 2)) eqn:C; [apply Qle_bool_iff, C|lra]).
  assert (Min : forall row, In row pr -> (p0 <= precision_of row)%Q).
  { intros row I. destruct (B row I) as (p & r & [J|J] & Q); [injection J as <- _; rewrite Q; apply Qle_refl|]. inversion S as [|? ? _ F]; subst. rewrite Forall_forall in F. specialize (F _ J). cbn [fst] in F. lra. }
  destruct (A p0 r0 (or_introl eq_refl)) as (a & row0 & b & Ea & P0 & R0 & _). assert (I0 : In row0 pr) by (rewrite Ea; apply in_or_app; right; left; reflexivity).
  split.
  - unfold x. destruct (Qle_bool p0 (1 # 2)) eqn:C.
    + left. split; [reflexivity|]. exists row0. split; [exact I0|]. rewrite P0. apply Qle_bool_iff, C.
    + right. split; [apply Qnot_le_lt; intros D; apply Qle_bool_iff in D; congruence|]. split; [exists row0; split; [exact I0|exact P0]|exact Min].
  - assert (H := interpolate_spec x ((p0, r0) :: l) S Px). destruct (interpolate x ((p0, r0) :: l)) as [y|].
    + destruct H as (x0 & y0 & x1 & y1 & I1 & I2 & Bd & N & Q). exists x0, y0, x1, y1. split; [apply A, I1|]. split; [apply A, I2|]. split; [exact Bd|]. split; [|exact Q].
      intros row I. destruct (B row I) as (p & r & J & Qp). rewrite <- Qp. apply (N _ J).
    + intros row I. destruct (B row I) as (p & r & J & Qp). rewrite <- Qp. apply (H _ J).
Qed.
Print Assumptions r50_reads_the_curve.
Theorem r50_is_nan : forall pr, calc_r50 pr = Ok None <-> pr <> [] /\ forall row, In row pr -> (precision_of row < 1 # 2)%Q.
Proof.
  intros pr. split.
  - intros E. assert (N : pr <> []) by (intros ->; discriminate E). split; [exact N|]. destruct (r50_reads_the_curve pr N) as (x & R & H). rewrite E in H. intros row I.
    destruct R as [(X & _)|(X & (row' & I' & P) & _)]; [rewrite <- X; apply H, I|]. exfalso. specialize (H row' I'). rewrite P in H. apply (Qlt_irrefl _ H).
  - intros [N H]. destruct (r50_reads_the_curve pr N) as (x & R & K). destruct (calc_r50 pr) as [[r|]|] eqn:E; [|reflexivity|destruct K].
    exfalso. destruct R as [(X & _)|(X & (row' & I' & P) & _)]; [|specialize (H row' I'); rewrite P in H; lra].
    destruct K as (p0 & r0 & p1 & r1 & _ & (a & row & b & Ea & P & _) & [_ B] & _). assert (I : In row pr) by (rewrite Ea; apply in_or_app; right; left; reflexivity). specialize (H row I). rewrite P, <- X in H. lra.
Qed.
Print Assumptions r50_is_nan.
(** The value lies between the recalls of two rows, and is the recall
    of the row when there is one with precision 1/2. *)
Theorem r50_between_recalls : forall pr r, calc_r50 pr = Ok (Some r) -> exists row row', In row pr /\ In row' pr /\ (recall_of row <= r <= recall_of row')%Q.
Proof.
  intros pr r E. assert (N : pr <> []) by (intros ->; discriminate E). destruct (r50_reads_the_curve pr N) as (x & _ & H). rewrite E in H.
  destruct H as (p0 & r0 & p1 & r1 & (a & row & b & Ea & _ & R0 & _) & (a' & row' & b' & Ea' & _ & R1 & _) & [B1 B2] & _ & Q).
  assert (I : In row pr) by (rewrite Ea; apply in_or_app; right; left; reflexivity). assert (I' : In row' pr) by (rewrite Ea'; apply in_or_app; right; left; reflexivity).
  destruct Q as [(_ & Q)|(L & Q)]; [exists row, row; split; [exact I|]; split; [exact I|]; rewrite Q, R0; split; apply Qle_refl|].
  set (t := ((x - p0) / (p1 - p0))%Q) in *. assert (T : (0 <= t <= 1)%Q).
  { unfold t. split; [apply Qle_shift_div_l; lra|apply Qle_shift_div_r; lra]. }
  clearbody t. destruct (Qlt_le_dec r0 r1) as [C|C].
  - exists row, row'. split; [exact I|]. split; [exact I'|]. rewrite Q, R0, R1. split; nra.
  - exists row', row. split; [exact I'|]. split; [exact I|]. rewrite Q, R0, R1. split; nra.
Qed.
Print Assumptions r50_between_recalls.
Theorem r50_of_a_row : forall pr r, first_with pr (1 # 2) r -> exists v, calc_r50 pr = Ok (Some v) /\ (v == r)%Q.
Proof.
  intros pr r (a & row & b & Ea & P & R & F). assert (I : In row pr) by (rewrite Ea; apply in_or_app; right; left; reflexivity). assert (N : pr <> []) by (intros ->; destruct I).
  destruct (r50_reads_the_curve pr N) as (x & X & H).
  assert (Ex : (x == 1 # 2)%Q) by (destruct X as [(X & _)|(X & _ & M)]; [exact X|specialize (M row I); rewrite P in M; lra]).
  destruct (calc_r50 pr) as [[v|]|] eqn:E; [|specialize (H row I); rewrite P, Ex in H; lra|destruct H]. exists v. split; [reflexivity|].
  destruct H as (p0 & r0 & p1 & r1 & F0 & F1 & [B0 B1] & M & Q). rewrite Ex in B0, B1. assert (M' := M row I). rewrite P in M'.
  assert (U : forall p q, first_with pr p q -> (p == 1 # 2)%Q -> q = r).
  { intros p q (a' & row' & b' & Ea' & P' & R' & F') Ep. assert (Z : row' = row); [|congruence]. rewrite Ea in Ea'. clear - Ea' P P' F F' Ep.
    revert a' Ea' F'. induction a as [|y a IH]; intros [|z a'] Ea' F'.
    - injection Ea' as -> _. reflexivity.
    - injection Ea' as -> _. exfalso. apply (F' z (or_introl eq_refl)). rewrite P, Ep. reflexivity.
    - injection Ea' as -> _. exfalso. apply (F row' (or_introl eq_refl)). rewrite P', Ep. reflexivity.
    - injection Ea' as -> Ea'. apply (IH (fun u J => F u (or_intror J)) a' Ea' (fun u J => F' u (or_intror J))). }
  assert (C : (p0 == 1 # 2)%Q \/ (p1 == 1 # 2)%Q).
  { destruct (Qlt_le_dec p0 (1 # 2)) as [C|C]; [|left; lra]. right. destruct (Qlt_le_dec (1 # 2) p1) as [D|D]; [exfalso; apply M'; split; assumption|lra]. }
  destruct Q as [(E1 & Q)|(L & Q)].
  - rewrite Q, (U p0 r0 F0); [reflexivity|]. destruct C as [C|C]; [exact C|rewrite E1; exact C].
  - destruct C as [C|C].
    + rewrite (U p0 r0 F0 C) in Q. rewrite Q, Ex, C. setoid_replace (((1 # 2) - (1 # 2)) / (p1 - (1 # 2)))%Q with 0%Q by (field; rewrite C in L; lra). ring.
    + rewrite (U p1 r1 F1 C) in Q. rewrite Q, Ex, C. field. rewrite C in L. lra.
Qed.
Print Assumptions r50_of_a_row.

(** *** the order *)
Lemma insert_by_perm {A} (key : A -> Q) x l : Permutation (insert_by key x l) (x :: l).
Proof. induction l as [|y l IH]; [reflexivity|]. cbn [insert_by]. destruct (Qle_bool (key x) (key y)); [reflexivity|]. rewrite IH. apply perm_swap. Qed.
Lemma sort_perm {A} (key : A -> Q) l : Permutation (fold_right (insert_by key) [] l) l.
Proof. induction l as [|x l IH]; [reflexivity|]. cbn [fold_right]. rewrite insert_by_perm, IH. reflexivity. Qed.
Lemma insert_by_sorted {A} (key : A -> Q) x l : StronglySorted (fun a b => (key a <= key b)%Q) l -> StronglySorted (fun a b => (key a <= key b)%Q) (insert_by key x l).
Proof.
  induction 1 as [|y l S IH F]; [repeat constructor|]. cbn [insert_by]. destruct (Qle_bool (key x) (key y)) eqn:E.
  - apply Qle_bool_iff in E. constructor; [constructor; assumption|]. constructor; [exact E|]. eapply Forall_impl; [|exact F]. intros z Hz. eapply Qle_trans; eassumption.
  - constructor; [exact IH|]. apply Forall_forall. intros z I. apply (Permutation_in _ (insert_by_perm key x l)) in I. destruct I as [<-|I]; [|rewrite Forall_forall in F; apply F, I].
    apply Qlt_le_weak, Qnot_le_lt. intros C. apply Qle_bool_iff in C. congruence.
Qed.
Lemma best_first_spec {A} (key : A -> Q) l : Permutation (best_first key l) l /\ descending key (best_first key l).
Proof.
  unfold best_first. split; [rewrite <- Permutation_rev; apply sort_perm|].
  assert (S : StronglySorted (fun a b => (key a <= key b)%Q) (fold_right (insert_by key) [] l)) by (induction l as [|x l IH]; [constructor|apply insert_by_sorted, IH]).
  set (m := fold_right _ _ _) in *. clearbody m. clear l. induction S as [|x l S IH F]; [exact I|]. cbn [rev]. rewrite Forall_forall in F.
  assert (G : forall l', descending key l' -> (forall y, In y l' -> (key x <= key y)%Q) -> descending key (l' ++ [x])).
  { induction l' as [|y l' IHl]; intros D H; [split; [intros y []|exact I]|]. destruct D as [D1 D2]. cbn [app descending]. split; [|apply IHl; [exact D2|intros z J; apply H; right; exact J]].
    intros z J. apply in_app_or in J. destruct J as [J|[<-|[]]]; [apply D1, J|apply H; left; reflexivity]. }
  apply G; [exact IH|]. intros y J. apply F. apply in_rev. exact J.
Qed.

(** *** loading *)
Definition curve_loaded (s : fs) (a : algorithm) (c : curve) : Prop :=
  exists pr o, table_of s a pr /\ load_overall_row s (al_overall a) = Ok (map Fin o) /\
    cv_points c = map (fun r => (recall_of r, precision_of r)) pr /\
    cv_ods c = nth 3 o 0%Q /\ cv_ois c = nth 6 o 0%Q /\ cv_ap c = nth 7 o 0%Q /\ calc_r50 pr = Ok (cv_r50 c).
Lemma calc_r50_of pr v : calc_r50 pr = Ok v -> r50_of pr v.
Proof. intros E. assert (N : pr <> []) by (intros ->; discriminate E). destruct (r50_reads_the_curve pr N) as (x & R & H). rewrite E in H. exists x. split; assumption. Qed.
Lemma curve_loaded_of s a c : curve_loaded s a c -> curve_of s a c.
Proof. intros (pr & o & T & O & A & B & C & D & E). exists pr, o. apply calc_r50_of in E. repeat split; assumption. Qed.
Lemma all_some_spec {A} (l : list (option A)) m : all_some l = Some m <-> l = map Some m.
Proof.
  revert m. induction l as [|a l IH]; intros m; cbn [all_some].
  - split; [intros E; injection E as <-; reflexivity|]. destruct m; [reflexivity|discriminate].
  - destruct a as [a|]; [|split; [discriminate|destruct m; discriminate]]. destruct (all_some l) as [k|] eqn:E.
    + split; [intros H; injection H as <-; cbn [map]; f_equal; apply IH; reflexivity|]. destruct m as [|b m]; [discriminate|]. cbn [map]. intros H. injection H as -> H. apply IH in H. congruence.
    + split; [discriminate|]. destruct m as [|b m]; [discriminate|]. cbn [map]. intros H. injection H as -> H. apply IH in H. discriminate.
Qed.
Lemma finite_row r q : map finite r = map Some q <-> r = map Fin q.
Proof.
  revert q. induction r as [|v r IH]; intros [|a q]; cbn [map]; try (split; [discriminate|discriminate]); [split; reflexivity|]. split.
  - intros E. injection E as E1 E2. destruct v; try discriminate. injection E1 as ->. f_equal. apply IH, E2.
  - intros E. injection E as -> E. cbn [finite]. f_equal. apply IH, E.
Qed.
Lemma finite_rows rs qs : map (fun r => all_some (map finite r)) rs = map Some qs <-> rs = map (map Fin) qs.
Proof.
  revert qs. induction rs as [|r rs IH]; intros [|q qs]; cbn [map]; try (split; [discriminate|discriminate]); [split; reflexivity|]. split.
  - intros E. injection E as E1 E2. apply all_some_spec, finite_row in E1. f_equal; [exact E1|apply IH, E2].
  - intros E. injection E as E1 E2. f_equal; [apply all_some_spec, finite_row, E1|apply IH, E2].
Qed.
Lemma load_curve_ok s a pr c : load_curve s a = Some (Ok (pr, c)) <-> table_of s a pr /\ curve_loaded s a c /\ (forall o, load_overall_row s (al_overall a) = Ok (map Fin o) ->
    c = mkCurve (map (fun r => (recall_of r, precision_of r)) pr) (nth 3 o 0%Q) (nth 6 o 0%Q) (nth 7 o 0%Q) (cv_r50 c)) /\ Forall (fun r => (3 <= List.length r)%nat) pr.
Proof.
  unfold load_curve, table_of, curve_loaded, table_of. change (fun r : list Q => (nth 1 r 0%Q, nth 2 r 0%Q)) with (fun r : list Q => (recall_of r, precision_of r)). split.
  - destruct (load_threshold_data s (al_threshold a)) as [rows|e] eqn:E1; [|discriminate]. destruct (load_overall_row s (al_overall a)) as [o|e] eqn:E2; [|discriminate].
    destruct (all_some (map (fun r => all_some (map finite r)) rows)) as [qs|] eqn:E3; [|discriminate]. destruct (all_some (map finite o)) as [oq|] eqn:E4; [|discriminate].
    apply all_some_spec, finite_rows in E3. apply all_some_spec, finite_row in E4. destruct (forallb (fun r => Nat.ltb 2 (List.length r)) qs) eqn:L; [|discriminate]. cbn [negb].
    destruct (calc_r50 qs) as [r50|] eqn:E5; [|discriminate]. cbn [bind]. intros H. injection H as <- <-. subst rows o. split; [reflexivity|]. split; [|split].
    + exists qs, oq. repeat split; try reflexivity. exact E5.
    + intros o H. injection H as H. assert (X : oq = o). { clear - H. revert o H. induction oq as [|x l IH]; intros [|y o] H; try discriminate; [reflexivity|]. injection H as -> H. f_equal. apply IH, H. } subst o. reflexivity.
    + apply Forall_forall. intros r I. rewrite forallb_forall in L. specialize (L r I). apply Nat.ltb_lt in L. lia.
  - intros (T & (pr' & o & T' & O & C1 & C2 & C3 & C4 & C5) & _ & F). rewrite T, O. rewrite T in T'. injection T' as T'.
    assert (X : pr = pr'). { assert (Y := proj2 (finite_rows (map (map Fin) pr) pr) eq_refl). rewrite T' in Y at 1. assert (Z := proj2 (finite_rows (map (map Fin) pr') pr') eq_refl). rewrite Y in Z. clear - Z. revert pr' Z. induction pr as [|x l IH]; intros [|y l'] Z; try discriminate; [reflexivity|]. injection Z as -> Z. f_equal. apply IH, Z. }
    subst pr'. rewrite (proj2 (all_some_spec _ pr) (proj2 (finite_rows _ pr) eq_refl)), (proj2 (all_some_spec _ o) (proj2 (finite_row _ o) eq_refl)).
    replace (forallb (fun r => Nat.ltb 2 (List.length r)) pr) with true; [|symmetry; apply forallb_forall; intros r I; rewrite Forall_forall in F; specialize (F r I); apply Nat.ltb_lt; lia].
    cbn [negb]. rewrite C5. cbn [bind]. destruct c as [c1 c2 c3 c4 c5]. cbn [cv_points cv_ods cv_ois cv_ap cv_r50] in *. subst. reflexivity.
Qed.
Lemma load_curves_ok s algs cs : load_curves s algs = Some (Ok cs) <-> Forall2 (fun a c => load_curve s a = Some (Ok c)) algs cs.
Proof.
  revert cs. induction algs as [|a l IH]; intros cs; cbn [load_curves].
  - split; [intros E; injection E as <-; constructor|intros F; inversion F; reflexivity].
  - destruct (load_curve s a) as [[c|e]|] eqn:E; [|split; [discriminate|intros F; inversion F; congruence]|split; [discriminate|intros F; inversion F; congruence]].
    destruct (load_curves s l) as [[k|e]|] eqn:E2.
    + split; [intros H; injection H as <-; constructor; [exact E|apply IH; reflexivity]|]. intros F. inversion F as [|? c' ? cs' H1 H2]; subst. apply IH in H2. congruence.
    + split; [discriminate|]. intros F. inversion F as [|? c' ? cs' H1 H2]; subst. apply IH in H2. discriminate.
    + split; [discriminate|]. intros F. inversion F as [|? c' ? cs' H1 H2]; subst. apply IH in H2. discriminate.
Qed.

(** *** printing *)
Lemma fixed_form n v : (1 <= n)%nat -> let neg := negb (Qle_bool 0 v) in let k := round_half_even ((if neg then - v else v) * inject_Z (10 ^ Z.of_nat n))%Q in
  exists ip fp, fixed n v = (if neg then ["-"%char] else []) ++ map digit_char ip ++ "."%char :: map digit_char fp /\
    is_digits ip /\ ip <> [] /\ is_digits fp /\ List.length fp = n /\ undigits ip = k / 10 ^ Z.of_nat n /\ undigits fp = k mod 10 ^ Z.of_nat n /\ 0 <= k.
Proof.
  intros Hn neg k. assert (T : 0 < 10 ^ Z.of_nat n) by (apply Z.pow_pos_nonneg; lia).
  assert (K : 0 <= k). { apply round_nonneg. apply Qmult_le_0_compat; [|change 0%Q with (inject_Z 0); rewrite <- Zle_Qle; lia]. unfold neg. destruct (Qle_bool 0 v) eqn:E; cbn [negb]; [apply Qle_bool_iff, E|].
    assert (X : (v < 0)%Q) by (apply Qnot_le_lt; intros C; apply Qle_bool_iff in C; congruence). lra. }
  assert (D : 0 <= k / 10 ^ Z.of_nat n) by (apply Z.div_pos; lia). assert (M := Z.mod_pos_bound k (10 ^ Z.of_nat n) T).
  exists (digits (k / 10 ^ Z.of_nat n)), (zfill n (digits (k mod 10 ^ Z.of_nat n))). split; [reflexivity|]. split; [apply digits_are_digits, D|]. split; [apply digits_nonempty, D|].
  split; [apply zfill_digits, digits_are_digits; lia|]. split; [rewrite zfill_length; assert (U := digits_length_upper n (k mod 10 ^ Z.of_nat n) M Hn); lia|].
  split; [apply undigits_digits, D|]. split; [rewrite undigits_zfill; apply undigits_digits; lia|exact K].
Qed.
Lemma ten_to_nat n : ten_to (Z.of_nat n) = inject_Z (10 ^ Z.of_nat n).
Proof. unfold ten_to. destruct (Z.ltb_spec (Z.of_nat n) 0); [lia|reflexivity]. Qed.
Lemma rounded_spec k n w : 0 < 10 ^ n -> (Qabs (inject_Z k - w * inject_Z (10 ^ n)) <= 1 # 2)%Q -> (Qabs (inject_Z k / inject_Z (10 ^ n) - w) <= 1 / (2 * inject_Z (10 ^ n)))%Q.
Proof.
  intros T H. assert (P : (0 < inject_Z (10 ^ n))%Q) by (change 0%Q with (inject_Z 0); rewrite <- Zlt_Qlt; exact T). set (t := inject_Z (10 ^ n)) in *. clearbody t.
  apply Qabs_Qle_condition in H. destruct H as [H1 H2]. apply Qabs_Qle_condition.
  setoid_replace (inject_Z k / t - w)%Q with ((inject_Z k - w * t) / t)%Q by (field; lra). setoid_replace (1 / (2 * t))%Q with ((1 # 2) / t)%Q by (field; lra).
  split; [setoid_replace (- ((1 # 2) / t))%Q with ((- (1 # 2)) / t)%Q by (field; lra)|]; (apply Qmult_le_compat_r; [lra|apply Qlt_le_weak, Qinv_lt_0_compat, P]).
Qed.
(** *** C55, theorem 3: a number is printed with the stated number of decimals, rounded to the nearest. *)
Theorem fixed_prints : forall n v, (1 <= n)%nat -> prints n v (fixed n v).
Proof.
  intros n v Hn. destruct (fixed_form n v Hn) as (ip & fp & E & D1 & N1 & D2 & L2 & U1 & U2 & K). set (neg := negb (Qle_bool 0 v)) in *. set (w := (if neg then - v else v)%Q) in *.
  set (k := round_half_even (w * inject_Z (10 ^ Z.of_nat n))%Q) in *. assert (T : 0 < 10 ^ Z.of_nat n) by (apply Z.pow_pos_nonneg; lia).
  assert (R := round_spec (w * inject_Z (10 ^ Z.of_nat n))%Q). fold k in R. apply rounded_spec in R; [|exact T].
  split; [exists neg, ip, fp; auto|].
  assert (F : float_text (fixed n v) (Fin (if neg then - (inject_Z k / inject_Z (10 ^ Z.of_nat n)) else inject_Z k / inject_Z (10 ^ Z.of_nat n))%Q)).
  { exists [], (if neg then Some true else None), (map digit_char ip ++ "."%char :: map digit_char fp), []. split; [constructor|]. split; [constructor|]. split; [rewrite E; destruct neg; cbn [sign_text app]; rewrite app_nil_r; reflexivity|].
    exists (inject_Z k / inject_Z (10 ^ Z.of_nat n))%Q. split; [|destruct neg; reflexivity].
    exists [ip], [fp], ["."%char], [], 0. split; [repeat constructor; assumption|]. split; [repeat constructor; [exact D2|intros ->; cbn in L2; lia]|]. split; [discriminate|]. split; [left; split; reflexivity|]. split; [right; reflexivity|].
    split; [cbn [groups_text map join_with app]; rewrite app_nil_r; reflexivity|]. cbn [List.concat]. rewrite !app_nil_r, L2, ten_to_nat, U1, U2. change (ten_to 0) with 1%Q.
    rewrite (Z.div_mod k (10 ^ Z.of_nat n)) at 1 by lia. rewrite inject_Z_plus, inject_Z_mult. field. change 0%Q with (inject_Z 0). intros C. apply (proj1 (inject_Z_injective _ _)) in C. lia. }
  apply float_literals in F. destruct F as ([r| |] & Ep & S); try contradiction. cbn [same_float] in S. exists r. split; [exact Ep|].
  exists (if neg then - k else k). unfold w in R. destruct neg; rewrite S.
  - rewrite inject_Z_opp. split; [unfold Qdiv; ring|]. rewrite <- Qabs_opp. setoid_replace (- (- (inject_Z k / inject_Z (10 ^ Z.of_nat n)) - v))%Q with (inject_Z k / inject_Z (10 ^ Z.of_nat n) - - v)%Q by ring. exact R.
  - split; [reflexivity|exact R].
Qed.
Print Assumptions fixed_prints.
Lemma printed_line_of name c : line_of name c (printed_line name c).
Proof.
  exists (fixed 3 (cv_ods c)), (fixed 3 (cv_ois c)), (fixed 3 (cv_ap c)), (fixed_or_nan 3 (cv_r50 c)). assert (P : (1 <= 3)%nat) by lia. split; [apply fixed_prints, P|]. split; [apply fixed_prints, P|]. split; [apply fixed_prints, P|].
  split; [destruct (cv_r50 c); [apply fixed_prints, P|reflexivity]|reflexivity].
Qed.
Lemma legend_entry_of name c : entry_of name c (legend_entry name c).
Proof. exists (fixed 2 (cv_ods c)). split; [apply fixed_prints; lia|reflexivity]. Qed.
Lemma Forall2_map_self {A B} (P : A -> B -> Prop) f (l : list A) : (forall x, P x (f x)) -> Forall2 P l (map f l).
Proof. intros H. induction l; constructor; auto. Qed.

(** *** C55, theorem 2: a successful plot shows, best ODS first, one curve per algorithm, the one of its files,
    under its name; the lines are printed in the reverse order; the legend lists the curves in order (after
    the human performance, if asked for). *)
Theorem plot_shows : forall s human algs names l lines legend, plot s human algs names = Some (Ok (l, lines, legend)) ->
  exists used curves, used = (match names with Some n => n | None => map al_name algs end) /\ List.length used = List.length algs /\
    Forall2 (curve_of s) algs curves /\ Permutation l (combine used curves) /\ descending (fun nc => cv_ods (snd nc)) l /\
    Forall2 (fun nc => line_of (fst nc) (snd nc)) (rev l) lines /\
    exists entries, legend = (if human then [lit "[F=.80] Human"] else []) ++ entries /\ Forall2 (fun nc => entry_of (fst nc) (snd nc)) l entries.
Proof.
  intros s human algs names l lines legend E. unfold plot in E. destruct algs as [|a0 algs0] eqn:Ea; [discriminate|]. rewrite <- Ea in *. clear Ea a0 algs0.
  set (used := match names with Some n => n | None => map al_name algs end).
  assert (U : match names with None => Ok (map al_name algs) | Some l => if Nat.eqb (List.length l) (List.length algs) then Ok l else Err AssertionError end = Ok used /\ List.length used = List.length algs
    \/ exists e, match names with None => Ok (map al_name algs) | Some l => if Nat.eqb (List.length l) (List.length algs) then Ok l else Err AssertionError end = Err e).
  { unfold used. destruct names as [n|]; [|left; split; [reflexivity|apply map_length]]. destruct (Nat.eqb_spec (List.length n) (List.length algs)) as [L|]; [left; split; [reflexivity|exact L]|right; eauto]. }
  destruct U as [[U L]|(e & U)]; rewrite U in E; [|discriminate]. destruct (load_curves s algs) as [[cs|e]|] eqn:Ec; try discriminate. destruct (stackable (map fst cs)); [|discriminate]. cbn [negb] in E.
  set (m := best_first (fun nc : text * curve => cv_ods (snd nc)) (combine used (map snd cs))) in *. cbv zeta in E. injection E as <- <- <-.
  exists used, (map snd cs). split; [reflexivity|]. split; [exact L|]. apply load_curves_ok in Ec. split.
  - clear - Ec. induction Ec as [|a [pr c] algs cs H F IH]; [constructor|]. cbn [map snd]. constructor; [|exact IH]. apply load_curve_ok in H. apply curve_loaded_of, H.
  - destruct (best_first_spec (fun nc : text * curve => cv_ods (snd nc)) (combine used (map snd cs))) as [P D]. split; [exact P|]. split; [exact D|]. split; [rewrite <- map_rev; apply Forall2_map_self; intros nc; apply printed_line_of|]. eexists. split; [reflexivity|]. apply Forall2_map_self. intros nc. apply legend_entry_of.
Qed.
Print Assumptions plot_shows.
(** It succeeds when all tables have the same size. *)
Lemma plottable_loads s a n m : plottable s a n m -> exists pr c, load_curve s a = Some (Ok (pr, c)) /\ shape pr = (n, m).
Proof.
  intros (pr & o & T & L & F & Hn & Hm & O). assert (N : pr <> []) by (destruct pr; [cbn in L; lia|discriminate]).
  destruct (r50_reads_the_curve pr N) as (x & _ & H). destruct (calc_r50 pr) as [r50|] eqn:E; [|destruct H].
  exists pr, (mkCurve (map (fun r => (recall_of r, precision_of r)) pr) (nth 3 o 0%Q) (nth 6 o 0%Q) (nth 7 o 0%Q) r50). split.
  - apply load_curve_ok. split; [exact T|]. split; [exists pr, o; repeat split; auto|]. split.
    + intros o' O'. rewrite O in O'. injection O' as O'. assert (X : o = o'). { clear - O'. revert o' O'. induction o as [|x l IH]; intros [|y o'] H; try discriminate; [reflexivity|]. injection H as -> H. f_equal. apply IH, H. } subst o'. reflexivity.
    + eapply Forall_impl; [|exact F]. intros r Hr. cbv beta in Hr. lia.
  - unfold shape. destruct pr as [|r pr]; [congruence|]. inversion F; subst. reflexivity.
Qed.
Lemma plottable_all s algs n m : Forall (fun a => plottable s a n m) algs -> exists cs, load_curves s algs = Some (Ok cs) /\ Forall (fun c => shape (fst c) = (n, m)) cs /\ List.length cs = List.length algs.
Proof.
  intros F. assert (X : exists cs, Forall2 (fun a c => load_curve s a = Some (Ok c)) algs cs /\ Forall (fun c => shape (fst c) = (n, m)) cs /\ List.length cs = List.length algs).
  { induction F as [|a l P F (cs & A & B & C)]; [exists []; repeat split; constructor|]. destruct (plottable_loads s a n m P) as (pr & c & E & S). exists ((pr, c) :: cs). split; [constructor; assumption|]. split; [constructor; assumption|cbn; congruence]. }
  destruct X as (cs & A & B & C). exists cs. split; [apply load_curves_ok, A|auto].
Qed.
Theorem plot_succeeds : forall s human algs names n m, algs <> [] -> (match names with Some l => List.length l = List.length algs | None => True end) ->
  Forall (fun a => plottable s a n m) algs -> exists shown_, plot s human algs names = Some (Ok shown_).
Proof.
  intros s human algs names n m N Hn F. destruct (plottable_all s algs n m F) as (cs & E & S & L). unfold plot. destruct algs as [|a algs]; [congruence|].
  assert (St : stackable (map fst cs) = true).
  { destruct cs as [|[pr c] cs]; [discriminate|]. cbn [map fst stackable]. inversion S as [|? ? S1 S2]; subst. cbn [fst] in S1. rewrite S1. apply forallb_forall. intros b I. apply in_map_iff in I. destruct I as (c' & <- & I).
    rewrite Forall_forall in S2. rewrite (S2 c' I). cbn [fst snd]. rewrite !Nat.eqb_refl. reflexivity. }
  destruct names as [l|]; [apply Nat.eqb_eq in Hn; rewrite Hn|]; rewrite E, St; cbn [negb]; eexists; reflexivity.
Qed.
Print Assumptions plot_succeeds.
(** Two algorithms with different numbers of plotted thresholds cannot be drawn together. *)
Theorem different_table_sizes_fail : forall s human algs names a b na nb ma mb, In a algs -> In b algs ->
  (match names with Some l => List.length l = List.length algs | None => True end) ->
  Forall (fun c => exists n m, plottable s c n m) algs -> plottable s a na ma -> plottable s b nb mb -> na <> nb ->
  plot s human algs names = Some (Err ValueError).
Proof.
  intros s human algs names a b na nb ma mb Ia Ib Hn F Pa Pb D.
  assert (X : exists cs, Forall2 (fun a c => load_curve s a = Some (Ok c)) algs cs).
  { clear - F. induction F as [|c l (n & m & P) F (cs & A)]; [exists []; constructor|]. destruct (plottable_loads s c n m P) as (pr & k & E & _). eexists. constructor; eassumption. }
  destruct X as (cs & A). unfold plot. destruct algs as [|a0 algs0] eqn:Ea; [destruct Ia|]. rewrite <- Ea in *. assert (E := proj2 (load_curves_ok s algs cs) A).
  assert (G : forall z n m, In z algs -> plottable s z n m -> exists c, In c cs /\ shape (fst c) = (n, m)).
  { intros z n m I P. destruct (plottable_loads s z n m P) as (pr & c & Ez & Sz). clear - A I Ez Sz. induction A as [|x y l cs H A IH]; [destruct I|]. destruct I as [->|I]; [exists y; split; [left; reflexivity|]; rewrite Ez in H; injection H as <-; exact Sz|].
    destruct (IH I) as (c' & I' & S'). exists c'. split; [right; exact I'|exact S']. }
  destruct (G a na ma Ia Pa) as (ca & Ja & Sa). destruct (G b nb mb Ib Pb) as (cb & Jb & Sb).
  assert (St : stackable (map fst cs) = false).
  { destruct (stackable (map fst cs)) eqn:St; [|reflexivity]. exfalso. destruct cs as [|c0 cs]; [destruct Ja|]. cbn [map stackable] in St. rewrite forallb_forall in St.
    assert (K : forall c, In c (c0 :: cs) -> fst (shape (fst c)) = fst (shape (fst c0))).
    { intros c [<-|I]; [reflexivity|]. specialize (St (fst c) (in_map _ _ _ I)). apply andb_prop in St. apply Nat.eqb_eq, St. }
    assert (K1 := K _ Ja). assert (K2 := K _ Jb). rewrite Sa in K1. rewrite Sb in K2. cbn [fst] in K1, K2. congruence. }
  destruct names as [l|]; [apply Nat.eqb_eq in Hn; rewrite Hn|]; rewrite E, St; reflexivity.
Qed.
Print Assumptions different_table_sizes_fail.

(** *** Two algorithms with two thresholds each; the second is better. *)
Definition ex_plot_files : fs := fun p =>
  if text_eqb p (lit "a/thr.txt") then Some (lit "0.1 0.8 0.25 0.4" ++ [LF] ++ lit "0.9 0.4 0.75 0.5" ++ [LF])
  else if text_eqb p (lit "b/thr.txt") then Some (lit "0.1 0.9 0.6 0.7" ++ [LF] ++ lit "0.5 0.0001 1 0" ++ [LF] ++ lit "0.9 0.5 0.9 0.6" ++ [LF])
  else if text_eqb p (lit "a/all.txt") then Some (lit "0.9 0.4 0.75 0.5217 0.4 0.75 0.5217 0.45")
  else if text_eqb p (lit "b/all.txt") then Some (lit "0.1 0.9 0.6 0.72 0.9 0.6 0.72 0.66")
  else None.
Definition ex_algs : list algorithm := [mkAlg (lit "A") (lit "a/thr.txt") (lit "a/all.txt"); mkAlg (lit "B") (lit "b/thr.txt") (lit "b/all.txt")].
Example ex_plot : exists l, plot ex_plot_files true ex_algs None = Some (Ok (l,
  [lit "ODS=0.522, OIS=0.522, AP=0.450, R50=0.600 - A"; lit "ODS=0.720, OIS=0.720, AP=0.660, R50=0.900 - B"],
  [lit "[F=.80] Human"; lit "[F=0.72] B"; lit "[F=0.52] A"])).
Proof. eexists. vm_compute. reflexivity. Qed.
Example ex_plottable : Forall (fun a => plottable ex_plot_files a 2 4) ex_algs.
Proof.
  constructor; [|constructor; [|constructor]]; unfold plottable, table_of.
  - exists [[1 # 10; 8 # 10; 25 # 100; 4 # 10]; [9 # 10; 4 # 10; 75 # 100; 5 # 10]]%Q. exists [9 # 10; 4 # 10; 75 # 100; 5217 # 10000; 4 # 10; 75 # 100; 5217 # 10000; 45 # 100]%Q.
    split; [vm_compute; reflexivity|]. split; [reflexivity|]. split; [repeat constructor|]. split; [lia|]. split; [lia|vm_compute; reflexivity].
  - exists [[1 # 10; 9 # 10; 6 # 10; 7 # 10]; [9 # 10; 5 # 10; 9 # 10; 6 # 10]]%Q. exists [1 # 10; 9 # 10; 6 # 10; 72 # 100; 9 # 10; 6 # 10; 72 # 100; 66 # 100]%Q.
    split; [vm_compute; reflexivity|]. split; [reflexivity|]. split; [repeat constructor|]. split; [lia|]. split; [lia|vm_compute; reflexivity].
Qed.
Example ex_r50_nan : calc_r50 [[1 # 2; 1 # 2; 1 # 4]]%Q = Ok None /\ first_with [[1 # 10; 3 # 4; 1 # 2]; [1 # 5; 1 # 8; 1 # 2]]%Q (1 # 2) (3 # 4).
Proof. split; [vm_compute; reflexivity|]. exists [], [1 # 10; 3 # 4; 1 # 2]%Q, [[1 # 5; 1 # 8; 1 # 2]]%Q. split; [reflexivity|]. split; [reflexivity|]. split; [reflexivity|intros r []]. Qed.
(** One more kept row in one of the files and nothing can be plotted. *)
Example ex_not_stackable : plot (fun p => if text_eqb p (lit "b/thr.txt") then Some (lit "0.1 0.9 0.6 0.7" ++ [LF] ++ lit "0.5 0.6 0.7 0" ++ [LF] ++ lit "0.9 0.5 0.9 0.6" ++ [LF]) else ex_plot_files p)
  true ex_algs None = Some (Err ValueError).
Proof. vm_compute. reflexivity. Qed.
