(** Proofs: matchEdgeMaps is total; small maps are matched completely. *)
From Verif Require Export ProofsMatch3.
From Coq Require Import Lqa Permutation.
Open Scope Z_scope.
Open Scope list_scope.

Lemma zsum_app a b : zsum (a ++ b) = zsum a + zsum b.
Proof. induction a as [|x a IH]; [reflexivity|]. cbn [app zsum fold_right] in *. fold (zsum (a ++ b)). fold (zsum a). rewrite IH. ring. Qed.
Lemma zsum_update (f f' : nat -> Z) l i : NoDup l -> In i l -> (forall v, v <> i -> f v = f' v) ->
  zsum (map f l) - f i = zsum (map f' l) - f' i.
Proof.
  intros D I H. induction l as [|a l IH]; [destruct I|]. apply NoDup_cons_iff in D. destruct D as [Da D].
  cbn [map zsum fold_right] in *. fold (zsum (map f l)) (zsum (map f' l)) in *. destruct I as [->|I].
  - assert (E : map f l = map f' l) by (apply map_ext_in; intros b Hb; apply H; intros ->; contradiction). rewrite E. ring.
  - rewrite (H a) by (intros ->; contradiction). specialize (IH D I). lia.
Qed.
Lemma zsum_ge (f : nat -> Z) c l : (forall v, In v l -> c <= f v) -> c * Z.of_nat (length l) <= zsum (map f l).
Proof.
  induction l as [|a l IH]; intros H; [cbn; lia|]. cbn [map length zsum fold_right]. fold (zsum (map f l)).
  specialize (IH (fun v Hv => H v (or_intror Hv))). assert (X := H a (or_introl eq_refl)). lia.
Qed.
Lemma zsum_nonneg_zero (f : nat -> Z) l : (forall v, In v l -> 0 <= f v) -> zsum (map f l) <= 0 -> forall v, In v l -> f v = 0.
Proof.
  induction l as [|a l IH]; intros H S v I; [destruct I|]. cbn [map zsum fold_right] in S. fold (zsum (map f l)) in S.
  assert (X := H a (or_introl eq_refl)). assert (Y := zsum_ge f 0 l (fun v Hv => H v (or_intror Hv))).
  destruct I as [<-|I]; [lia|]. apply IH; [intros u Hu; apply H; right; exact Hu|lia|exact I].
Qed.

(** A list as the table of its entries. *)
Lemma list_as_table {A} (d : A) l : l = map (fun v => nth v l d) (seq 0 (length l)).
Proof. symmetry. apply map_nth_seq. Qed.

Lemma weight_zero d : 0 <= d -> weight d = 0 -> d = 0.
Proof.
  intros P H. destruct (Z.eq_dec d 0) as [E|N]; [exact E|]. exfalso. unfold weight, rint_sqrt, multiplier in H. cbn zeta in H.
  assert (100 <= Z.sqrt (d * (100 * 100))) by (apply Z.sqrt_le_square; lia).
  destruct (_ <? _); lia.
Qed.
Lemma dist2_nonneg p q : 0 <= dist2 p q.
Proof. unfold dist2. assert (A := Z.square_nonneg (fst p - fst q)). assert (B := Z.square_nonneg (snd p - snd q)). lia. Qed.
Lemma dist2_zero p q : dist2 p q = 0 -> p = q.
Proof.
  unfold dist2. intros H. assert (A := Z.square_nonneg (fst p - fst q)). assert (B := Z.square_nonneg (snd p - snd q)).
  destruct p as [a b], q as [c d]. cbn [fst snd] in *. f_equal; nia.
Qed.
Lemma dist2_self p : dist2 p p = 0. Proof. unfold dist2. ring. Qed.
Lemma rint_sqrt_upper n : 0 <= n -> 1 <= rint_sqrt n -> (2 * rint_sqrt n - 1) * (2 * rint_sqrt n - 1) <= 4 * n.
Proof.
  intros N. unfold rint_sqrt. cbn zeta. assert (S := Z.sqrt_spec n N). assert (P := Z.sqrt_nonneg n).
  set (s := Z.sqrt n) in *. clearbody s. destruct S as [S _]. destruct (Z.ltb_spec (s * (s + 1)) n); intros K.
  - replace ((2 * (s + 1) - 1) * (2 * (s + 1) - 1)) with (4 * (s * (s + 1)) + 1) by ring. lia.
  - replace ((2 * s - 1) * (2 * s - 1)) with (4 * (s * s) - 4 * s + 1) by ring. lia.
Qed.

Section Match.
Variable h w : nat.
Variable b1 b2 : image bool.
Variable md2 oc2 : Q.
Hypothesis W1 : wf b1.
Hypothesis W2 : wf b2.
Hypothesis Eh1 : ht b1 = h.
Hypothesis Ew1 : wd b1 = w.
Hypothesis Eh2 : ht b2 = h.
Hypothesis Ew2 : wd b2 = w.
Hypothesis Hmd : (0 <= md2)%Q.
Hypothesis Hoc : (md2 < oc2)%Q.

Notation nodes1 := (nodes1 h w b1 b2 md2).
Notation nodes2 := (nodes2 h w b1 b2 md2).
Notation n1 := (n1 h w b1 b2 md2).
Notation n2 := (n2 h w b1 b2 md2).
Notation dd := (-1, -1).
Notation decode_pairs := (decode_pairs h w b1 b2 md2).
Notation built := (built h w b1 b2 md2 oc2).
Notation ow := (ow oc2).

(** The outcome decoded from a matching. *)
Definition outcome_of (l : list (nat * Z)) : outcome :=
  let ps := decode_pairs l in
  mkOut (code_map h w b1 (lookup1 ps)) (code_map h w b2 (lookup2 ps))
        (cost_add (cost_side h w b1 (lookup1 ps)) (cost_side h w b2 (lookup2 ps))).
(** What a run from the random stream [s] yields. *)
Definition result_of (s : stream) (out : outcome) (s' : stream) : Prop :=
  (n1 + n2 = 0)%nat /\ out = nothing h w /\ s' = s \/
  (0 < n1 + n2)%nat /\ exists g l, build_graph h w b1 b2 md2 oc2 s = Ok (g, s') /\ built g /\
    minimum_cost_matching (n1 + n2) g l /\ out = outcome_of l.

Lemma guard_ok : Qle_bool 0 md2 && Qltb md2 oc2 = true.
Proof. apply andb_true_iff. split; [apply Qle_bool_iff; exact Hmd|apply Qltb_true; exact Hoc]. Qed.

Lemma match_sound fuel pfuel s : valid_stream s ->
  exists r, match_edge_maps h w b1 b2 md2 oc2 fuel pfuel s = Ok r /\
    match r with None => True | Some (out, s') => valid_stream s' /\ result_of s out s' end.
Proof.
  intros V. unfold match_edge_maps. rewrite check_ok by exact guard_ok.
  assert (NZ := n_arcs_zero h w b1 b2 md2 W1 W2 Eh1 Ew1 Eh2 Ew2).
  destruct (Z.eqb_spec (n_arcs h w b1 b2 md2) 0) as [E|N].
  - eexists. split; [reflexivity|]. split; [exact V|]. left. split; [apply NZ; exact E|]. split; reflexivity.
  - assert (L : (0 < n1 + n2)%nat) by (destruct (Nat.eq_dec (n1 + n2) 0) as [E|]; [apply NZ in E; contradiction|lia]).
    destruct (build_graph_ok h w b1 b2 md2 oc2 W1 W2 Eh1 Ew1 Eh2 Ew2 Hmd Hoc s V) as (g & s' & E & V' & B).
    rewrite E. cbn [bind].
    assert (PO := overlay_perfect h w b1 b2 md2 oc2 Eh1 Ew1 Eh2 Ew2 g B).
    destruct (csa_solve_sound fuel pfuel (n1 + n2) g _ L (built_valid h w b1 b2 md2 oc2 W1 W2 Eh1 Ew1 Eh2 Ew2 Hmd Hoc g B)
                (built_max_cost h w b1 b2 md2 oc2 Eh1 Ew1 Eh2 Ew2 Hmd Hoc g B L) PO) as (r & Er & Hr).
    rewrite Er. cbn [bind]. destruct r as [l|]; [|exists None; split; [reflexivity|exact Logic.I]].
    rewrite check_ok.
    + eexists. split; [reflexivity|]. split; [exact V'|]. right. split; [exact L|]. exists g, l. split; [exact E|]. split; [exact B|]. split; [exact Hr|reflexivity].
    + apply andb_true_iff. split; [apply Nat.eqb_eq, Hr|]. eapply (check_solution_ok h w b1 b2 md2 oc2); try eassumption. apply Hr.
Qed.
Lemma match_terminates s : valid_stream s ->
  exists F P out s', forall fuel pfuel, (F <= fuel)%nat -> (P <= pfuel)%nat ->
    match_edge_maps h w b1 b2 md2 oc2 fuel pfuel s = Ok (Some (out, s')).
Proof.
  intros V.
  assert (NZ := n_arcs_zero h w b1 b2 md2 W1 W2 Eh1 Ew1 Eh2 Ew2).
  destruct (Z.eq_dec (n_arcs h w b1 b2 md2) 0) as [E|N].
  - exists O, O, (nothing h w), s. intros fuel pfuel _ _. unfold match_edge_maps. rewrite check_ok by exact guard_ok.
    rewrite E. reflexivity.
  - assert (L : (0 < n1 + n2)%nat) by (destruct (Nat.eq_dec (n1 + n2) 0) as [E|]; [apply NZ in E; contradiction|lia]).
    destruct (build_graph_ok h w b1 b2 md2 oc2 W1 W2 Eh1 Ew1 Eh2 Ew2 Hmd Hoc s V) as (g & s' & E & V' & B).
    assert (PO := overlay_perfect h w b1 b2 md2 oc2 Eh1 Ew1 Eh2 Ew2 g B).
    destruct (csa_solve_terminates (n1 + n2) g _ L (built_valid h w b1 b2 md2 oc2 W1 W2 Eh1 Ew1 Eh2 Ew2 Hmd Hoc g B)
                (built_max_cost h w b1 b2 md2 oc2 Eh1 Ew1 Eh2 Ew2 Hmd Hoc g B L) PO) as (F & P & l & T).
    exists F, P, (outcome_of l), s'. intros fuel pfuel HF HP. unfold match_edge_maps. rewrite check_ok by exact guard_ok.
    replace (n_arcs h w b1 b2 md2 =? 0) with false by lia. rewrite E. cbn [bind]. rewrite (T fuel pfuel HF HP). cbn [bind].
    destruct (csa_solve_sound fuel pfuel (n1 + n2) g _ L (built_valid h w b1 b2 md2 oc2 W1 W2 Eh1 Ew1 Eh2 Ew2 Hmd Hoc g B)
                (built_max_cost h w b1 b2 md2 oc2 Eh1 Ew1 Eh2 Ew2 Hmd Hoc g B L) PO) as (r & Er & Hr).
    rewrite (T fuel pfuel HF HP) in Er. injection Er as <-. rewrite check_ok; [reflexivity|].
    apply andb_true_iff. split; [apply Nat.eqb_eq, Hr|]. eapply (check_solution_ok h w b1 b2 md2 oc2); try eassumption. apply Hr.
Qed.

Lemma result_correspondence s out s' : result_of s out s' -> is_correspondence b1 b2 md2 (m1 out) (m2 out).
Proof.
  intros [(_ & -> & _)|(_ & g & l & _ & B & (Pm & _) & ->)].
  - rewrite <- Eh1, <- Ew1. apply nothing_correspondence. split; congruence.
  - apply (decoded_correspondence h w b1 b2 md2 oc2 W1 W2 Eh1 Ew1 Eh2 Ew2 g l B Pm).
Qed.

(** ** Few pixels: the outlier-outlier graph is complete. *)
Lemma complete_outliers g k a : built g -> (nmin h w b1 b2 md2 <= 6)%nat -> (k < n2)%nat -> (a < n1)%nat ->
  In (mkArc (n1 + k) (n2 + a) ow) g.
Proof.
  intros (l1 & l2 & l3 & -> & _ & _ & F3) S Hk Ha. rewrite !in_app_iff. do 3 right. left.
  assert (Dg : deg3 h w b1 b2 md2 = Z.of_nat (nmin h w b1 b2 md2)) by (unfold deg3, degree; lia).
  destruct (Nat.ltb_spec n1 n2) as [L|L].
  - destruct (Forall2_concat_intro _ _ _ k F3) as (al & (_ & ks & K & E) & I); [apply in_seq0; unfold nmax; lia|].
    apply I. rewrite E. apply in_map_iff. exists (Z.of_nat a). apply Nat.ltb_lt in L. rewrite L, Nat2Z.id. split; [reflexivity|].
    rewrite Dg in K. apply (k_subset_full _ _ K). apply Nat.ltb_lt in L. unfold nmin. lia.
  - destruct (Forall2_concat_intro _ _ _ a F3) as (al & (_ & ks & K & E) & I); [apply in_seq0; unfold nmax; lia|].
    apply I. rewrite E. apply in_map_iff. exists (Z.of_nat k). apply Nat.ltb_ge in L. rewrite L, Nat2Z.id. split; [reflexivity|].
    rewrite Dg in K. apply (k_subset_full _ _ K). apply Nat.ltb_ge in L. unfold nmin. lia.
Qed.

(** If real arcs are cheaper than outlier arcs then no two close pixels are both left over. *)
Lemma maximal g l i j : built g -> minimum_cost_matching (n1 + n2) g l -> (nmin h w b1 b2 md2 <= 6)%nat ->
  near_nodes h w b1 b2 md2 i j -> weight (d2_nodes h w b1 b2 md2 i j) < ow ->
  (exists j' c, nth_error l i = Some (j', c) /\ (j' < n2)%nat) \/ (exists i' c, nth_error l i' = Some (j, c) /\ (i' < n1)%nat).
Proof.
  intros B (Pm & Min) S N Wt. assert (Pm' := Pm). destruct Pm' as (L & D & A). destruct N as (Hi & Hj & Nr).
  set (N := (n1 + n2)%nat) in *.
  destruct (nth_error l i) as [[x c1]|] eqn:Ei; [|apply nth_error_None in Ei; lia].
  destruct (Nat.lt_ge_cases x n2) as [Lx|Lx]; [left; exists x, c1; split; [reflexivity|exact Lx]|]. right.
  assert (Ij : In j (map fst l)) by (apply (Permutation_in j (Permutation_sym (perfect_heads g N l Pm))); apply in_seq0; unfold N; lia).
  apply In_nth_error in Ij. destruct Ij as (i' & Ij). rewrite nth_error_map in Ij.
  destruct (nth_error l i') as [[j' c2]|] eqn:Ei'; [|discriminate]. cbn in Ij. injection Ij as ->.
  destruct (Nat.lt_ge_cases i' n1) as [Li|Li]; [exists i', c2; split; [exact Ei'|exact Li]|]. exfalso.
  destruct (solution_kind h w b1 b2 md2 oc2 W1 W2 Eh1 Ew1 Eh2 Ew2 g l B Pm i x c1 Ei) as (_ & Bx & K1).
  destruct (solution_kind h w b1 b2 md2 oc2 W1 W2 Eh1 Ew1 Eh2 Ew2 g l B Pm i' j c2 Ei') as (Bi' & _ & K2).
  assert (OP := ow_positive md2 oc2 Hmd Hoc). unfold arc_kind in K1, K2. cbn [a_tail a_head a_cost] in K1, K2.
  assert (exists a, x = (n2 + a)%nat /\ (a < n1)%nat /\ ow <= c1) as (a & -> & Ha & C1).
  { destruct K1 as [[(_ & Q & _) _]|[(p & a & T1 & T2 & T3 & T4 & T5)|[(p & a & T1 & T2 & T3 & T4 & T5)|(p & a & T1 & T2 & T3 & T4 & T5)]]]; [lia| |lia|lia].
    exists a. split; [exact T2|]. split; [exact T4|]. unfold multiplier in T5. lia. }
  assert (exists k, i' = (n1 + k)%nat /\ (k < n2)%nat /\ ow <= c2) as (k & -> & Hk & C2).
  { destruct K2 as [[(Q & _ & _) _]|[(p & q & T1 & T2 & T3 & T4 & T5)|[(k & q & T1 & T2 & T3 & T4 & T5)|(k & q & T1 & T2 & T3 & T4 & T5)]]]; [lia|lia| |lia].
    exists k. split; [exact T1|]. split; [exact T3|]. unfold multiplier in T5. lia. }
  set (i' := (n1 + k)%nat) in *. set (x := (n2 + a)%nat) in *. set (wt := weight (d2_nodes h w b1 b2 md2 i j)) in *.
  set (f := fun v => if Nat.eqb v i then (j, wt) else if Nat.eqb v i' then (x, ow) else nth v l (O, 0)).
  assert (Fi : f i = (j, wt)) by (unfold f; rewrite Nat.eqb_refl; reflexivity).
  assert (Hne : i' <> i) by (unfold i'; lia).
  assert (Fi' : f i' = (x, ow)) by (unfold f; rewrite Nat.eqb_refl; replace (Nat.eqb i' i) with false by (symmetry; apply Nat.eqb_neq; exact Hne); reflexivity).
  assert (Fo : forall v, v <> i -> v <> i' -> f v = nth v l (O, 0)).
  { intros v V1 V2. unfold f. apply Nat.eqb_neq in V1, V2. rewrite V1, V2. reflexivity. }
  assert (LN : forall v, nth_error l v = Some (nth v l (O, 0)) \/ (N <= v)%nat).
  { intros v. destruct (Nat.lt_ge_cases v N); [left; apply nth_error_nth'; lia|right; lia]. }
  assert (Li_ : nth i l (O, 0) = (x, c1)) by (erewrite nth_error_nth by exact Ei; reflexivity).
  assert (Li'_ : nth i' l (O, 0) = (j, c2)) by (erewrite nth_error_nth by exact Ei'; reflexivity).
  assert (Inj : forall u v, (u < N)%nat -> (v < N)%nat -> fst (nth u l (O, 0)) = fst (nth v l (O, 0)) -> u = v).
  { intros u v Hu Hv E. apply (proj1 (NoDup_nth_error (map fst l)) D); [rewrite map_length; lia|].
    rewrite !nth_error_map, (nth_error_nth' l (O, 0)) by lia. rewrite (nth_error_nth' l (O, 0)) by lia. cbn. congruence. }
  assert (HiN : (i < N)%nat) by (unfold N; lia). assert (Hi'N : (i' < N)%nat) by (unfold N, i'; lia).
  assert (Pm2 : perfect_matching N g (map f (seq 0 N))).
  { split; [rewrite map_length, seq_length; reflexivity|]. split.
    - rewrite map_map. apply NoDup_map_inj_on; [|apply seq_NoDup]. intros u v Hu Hv E. apply in_seq0 in Hu, Hv.
      (* the heads of u and v under the transposition *)
      assert (G : forall t, (t < N)%nat -> exists t', (t' < N)%nat /\ fst (f t) = fst (nth t' l (O, 0)) /\
                 (t = i /\ t' = i' \/ t = i' /\ t' = i \/ t <> i /\ t <> i' /\ t' = t)).
      { intros t Ht. destruct (Nat.eq_dec t i) as [->|T1].
        - exists i'. split; [exact Hi'N|]. split; [rewrite Fi, Li'_; reflexivity|]. left. split; reflexivity.
        - destruct (Nat.eq_dec t i') as [->|T2].
          + exists i. split; [exact HiN|]. split; [rewrite Fi', Li_; reflexivity|]. right. left. split; reflexivity.
          + exists t. split; [exact Ht|]. split; [rewrite Fo by assumption; reflexivity|]. right. right. split; [exact T1|]. split; [exact T2|reflexivity]. }
      destruct (G u Hu) as (u' & U1 & U2 & U3). destruct (G v Hv) as (v' & V1 & V2 & V3).
      assert (u' = v') by (apply Inj; [exact U1|exact V1|congruence]). lia.
    - intros v y c E. assert (Hv : (v < N)%nat).
      { assert (X : nth_error (map f (seq 0 N)) v <> None) by congruence. apply nth_error_Some in X. rewrite map_length, seq_length in X. exact X. }
      rewrite nth_error_map_seq in E by exact Hv. injection E as E.
      destruct (Nat.eq_dec v i) as [->|T1]; [|destruct (Nat.eq_dec v i') as [->|T2]].
      + rewrite Fi in E. injection E as <- <-. split; [unfold N; lia|].
        destruct B as (? & ? & ? & -> & _). apply in_or_app. left. apply real_arc_intro; try assumption. split; [exact Hi|]. split; [exact Hj|exact Nr].
      + rewrite Fi' in E. injection E as <- <-. split; [exact Bx|]. apply complete_outliers; assumption.
      + rewrite Fo in E by assumption. apply A. rewrite <- E. destruct (LN v) as [X|X]; [exact X|lia]. }
  specialize (Min _ Pm2). unfold total_cost in Min. rewrite (list_as_table (O, 0) l), L in Min. rewrite !map_map in Min.
  set (f0 := fun v => snd (nth v l (O, 0))) in *. set (f2 := fun v => snd (f v)) in *.
  set (f1 := fun v => if Nat.eqb v i then wt else f0 v).
  assert (U1 := zsum_update f0 f1 (seq 0 N) i (seq_NoDup N 0) (proj2 (in_seq0 i N) HiN)).
  assert (U2 := zsum_update f1 f2 (seq 0 N) i' (seq_NoDup N 0) (proj2 (in_seq0 i' N) Hi'N)).
  assert (X1 : f0 i = c1) by (unfold f0; rewrite Li_; reflexivity).
  assert (X2 : f1 i = wt) by (unfold f1; rewrite Nat.eqb_refl; reflexivity).
  assert (X3 : f1 i' = c2) by (unfold f1, f0; replace (Nat.eqb i' i) with false by (symmetry; apply Nat.eqb_neq; exact Hne); rewrite Li'_; reflexivity).
  assert (X4 : f2 i' = ow) by (unfold f2; rewrite Fi'; reflexivity).
  rewrite X1, X2 in U1. rewrite X3, X4 in U2.
  assert (E1 : zsum (map f0 (seq 0 N)) - c1 = zsum (map f1 (seq 0 N)) - wt).
  { apply U1. intros v Hv. unfold f1. apply Nat.eqb_neq in Hv. rewrite Hv. reflexivity. }
  assert (E2 : zsum (map f1 (seq 0 N)) - c2 = zsum (map f2 (seq 0 N)) - ow).
  { apply U2. intros v Hv. unfold f1, f2. destruct (Nat.eqb_spec v i) as [->|T]; [rewrite Fi; reflexivity|]. rewrite Fo by assumption. reflexivity. }
  lia.
Qed.
End Match.

(** The weight of a real arc against the outlier weight, for outlier costs of at least 1.01. *)
Lemma weight_lt_ow md2 k d : (0 <= md2)%Q -> (101 # 100 <= k)%Q -> (inject_Z d <= md2)%Q -> 0 <= d -> (0 < md2)%Q ->
  weight d < ow (k * k * md2)%Q.
Proof.
  intros H0 Hk Hd P Hp.
  assert (K2 : ((101#100) * (101#100) <= k * k)%Q).
  { assert (X : (0 <= (k - (101#100)) * (k - (101#100)))%Q) by (apply Qmult_le_0_compat; lra). lra. }
  assert (K3 : (0 <= (k * k - (10201#10000)) * md2)%Q) by (apply Qmult_le_0_compat; lra).
  assert (T : 10201 * d <= ow (k * k * md2)%Q * ow (k * k * md2)%Q /\ 1 <= ow (k * k * md2)%Q).
  { split.
    - unfold ow, ceil_sqrt. set (c := Qceiling (k * k * md2 * inject_Z (multiplier * multiplier))).
      assert (X : 10201 * d <= c).
      { unfold c. apply Qle_ceiling_Z. change (inject_Z (multiplier * multiplier)) with (10000 # 1)%Q.
        rewrite inject_Z_mult. change (inject_Z 10201) with (10201 # 1)%Q. 
        lra. }
      destruct (Z.le_gt_cases c 0); [assert (d = 0) by lia; subst d; apply Z.square_nonneg|].
      assert (S := Z.sqrt_up_spec c ltac:(lia)). lia.
    - apply (ow_positive md2); [exact H0|]. lra. }
  destruct T as [T1 T2]. set (t := ow (k * k * md2)%Q) in *. clearbody t. clear - P T1 T2.
  destruct (Z.le_gt_cases t (weight d)) as [L|L]; [|exact L]. exfalso.
  assert (U := rint_sqrt_upper (d * (multiplier * multiplier)) ltac:(unfold multiplier; lia) ltac:(unfold weight in L; lia)).
  fold (weight d) in U. change (multiplier * multiplier) with 10000 in U. set (r := weight d) in *.
  assert (V : (2 * t - 1) * (2 * t - 1) <= (2 * r - 1) * (2 * r - 1)) by (apply Z.mul_le_mono_nonneg; lia).
  destruct (Z.eq_dec d 0) as [E0|Nd]; [assert (r = 0) by (unfold r; rewrite E0; reflexivity); lia|].
  assert (T3 : 101 <= t).
  { destruct (Z.le_gt_cases 101 t); [assumption|]. assert (t * t <= 100 * 100) by (apply Z.mul_le_mono_nonneg; lia). lia. }
  assert (101 * t <= t * t) by (apply Z.mul_le_mono_nonneg_r; lia).
  replace ((2 * t - 1) * (2 * t - 1)) with (4 * (t * t) - 4 * t + 1) in V by ring. lia.
Qed.
