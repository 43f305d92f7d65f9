(** Proofs: identical small maps, and the reported cost. *)
From Verif Require Export ProofsMatch4.
From Coq Require Import Lqa Permutation.
Open Scope Z_scope.
Open Scope list_scope.

Lemma Permutation_filter_p {A} (f : A -> bool) l l' : Permutation l l' -> Permutation (filter f l) (filter f l').
Proof.
  induction 1 as [|a l l' _ IH|a b l|l l' l'' _ IH _ IH']; cbn [filter].
  - constructor.
  - destruct (f a); [constructor; exact IH|exact IH].
  - destruct (f a), (f b); try apply Permutation_refl. apply perm_swap.
  - eapply Permutation_trans; eassumption.
Qed.
Definition swap (p : Z * Z) : Z * Z := (snd p, fst p).
Lemma coords_colmajor h w : Permutation (coords h w) (map swap (colmajor h w)).
Proof.
  apply NoDup_Permutation; [apply NoDup_coords| |].
  - apply FinFun.Injective_map_NoDup; [|apply NoDup_colmajor]. intros [a b] [c d] E. unfold swap in E. cbn in E. congruence.
  - intros [y x]. rewrite in_coords. split.
    + intros H. apply in_map_iff. exists (x, y). split; [reflexivity|]. apply in_colmajor. exact H.
    + intros H. apply in_map_iff in H. destruct H as ([a b] & E & H). unfold swap in E. cbn in E. injection E as -> ->.
      apply in_colmajor in H. exact H.
Qed.

(** ** Consequence of the specification: the distances seen from both sides are the same. *)
Lemma matched_list m : wf m -> forall p, In p (filter (fun p => negb (px 0 m (fst p) (snd p) =? 0)) (coords (ht m) (wd m))) <-> px 0 m (fst p) (snd p) <> 0.
Proof.
  intros W [y x]. rewrite filter_In, in_coords. cbn [fst snd]. destruct (Z.eqb_spec (px 0 m y x) 0) as [E|E]; cbn [negb].
  - split; [intros [_ H]; discriminate|intros H; contradiction].
  - split; [intros _; exact E|]. intros _. split; [|reflexivity]. destruct (inb (ht m) (wd m) y x) eqn:I; [reflexivity|].
    rewrite px_out in E; [contradiction|exact W|exact I].
Qed.
Lemma sqdists_perm b1 b2 tol2 m1 m2 : wf b1 -> wf b2 -> same_shape b1 b2 -> is_correspondence b1 b2 tol2 m1 m2 ->
  Permutation (matched_sqdists m1) (matched_sqdists m2).
Proof.
  intros W1 W2 S K. assert (I := injective_matches b1 b2 tol2 W1 W2 S m1 m2 K). assert (EM := equal_matched b1 b2 tol2 m1 m2 W1 W2 S K).
  destruct K as ((Wm1 & Sm1) & (Wm2 & Sm2) & P & P'). unfold matched_sqdists.
  set (N1 := filter _ (coords (ht m1) (wd m1))). set (N2 := filter _ (coords (ht m2) (wd m2))).
  assert (M1 := matched_list m1 Wm1 : forall p, In p N1 <-> _). assert (M2 := matched_list m2 Wm2 : forall p, In p N2 <-> _).
  assert (D1 : NoDup N1) by apply NoDup_filter, NoDup_coords. assert (D2 : NoDup N2) by apply NoDup_filter, NoDup_coords.
  assert (L : forall m, wf m -> length (filter (fun p => negb (px 0 m (fst p) (snd p) =? 0)) (coords (ht m) (wd m))) = matched m).
  { intros m W. unfold matched. rewrite count_true_fg by (apply wf_imap; exact W). apply Nat.le_antisymm; apply NoDup_incl_length.
    - apply NoDup_filter, NoDup_coords.
    - intros [y x] H. apply (matched_list m W) in H. fold (nz m). apply (in_nz m y x W). exact H.
    - apply NoDup_fg_list.
    - intros [y x] H. fold (nz m) in H. apply (in_nz m y x W) in H. apply (matched_list m W). exact H. }
  destruct S as [S1 S2]. destruct Sm1 as [T1 T2], Sm2 as [T3 T4].
  set (f := fun p : Z * Z => ((px 0 m1 (fst p) (snd p) - 1) mod Z.of_nat (ht m1), (px 0 m1 (fst p) (snd p) - 1) / Z.of_nat (ht m1))).
  assert (Dec : forall y x, 0 <= y < Z.of_nat (ht m1) -> ((pixel_code (ht b1) y x - 1) mod Z.of_nat (ht m1), (pixel_code (ht b1) y x - 1) / Z.of_nat (ht m1)) = (y, x)).
  { intros y x H. unfold pixel_code. rewrite T1 in *. replace (x * Z.of_nat (ht b1) + y + 1 - 1) with (y + x * Z.of_nat (ht b1)) by ring.
    rewrite Z.mod_add, Z.div_add by lia. rewrite Z.mod_small, Z.div_small by lia. f_equal. }
  assert (F : forall p, In p N1 -> In (f p) N2 /\ partner_sqdist m2 (f p) = partner_sqdist m1 p /\ px 0 m2 (fst (f p)) (snd (f p)) = pixel_code (ht b1) (fst p) (snd p)).
  { intros [y x] H. apply M1 in H. cbn [fst snd] in H. destruct (P y x H) as (A & y' & x' & B & C & _ & E).
    apply inside in A, C; try assumption. rewrite inb_spec in A, C.
    assert (Ef : f (y, x) = (y', x')) by (unfold f; cbn [fst snd]; rewrite B; apply Dec; lia).
    rewrite Ef. split; [apply M2; cbn [fst snd]; rewrite E; unfold pixel_code; nia|]. split; [|exact E].
    unfold partner_sqdist. cbn [fst snd]. rewrite E, B. assert (E1 := Dec y x ltac:(lia)). assert (E2 := Dec y' x' ltac:(lia)).
    injection E1 as E1a E1b. injection E2 as E2a E2b. replace (ht m2) with (ht m1) by congruence. rewrite E1a, E1b, E2a, E2b. unfold sqdist. ring. }
  assert (Inj : NoDup (map f N1)).
  { apply NoDup_map_inj_on; [|exact D1]. intros [y x] [u v] A B E. destruct (F _ A) as (_ & _ & A'). destruct (F _ B) as (_ & _ & B').
    rewrite E, B' in A'. cbn [fst snd] in A'. apply M1 in A, B. cbn [fst snd] in A, B. destruct (P _ _ A) as (A1 & _). destruct (P _ _ B) as (B1 & _).
    apply inside in A1, B1; try assumption. rewrite inb_spec in A1, B1. apply code_inj in A'; [|lia|lia]. destruct A' as [-> ->]. reflexivity. }
  assert (PF : Permutation (map f N1) N2).
  { apply NoDup_Permutation_bis; [exact Inj| |].
    - rewrite map_length. unfold N1, N2. rewrite !L by assumption. rewrite EM. apply Nat.le_refl.
    - intros q Q. apply in_map_iff in Q. destruct Q as (p & <- & Q). apply F, Q. }
  eapply Permutation_trans; [|apply Permutation_map; exact PF]. rewrite map_map.
  erewrite map_ext_in; [apply Permutation_refl|]. intros p Hp. symmetry. apply F, Hp.
Qed.

(** ** The cost of one side. *)
Section Cost.
Variable b : image bool.
Variable look : pixel -> option pixel.
Variable m : image Z.
Hypothesis Wb : wf b.
Hypothesis Sm : same_shape m b.
Hypothesis Look : forall x y, px false b y x = true -> inb (ht b) (wd b) y x = true ->
  match look (x, y) with
  | Some q => inb (ht b) (wd b) (snd q) (fst q) = true /\ px 0 m y x = pixel_code (ht b) (snd q) (fst q)
  | None => px 0 m y x = 0 end.
Hypothesis Zero : forall y x, px false b y x = false -> px 0 m y x = 0.

Lemma cost_outliers : c_outliers (cost_side (ht b) (wd b) b look) = unmatched b m.
Proof.
  unfold cost_side, unmatched. cbn [c_outliers]. rewrite (Permutation_length (Permutation_filter_p _ _ _ (coords_colmajor (ht b) (wd b)))).
  assert (X : forall p, In p (colmajor (ht b) (wd b)) -> inb (ht b) (wd b) (snd p) (fst p) = true) by (intros p; apply in_colmajor).
  induction (colmajor (ht b) (wd b)) as [|[x y] c IH]; [reflexivity|]. cbn [filter map swap fst snd].
  assert (Y := X (x, y) (or_introl eq_refl)). cbn [fst snd] in Y. specialize (IH (fun p Hp => X p (or_intror Hp))).
  destruct (px false b y x) eqn:B; cbn [andb]; [|exact IH]. cbn [filter]. specialize (Look x y B Y).
  destruct (look (x, y)) as [q|].
  - replace (px 0 m y x =? 0) with false; [exact IH|]. destruct Look as [I E]. rewrite E. rewrite inb_spec in I. unfold pixel_code. symmetry. nia.
  - rewrite Look. cbn [Z.eqb length]. f_equal. exact IH.
Qed.
Lemma cost_halves : Permutation (c_halves (cost_side (ht b) (wd b) b look)) (matched_sqdists m).
Proof.
  destruct Sm as [S1 S2]. unfold cost_side, matched_sqdists. cbn [c_halves]. rewrite S1, S2.
  eapply Permutation_trans; [|apply Permutation_map, Permutation_filter_p, Permutation_sym, coords_colmajor].
  assert (X : forall p, In p (colmajor (ht b) (wd b)) -> inb (ht b) (wd b) (snd p) (fst p) = true) by (intros p; apply in_colmajor).
  match goal with |- Permutation ?a ?b => enough (a = b) as -> by apply Permutation_refl end.
  induction (colmajor (ht b) (wd b)) as [|[x y] c IH]; [reflexivity|]. cbn [filter map swap fst snd].
  assert (Y := X (x, y) (or_introl eq_refl)). cbn [fst snd] in Y. specialize (IH (fun p Hp => X p (or_intror Hp))).
  destruct (px false b y x) eqn:B.
  - cbn [flat_map]. specialize (Look x y B Y). destruct (look (x, y)) as [[x' y']|].
    + destruct Look as [I E]. cbn [fst snd] in I, E. rewrite inb_spec in I. replace (px 0 m y x =? 0) with false by (rewrite E; unfold pixel_code; nia).
      cbn [negb map app]. f_equal; [|exact IH]. unfold partner_sqdist, swap. cbn [fst snd]. rewrite E, S1. unfold pixel_code.
      replace (x' * Z.of_nat (ht b) + y' + 1 - 1) with (y' + x' * Z.of_nat (ht b)) by ring.
      rewrite Z.mod_add, Z.div_add by lia. rewrite Z.mod_small, Z.div_small by lia. unfold dist2, sqdist. cbn [fst snd]. ring.
    + rewrite Look. cbn [Z.eqb negb app]. exact IH.
  - rewrite (Zero y x B). cbn [Z.eqb negb]. exact IH.
Qed.
End Cost.

Section Match.
Variable h w : nat.
Variable b1 b2 : image bool.
Variable md2 oc2 : Q.
Hypothesis W1 : wf b1.
Hypothesis W2 : wf b2.
Hypothesis Eh1 : ht b1 = h.
Hypothesis Ew1 : wd b1 = w.
Hypothesis Eh2 : ht b2 = h.
Hypothesis Ew2 : wd b2 = w.
Hypothesis Hmd : (0 <= md2)%Q.
Hypothesis Hoc : (md2 < oc2)%Q.
Notation n1 := (n1 h w b1 b2 md2).
Notation n2 := (n2 h w b1 b2 md2).

Lemma outcome_cost g l out : built h w b1 b2 md2 oc2 g -> perfect_matching (n1 + n2) g l -> out = outcome_of h w b1 b2 md2 l ->
  c_outliers (total out) = (unmatched b1 (m1 out) + unmatched b2 (m2 out))%nat /\
  Permutation (c_halves (total out)) (matched_sqdists (m1 out) ++ matched_sqdists (m2 out)).
Proof.
  intros B Pm ->. unfold outcome_of. cbn [m1 m2 total]. unfold cost_add. cbn [c_outliers c_halves].
  set (ps := decode_pairs h w b1 b2 md2 l).
  assert (S1 : same_shape (code_map h w b1 (lookup1 ps)) b1) by (split; [exact (eq_sym Eh1)|exact (eq_sym Ew1)]).
  assert (S2 : same_shape (code_map h w b2 (lookup2 ps)) b2) by (split; [exact (eq_sym Eh2)|exact (eq_sym Ew2)]).
  assert (V1 := m1_value h w b1 b2 md2 oc2 W1 W2 Eh1 Ew1 Eh2 Ew2 g l B Pm). assert (V2 := m2_value h w b1 b2 md2 oc2 W1 W2 Eh1 Ew1 Eh2 Ew2 g l B Pm).
  assert (L1 := lookup1_spec h w b1 b2 md2 l). assert (L2 := lookup2_spec h w b1 b2 md2 g l Pm).
  assert (DP := decode_props h w b1 b2 md2 oc2 W1 W2 Eh1 Ew1 Eh2 Ew2 g l B Pm).
  fold ps in V1, V2, L1, L2, DP.
  assert (A1 : forall x y, px false b1 y x = true -> inb (ht b1) (wd b1) y x = true ->
     match lookup1 ps (x, y) with
     | Some q => inb (ht b1) (wd b1) (snd q) (fst q) = true /\ px 0 (code_map h w b1 (lookup1 ps)) y x = pixel_code (ht b1) (snd q) (fst q)
     | None => px 0 (code_map h w b1 (lookup1 ps)) y x = 0 end).
  { intros x y _ _. rewrite V1. destruct (lookup1 ps (x, y)) as [q|] eqn:E; [|reflexivity]. apply L1 in E. apply DP in E.
    destruct E as (_ & E & _). apply (at2_in h w b2 W2 Eh2 Ew2) in E. unfold inimg in E. rewrite Eh1, Ew1. split; [exact E|reflexivity]. }
  assert (A2 : forall x y, px false b2 y x = true -> inb (ht b2) (wd b2) y x = true ->
     match lookup2 ps (x, y) with
     | Some q => inb (ht b2) (wd b2) (snd q) (fst q) = true /\ px 0 (code_map h w b2 (lookup2 ps)) y x = pixel_code (ht b2) (snd q) (fst q)
     | None => px 0 (code_map h w b2 (lookup2 ps)) y x = 0 end).
  { intros x y _ _. rewrite V2. destruct (lookup2 ps (x, y)) as [q|] eqn:E; [|reflexivity]. apply L2 in E. apply DP in E.
    destruct E as (E & _). apply (at1_in h w b1 W1 Eh1 Ew1) in E. unfold inimg in E. rewrite Eh2, Ew2. split; [exact E|reflexivity]. }
  assert (Z1 : forall y x, px false b1 y x = false -> px 0 (code_map h w b1 (lookup1 ps)) y x = 0).
  { intros y x E. unfold code_map. rewrite px_tab, E. destruct (inb h w y x); reflexivity. }
  assert (Z2 : forall y x, px false b2 y x = false -> px 0 (code_map h w b2 (lookup2 ps)) y x = 0).
  { intros y x E. unfold code_map. rewrite px_tab, E. destruct (inb h w y x); reflexivity. }
  assert (C1 := cost_outliers b1 (lookup1 ps) _ A1 Z1). assert (C2 := cost_outliers b2 (lookup2 ps) _ A2 Z2).
  assert (H1 := cost_halves b1 (lookup1 ps) _ S1 A1 Z1). assert (H2 := cost_halves b2 (lookup2 ps) _ S2 A2 Z2).
  rewrite Eh1, Ew1 in C1, H1. rewrite Eh2, Ew2 in C2, H2.
  split; [rewrite C1, C2; reflexivity|]. apply Permutation_app; assumption.
Qed.
Lemma result_cost s out s' : result_of h w b1 b2 md2 oc2 s out s' -> (0 < n1 + n2)%nat ->
  c_outliers (total out) = (unmatched b1 (m1 out) + unmatched b2 (m2 out))%nat /\
  Permutation (c_halves (total out)) (matched_sqdists (m1 out) ++ matched_sqdists (m2 out)).
Proof.
  intros [(Z & _)|(_ & g & l & _ & B & (Pm & _) & E)] L; [lia|]. exact (outcome_cost g l out B Pm E).
Qed.
End Match.

(** ** Identical maps with few pixels. *)
Section Same.
Variable b : image bool.
Variable md2 oc2 : Q.
Hypothesis W : wf b.
Hypothesis Hmd : (0 <= md2)%Q.
Hypothesis Hoc : (md2 < oc2)%Q.
Notation h := (ht b).
Notation w := (wd b).
Notation N1 := (nodes1 h w b b md2).
Notation N2 := (nodes2 h w b b md2).
Notation dd := (-1, -1).

Lemma near_self p : near md2 p p. Proof. unfold near. rewrite dist2_self. exact Hmd. Qed.
Lemma matchable1_same p : matchable1 h w b b md2 p = px false b (snd p) (fst p).
Proof.
  apply Bool.eq_iff_eq_true. rewrite (matchable1_spec h w b b md2 W W eq_refl eq_refl eq_refl eq_refl). unfold at1, at2. split; [tauto|].
  intros H. split; [exact H|]. exists p. split; [exact H|apply near_self].
Qed.
Lemma matchable2_same p : matchable2 h w b b md2 p = px false b (snd p) (fst p).
Proof.
  apply Bool.eq_iff_eq_true. rewrite (matchable2_spec h w b b md2 W W eq_refl eq_refl eq_refl eq_refl). unfold at1, at2. split; [tauto|].
  intros H. split; [exact H|]. exists p. split; [exact H|apply near_self].
Qed.
Lemma nodes_same : N1 = N2.
Proof. unfold nodes1, nodes2. apply filter_ext. intros p. rewrite matchable1_same, matchable2_same. reflexivity. Qed.

Lemma identity_matched g l i : built h w b b md2 oc2 g -> (length N1 <= 6)%nat -> minimum_cost_matching (n1 h w b b md2 + n2 h w b b md2) g l ->
  (i < length N1)%nat -> exists c, nth_error l i = Some (i, c).
Proof.
  intros B S (Pm & Min) Hi.
  set (n := length N1) in *.
  assert (En1 : n1 h w b b md2 = n) by reflexivity.
  assert (En2 : n2 h w b b md2 = n) by (unfold n2; rewrite <- nodes_same; reflexivity).
  assert (OP := ow_positive md2 oc2 Hmd Hoc).
  set (m0 := map (fun i => (i, 0)) (seq 0 n) ++ map (fun i => ((n + i)%nat, ow oc2)) (seq 0 n)).
  assert (P0 : perfect_matching (n1 h w b b md2 + n2 h w b b md2) g m0).
  { split; [unfold m0; rewrite app_length, !map_length, !seq_length; lia|]. split.
    - unfold m0. rewrite map_app, !map_map. cbn [fst]. rewrite map_id. apply NoDup_app_intro; [apply seq_NoDup| |].
      + apply FinFun.Injective_map_NoDup; [|apply seq_NoDup]. intros x y E. lia.
      + intros x X Y. apply in_map_iff in Y. destruct Y as (k & <- & _). apply in_seq0 in X. lia.
    - intros v x c E. unfold m0 in E. destruct (Nat.lt_ge_cases v n) as [L|L].
      + rewrite nth_error_app1 in E by (rewrite map_length, seq_length; exact L). rewrite nth_error_map_seq in E by exact L.
        injection E as <- <-. split; [lia|].
        destruct B as (? & ? & ? & -> & _). apply in_or_app. left.
        assert (X : In (mkArc v v (weight (d2_nodes h w b b md2 v v))) (real_arcs h w b b md2)).
        { apply real_arc_intro; try assumption; try reflexivity. split; [lia|]. split; [lia|]. rewrite nodes_same. apply near_self. }
        unfold d2_nodes in X. rewrite nodes_same, dist2_self in X. exact X.
      + rewrite nth_error_app2 in E by (rewrite map_length, seq_length; exact L). rewrite map_length, seq_length in E.
        assert (L2 : (v - n < n)%nat).
        { assert (X : nth_error (map (fun i => ((n + i)%nat, ow oc2)) (seq 0 n)) (v - n) <> None) by congruence.
          apply nth_error_Some in X. rewrite map_length, seq_length in X. exact X. }
        rewrite nth_error_map_seq in E by exact L2. injection E as <- <-. split; [lia|].
        assert (X := complete_outliers h w b b md2 oc2). rewrite En1, En2 in X.
        replace (mkArc v (n + (v - n)) (ow oc2)) with (mkArc (n + (v - n)) (n + (v - n)) (ow oc2)) by (f_equal; lia).
        apply X; first [exact B|exact eq_refl|unfold nmin; rewrite En1, En2; lia|exact L2]. }
  assert (T0 : total_cost m0 = ow oc2 * Z.of_nat n).
  { unfold total_cost, m0. rewrite map_app, !map_map. cbn [snd]. rewrite zsum_app.
    assert (X : forall c k l0, (l0 = seq k n -> zsum (map (fun _ : nat => c) l0) = c * Z.of_nat n)).
    { intros c k l0 ->. rewrite <- (seq_length n k) at 2. induction (seq k n) as [|a t IH]; [cbn; lia|]. cbn [map zsum fold_right length].
      fold (zsum (map (fun _ : nat => c) t)). rewrite IH. lia. }
    rewrite (X 0 0%nat _ eq_refl), (X (ow oc2) 0%nat _ eq_refl). lia. }
  assert (Le := Min m0 P0). rewrite T0 in Le. assert (Pm' := Pm). destruct Pm' as (L & D & A). rewrite En1, En2 in L.
  assert (SK := solution_kind h w b b md2 oc2 W W eq_refl eq_refl eq_refl eq_refl g l B Pm).
  set (c := fun v => snd (nth v l (O, 0))).
  assert (NE : forall v, (v < n + n)%nat -> nth_error l v = Some (fst (nth v l (O, 0)), c v)).
  { intros v Hv. rewrite (nth_error_nth' l (O, 0)) by lia. unfold c. rewrite <- surjective_pairing. reflexivity. }
  assert (Cl : forall v, (v < n)%nat -> 0 <= c v).
  { intros v Hv. destruct (SK v _ _ (NE v ltac:(lia))) as (_ & _ & K).
    eapply (kind_range h w b b md2 oc2 eq_refl eq_refl eq_refl eq_refl Hmd Hoc) in K. apply K. }
  assert (Cr : forall v, (n <= v < n + n)%nat -> ow oc2 <= c v).
  { intros v Hv. destruct (SK v _ _ (NE v ltac:(lia))) as (_ & _ & K). unfold arc_kind in K. cbn [a_tail a_head a_cost] in K. rewrite En1, En2 in K. unfold multiplier in K.
    destruct K as [[(Q & _) _]|[(p & q & K)|[(p & q & K)|(p & q & K)]]]; [rewrite En1 in Q; lia|lia|lia|lia]. }
  unfold total_cost in Le. rewrite (list_as_table (O, 0) l), L, map_map in Le. fold c in Le.
  rewrite seq_app, map_app, zsum_app in Le.
  assert (G := zsum_ge c (ow oc2) (seq (0 + n) n)). rewrite seq_length in G.
  assert (G' : ow oc2 * Z.of_nat n <= zsum (map c (seq (0 + n) n))) by (apply G; intros v Hv; apply in_seq in Hv; apply Cr; lia).
  assert (Z0 : c i = 0).
  { apply (zsum_nonneg_zero c (seq 0 n)); [intros v Hv; apply in_seq0 in Hv; apply Cl; exact Hv| |apply in_seq0; exact Hi].
    change (fun x => snd (nth x l (O, 0))) with c in Le. lia. }
  destruct (SK i _ _ (NE i ltac:(lia))) as (_ & _ & K). unfold arc_kind in K. cbn [a_tail a_head a_cost] in K. rewrite En1, En2, Z0 in K. unfold multiplier in K.
  destruct K as [[(Q1 & Q2 & _) K]|[(p & q & K)|[(p & q & K)|(p & q & K)]]]; [|lia|lia|lia].
  exists 0. rewrite (NE i ltac:(lia)), Z0. f_equal. f_equal. symmetry in K. apply weight_zero in K; [|apply dist2_nonneg]. unfold d2_nodes in K.
  apply dist2_zero in K. rewrite <- nodes_same in K. rewrite En2 in Q2.
  apply (proj1 (NoDup_nth N1 dd) (NoDup_nodes1 h w b b md2)); [exact Q2|exact Hi|symmetry; exact K].
Qed.

Lemma identical_result s out s' : result_of h w b b md2 oc2 s out s' -> (count_true b <= 6)%nat ->
  forall y x, px 0 (m1 out) y x = if px false b y x then pixel_code h y x else 0.
Proof.
  intros R C y x.
  assert (EL : length N1 = count_true b).
  { rewrite count_true_fg by exact W. unfold nodes1. rewrite (filter_ext _ (fun p => px false b (snd p) (fst p)) matchable1_same).
    unfold fg_list. rewrite (Permutation_length (Permutation_filter_p _ _ _ (coords_colmajor h w))).
    induction (colmajor h w) as [|[u v] t IH]; [reflexivity|]. cbn [filter map swap fst snd]. destruct (px false b v u); cbn [length]; rewrite IH; reflexivity. }
  assert (Dec : forall p, px false b (snd p) (fst p) = true -> In p N1).
  { intros p H. apply (in_nodes1 h w b b md2 W W eq_refl eq_refl eq_refl eq_refl). rewrite matchable1_same. exact H. }
  destruct R as [(Z & -> & _)|(_ & g & l & _ & B & Mn & ->)].
  - unfold nothing. cbn [m1]. rewrite px_tab. destruct (px false b y x) eqn:E.
    + specialize (Dec (x, y) E). assert (X : length N1 = 0%nat) by (unfold n1 in Z; lia). apply length_zero_iff_nil in X. rewrite X in Dec. destruct Dec.
    + destruct (inb h w y x); reflexivity.
  - cbn [outcome_of m1]. destruct (px false b y x) eqn:E.
    + specialize (Dec (x, y) E). destruct (index_of_in (x, y) N1 dd Dec) as [I1 I2].
      destruct (identity_matched g l (index_of (x, y) N1) B ltac:(lia) Mn I1) as (c & Ec).
      assert (In ((x, y), (x, y)) (decode_pairs h w b b md2 l)).
      { apply in_decode. exists (index_of (x, y) N1), (index_of (x, y) N1), c. split; [exact Ec|]. split; [exact I1|].
        split; [unfold n2; rewrite <- nodes_same; exact I1|]. rewrite <- nodes_same, I2. split; reflexivity. }
      apply (m1_pair h w b b md2 oc2 W W eq_refl eq_refl eq_refl eq_refl g l B (proj1 Mn)) in H. apply H.
    + unfold code_map. rewrite px_tab, E. destruct (inb h w y x); reflexivity.
Qed.
End Same.
