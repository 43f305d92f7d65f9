(** Proofs about matchEdgeMaps as a whole. *)
From Verif Require Export ProofsMatch2 SpecCorrespond.
From Coq Require Import Lqa Permutation.
Open Scope Z_scope.
Open Scope list_scope.

Lemma lookup1_sound ps p : match lookup1 ps p with Some q => In (p, q) ps | None => forall q, ~ In (p, q) ps end.
Proof.
  unfold lookup1. rewrite <- fold_left_rev_right.
  assert (Y : forall r : list (pixel * pixel), match fold_right (fun y x => if pix_eqb (fst y) p then Some (snd y) else x) None r with Some q => In (p, q) r | None => forall q, ~ In (p, q) r end).
  { induction r as [|[a b] r IH]; [intros q []|]. cbn [fold_right fst snd]. destruct (pix_eqb_spec a p) as [->|N]; [left; reflexivity|].
    destruct (fold_right _ None r) as [q|]; [right; exact IH|]. intros q [E|E]; [congruence|exact (IH q E)]. }
  specialize (Y (rev ps)). destruct (fold_right _ None (rev ps)) as [q|]; [apply in_rev; exact Y|].
  intros q H. apply (Y q). apply in_rev in H. exact H.
Qed.
Lemma lookup2_sound ps q : match lookup2 ps q with Some p => In (p, q) ps | None => forall p, ~ In (p, q) ps end.
Proof.
  unfold lookup2. rewrite <- fold_left_rev_right.
  assert (Y : forall r : list (pixel * pixel), match fold_right (fun y x => if pix_eqb (snd y) q then Some (fst y) else x) None r with Some p => In (p, q) r | None => forall p, ~ In (p, q) r end).
  { induction r as [|[a b] r IH]; [intros p []|]. cbn [fold_right fst snd]. destruct (pix_eqb_spec b q) as [->|N]; [left; reflexivity|].
    destruct (fold_right _ None r) as [p|]; [right; exact IH|]. intros p [E|E]; [congruence|exact (IH p E)]. }
  specialize (Y (rev ps)). destruct (fold_right _ None (rev ps)) as [p|]; [apply in_rev; exact Y|].
  intros p H. apply (Y p). apply in_rev in H. exact H.
Qed.
Lemma in_combine_seq {A} (l : list A) : forall i a, In (i, a) (combine (seq 0 (length l)) l) <-> nth_error l i = Some a.
Proof.
  assert (G : forall k i a, In (i, a) (combine (seq k (length l)) l) <-> (k <= i)%nat /\ nth_error l (i - k) = Some a).
  { induction l as [|b l IH]; intros k i a; cbn [length seq combine].
    - split; [intros []|]. intros [_ H]. destruct (i - k)%nat; discriminate.
    - split.
      + intros [E|E].
        * injection E as -> ->. split; [lia|]. rewrite Nat.sub_diag. reflexivity.
        * apply IH in E. destruct E as [E1 E2]. split; [lia|]. replace (i - k)%nat with (S (i - S k)) by lia. exact E2.
      + intros [E1 E2]. destruct (Nat.eq_dec i k) as [->|N].
        * rewrite Nat.sub_diag in E2. injection E2 as ->. left. reflexivity.
        * right. apply IH. split; [lia|]. replace (i - k)%nat with (S (i - S k)) in E2 by lia. exact E2. }
  intros i a. rewrite G. rewrite Nat.sub_0_r. split; [tauto|]. intros; split; [lia|assumption].
Qed.
Lemma code_inj h y x y' x' : 0 <= y < Z.of_nat h -> 0 <= y' < Z.of_nat h -> pixel_code h y x = pixel_code h y' x' -> y = y' /\ x = x'.
Proof. unfold pixel_code. intros A B E. assert (x = x') by nia. subst x'. lia. Qed.

(** Consequences of the specification alone. *)
Section Spec.
Variable b1 b2 : image bool.
Variable tol2 : Q.
Hypothesis W1 : wf b1.
Hypothesis W2 : wf b2.
Hypothesis S : same_shape b1 b2.
Lemma inside (b : image bool) y x : wf b -> px false b y x = true -> inb (ht b) (wd b) y x = true.
Proof. intros W H. destruct (inb (ht b) (wd b) y x) eqn:E; [reflexivity|]. rewrite px_out in H; [discriminate|exact W|exact E]. Qed.
Lemma injective_matches m1 m2 : is_correspondence b1 b2 tol2 m1 m2 -> forall y x y' x',
  px 0 m1 y x <> 0 -> px 0 m1 y x = px 0 m1 y' x' -> y = y' /\ x = x'.
Proof.
  intros (_ & _ & P & _) y x y' x' N E. assert (N' : px 0 m1 y' x' <> 0) by congruence.
  destruct (P y x N) as (A & u & v & B & C & _ & D). destruct (P y' x' N') as (A' & u' & v' & B' & C' & _ & D').
  apply inside in A, A', C, C'; try assumption. rewrite inb_spec in A, A', C, C'. destruct S as [S1 S2]. rewrite S1 in *.
  rewrite B, B' in E. apply code_inj in E; [|lia|lia]. destruct E as [-> ->]. rewrite D in D'. apply code_inj in D'; [exact D'|lia|lia].
Qed.
Definition nz (m : image Z) := fg_list (imap (fun v => negb (v =? 0)) m).
Lemma in_nz m y x : wf m -> In (y, x) (nz m) <-> px 0 m y x <> 0.
Proof.
  intros W. unfold nz. rewrite in_fg_list by (apply wf_imap; exact W). assert (E := px_imap (fun v => negb (v =? 0)) 0 m y x). cbv beta in E. change (negb (0 =? 0)) with false in E. rewrite E.
  destruct (Z.eqb_spec (px 0 m y x) 0); cbn [negb]; intuition (try discriminate; try contradiction).
Qed.
End Spec.
Lemma matched_le b1 b2 tol2 m1 m2 : wf b1 -> wf b2 -> same_shape b1 b2 -> is_correspondence b1 b2 tol2 m1 m2 -> (matched m1 <= matched m2)%nat.
Proof.
  intros W1 W2 S K. assert (I := injective_matches b1 b2 tol2 W1 W2 S m1 m2 K). destruct K as ((Wm1 & _) & (Wm2 & _) & P & _).
  unfold matched. rewrite !count_true_fg by (apply wf_imap; assumption). fold (nz m1) (nz m2).
  set (h := Z.of_nat (ht b1)).
  set (f := fun p : Z * Z => ((px 0 m1 (fst p) (snd p) - 1) mod h, (px 0 m1 (fst p) (snd p) - 1) / h)).
  assert (F : forall p, In p (nz m1) -> exists y' x', px 0 m1 (fst p) (snd p) = pixel_code (ht b1) y' x' /\ f p = (y', x') /\ In (y', x') (nz m2)).
  { intros [y x] H. apply in_nz in H; [|exact Wm1]. destruct (P y x H) as (A & y' & x' & B & C & _ & D).
    exists y', x'. cbn [fst snd]. split; [exact B|]. apply inside in A, C; try assumption. rewrite inb_spec in A, C. destruct S as [S1 S2].
    split.
    - unfold f. cbn [fst snd]. rewrite B. unfold pixel_code. fold h. replace (x' * h + y' + 1 - 1) with (y' + x' * h) by ring.
      rewrite Z.mod_add, Z.div_add by (unfold h; lia). rewrite Z.mod_small, Z.div_small by (unfold h; lia). f_equal. 
    - apply in_nz; [exact Wm2|]. rewrite D. unfold pixel_code. nia. }
  rewrite <- (map_length f (nz m1)). apply NoDup_incl_length.
  - apply NoDup_map_inj_on; [|apply NoDup_fg_list]. intros [y x] [u v] A B E.
    destruct (F _ A) as (a1 & a2 & A1 & A2 & _). destruct (F _ B) as (c1 & c2 & C1 & C2 & _). cbn [fst snd] in A1, C1.
    rewrite A2, C2 in E. injection E as -> ->. apply in_nz in A; [|exact Wm1].
    destruct (I y x u v A) as [-> ->]; [congruence|reflexivity].
  - intros q Q. apply in_map_iff in Q. destruct Q as (p & <- & Q). destruct (F p Q) as (a & b & _ & -> & R). exact R.
Qed.
Lemma correspondence_sym b1 b2 tol2 m1 m2 : is_correspondence b1 b2 tol2 m1 m2 -> is_correspondence b2 b1 tol2 m2 m1.
Proof. intros (A & B & C & D). split; [exact B|]. split; [exact A|]. split; assumption. Qed.
Lemma equal_matched b1 b2 tol2 m1 m2 : wf b1 -> wf b2 -> same_shape b1 b2 -> is_correspondence b1 b2 tol2 m1 m2 -> matched m1 = matched m2.
Proof.
  intros W1 W2 S K. apply Nat.le_antisymm; [exact (matched_le b1 b2 tol2 m1 m2 W1 W2 S K)|].
  apply (matched_le b2 b1 tol2 m2 m1 W2 W1); [destruct S; split; congruence|apply correspondence_sym; exact K].
Qed.

Section Match.
Variable h w : nat.
Variable b1 b2 : image bool.
Variable md2 oc2 : Q.
Hypothesis W1 : wf b1.
Hypothesis W2 : wf b2.
Hypothesis Eh1 : ht b1 = h.
Hypothesis Ew1 : wd b1 = w.
Hypothesis Eh2 : ht b2 = h.
Hypothesis Ew2 : wd b2 = w.
Hypothesis Hmd : (0 <= md2)%Q.
Hypothesis Hoc : (md2 < oc2)%Q.

Notation nodes1 := (nodes1 h w b1 b2 md2).
Notation nodes2 := (nodes2 h w b1 b2 md2).
Notation n1 := (n1 h w b1 b2 md2).
Notation n2 := (n2 h w b1 b2 md2).
Notation dd := (-1, -1).
Notation decode_pairs := (decode_pairs h w b1 b2 md2).
Notation built := (built h w b1 b2 md2 oc2).

Lemma in_decode l p q : In (p, q) (decode_pairs l) <->
  exists i j c, nth_error l i = Some (j, c) /\ (i < n1)%nat /\ (j < n2)%nat /\ p = nth i nodes1 dd /\ q = nth j nodes2 dd.
Proof.
  unfold ModelMatch.decode_pairs. rewrite in_flat_map. split.
  - intros ((i & (j & c)) & H & X). apply in_combine_seq in H.
    destruct (Nat.ltb_spec i n1); [|destruct X]. destruct (Nat.ltb_spec j n2); [|destruct X].
    destruct X as [X|[]]. injection X as <- <-. exists i, j, c. repeat (split; [assumption|]). split; reflexivity.
  - intros (i & j & c & E & A & B & -> & ->). exists (i, (j, c)). split; [apply in_combine_seq; exact E|].
    apply Nat.ltb_lt in A, B. rewrite A, B. left. reflexivity.
Qed.

Variable g : list garc.
Variable l : list (nat * Z).
Hypothesis Bg : built g.
Hypothesis Pm : perfect_matching (n1 + n2) g l.

Lemma solution_kind i j c : nth_error l i = Some (j, c) -> (i < n1 + n2)%nat /\ (j < n1 + n2)%nat /\ arc_kind h w b1 b2 md2 oc2 (mkArc i j c).
Proof.
  intros E. destruct Pm as (L & _ & A). split; [rewrite <- L; apply nth_error_Some; congruence|].
  destruct (A i j c E) as [B I]. split; [exact B|].
  eapply (built_kind h w b1 b2 md2 oc2); [assumption|assumption|assumption|assumption|assumption|assumption|exact Bg|exact I].
Qed.
Lemma real_real i j c : nth_error l i = Some (j, c) -> (i < n1)%nat -> (j < n2)%nat ->
  near md2 (nth i nodes1 dd) (nth j nodes2 dd) /\ c = weight (dist2 (nth i nodes1 dd) (nth j nodes2 dd)).
Proof.
  intros E A B. destruct (solution_kind i j c E) as (_ & _ & K). unfold arc_kind in K. cbn [a_tail a_head a_cost] in K.
  destruct K as [[(_ & _ & N) C]|[(? & ? & K)|[(? & ? & K)|(? & ? & K)]]]; [|lia|lia|lia].
  split; [exact N|]. exact C.
Qed.
Lemma check_solution_ok : check_solution h w b1 b2 md2 l = true.
Proof.
  unfold check_solution. apply forallb_forall. intros (i & (j & c)) H. apply in_combine_seq in H.
  destruct (solution_kind i j c H) as (A & B & K).
  assert (R : (a_tail (mkArc i j c) < n1 + n2)%nat /\ (a_head (mkArc i j c) < n1 + n2)%nat /\ 0 <= a_cost (mkArc i j c))
    by (eapply (kind_range h w b1 b2 md2 oc2); eassumption).
  cbn [a_tail a_head a_cost] in R. rewrite !andb_true_iff. split; [split; [apply Nat.ltb_lt; lia|lia]|].
  destruct (Nat.ltb_spec i n1) as [L1|]; [|reflexivity]. destruct (Nat.ltb_spec j n2) as [L2|]; [|reflexivity]. cbn [andb].
  apply Z.eqb_eq. symmetry. apply (real_real i j c H L1 L2).
Qed.

Lemma decode_props p q : In (p, q) (decode_pairs l) -> at1 b1 p = true /\ at2 b2 q = true /\ near md2 p q.
Proof.
  intros H. apply in_decode in H. destruct H as (i & j & c & E & A & B & -> & ->).
  split; [|split].
  - assert (I : In (nth i nodes1 dd) nodes1) by (apply nth_In; exact A). apply in_nodes1 in I; try assumption. apply matchable1_spec in I; try assumption. apply I.
  - assert (I : In (nth j nodes2 dd) nodes2) by (apply nth_In; exact B). apply in_nodes2 in I; try assumption. apply matchable2_spec in I; try assumption. apply I.
  - apply (real_real i j c E A B).
Qed.
Lemma decode_fun1 p q q' : In (p, q) (decode_pairs l) -> In (p, q') (decode_pairs l) -> q = q'.
Proof.
  intros X Y. apply in_decode in X, Y. destruct X as (i & j & c & E & A & B & X1 & ->), Y as (i' & j' & c' & E' & A' & B' & Y1 & ->).
  assert (i = i').
  { apply (proj1 (NoDup_nth nodes1 dd) (NoDup_nodes1 h w b1 b2 md2)); [exact A|exact A'|congruence]. }
  subst i'. rewrite E in E'. injection E' as -> ->. reflexivity.
Qed.
Lemma decode_fun2 p p' q : In (p, q) (decode_pairs l) -> In (p', q) (decode_pairs l) -> p = p'.
Proof.
  intros X Y. apply in_decode in X, Y. destruct X as (i & j & c & E & A & B & -> & X1), Y as (i' & j' & c' & E' & A' & B' & -> & Y1).
  assert (j = j').
  { apply (proj1 (NoDup_nth nodes2 dd) (NoDup_nodes2 h w b1 b2 md2)); [exact B|exact B'|congruence]. }
  subst j'. destruct Pm as (L & D & _).
  assert (I1 : nth_error (map fst l) i = Some j) by (rewrite nth_error_map, E; reflexivity).
  assert (I2 : nth_error (map fst l) i' = Some j) by (rewrite nth_error_map, E'; reflexivity).
  assert (i = i').
  { apply (proj1 (NoDup_nth_error (map fst l)) D); [apply nth_error_Some; congruence|congruence]. }
  subst i'. reflexivity.
Qed.
Lemma lookup1_spec p q : lookup1 (decode_pairs l) p = Some q <-> In (p, q) (decode_pairs l).
Proof.
  assert (X := lookup1_sound (decode_pairs l) p). destruct (lookup1 (decode_pairs l) p) as [q'|].
  - split; [intros E; injection E as <-; exact X|]. intros Y. f_equal. exact (decode_fun1 p q' q X Y).
  - split; [discriminate|]. intros Y. destruct (X q Y).
Qed.
Lemma lookup2_spec p q : lookup2 (decode_pairs l) q = Some p <-> In (p, q) (decode_pairs l).
Proof.
  assert (X := lookup2_sound (decode_pairs l) q). destruct (lookup2 (decode_pairs l) q) as [p'|].
  - split; [intros E; injection E as <-; exact X|]. intros Y. f_equal. exact (decode_fun2 p' p q X Y).
  - split; [discriminate|]. intros Y. destruct (X p Y).
Qed.

Notation M1 := (code_map h w b1 (lookup1 (decode_pairs l))).
Notation M2 := (code_map h w b2 (lookup2 (decode_pairs l))).
Lemma code_pixel x y : code h (x, y) = pixel_code h y x. Proof. reflexivity. Qed.
Lemma code_pos q : inimg h w q -> 0 < code h q.
Proof. unfold inimg, code. rewrite inb_spec. nia. Qed.
Lemma m1_value y x : px 0 M1 y x = match lookup1 (decode_pairs l) (x, y) with Some q => code h q | None => 0 end.
Proof.
  unfold code_map. rewrite px_tab. assert (X := lookup1_spec (x, y)). destruct (lookup1 (decode_pairs l) (x, y)) as [q|].
  - specialize (X q). destruct (decode_props _ _ (proj1 X eq_refl)) as (A & _ & _). unfold at1 in A. cbn [fst snd] in A. rewrite A.
    apply (at1_in h w b1 W1 Eh1 Ew1 (x, y)) in A. unfold inimg in A. cbn [fst snd] in A. rewrite A. reflexivity.
  - destruct (inb h w y x); [|reflexivity]. destruct (px false b1 y x); reflexivity.
Qed.
Lemma m2_value y x : px 0 M2 y x = match lookup2 (decode_pairs l) (x, y) with Some q => code h q | None => 0 end.
Proof.
  unfold code_map. rewrite px_tab. assert (X := fun p => lookup2_spec p (x, y)). destruct (lookup2 (decode_pairs l) (x, y)) as [q|].
  - specialize (X q). destruct (decode_props _ _ (proj1 X eq_refl)) as (_ & A & _). unfold at2 in A. cbn [fst snd] in A. rewrite A.
    apply (at2_in h w b2 W2 Eh2 Ew2 (x, y)) in A. unfold inimg in A. cbn [fst snd] in A. rewrite A. reflexivity.
  - destruct (inb h w y x); [|reflexivity]. destruct (px false b2 y x); reflexivity.
Qed.
(** Entries of the maps in terms of the pairs. *)
Lemma m1_pair y x y' x' : In ((x, y), (x', y')) (decode_pairs l) <-> px false b2 y' x' = true /\ px 0 M1 y x = pixel_code h y' x'.
Proof.
  rewrite m1_value. split.
  - intros H. split; [apply (decode_props _ _ H)|]. apply lookup1_spec in H. rewrite H. reflexivity.
  - intros [B E]. assert (I := at2_in h w b2 W2 Eh2 Ew2 (x', y') B). assert (P := code_pos _ I). rewrite code_pixel in P.
    assert (X := lookup1_spec (x, y)). destruct (lookup1 (decode_pairs l) (x, y)) as [[x2 y2]|]; [|lia].
    assert (Y := proj1 (X _) eq_refl). destruct (decode_props _ _ Y) as (_ & C & _). apply (at2_in h w b2 W2 Eh2 Ew2) in C.
    unfold inimg in I, C. rewrite inb_spec in I, C. cbn [fst snd] in I, C. rewrite code_pixel in E.
    apply code_inj in E; [|lia|lia]. destruct E as [-> ->]. exact Y.
Qed.

Lemma decoded_correspondence : is_correspondence b1 b2 md2 M1 M2.
Proof.
  split; [split; [apply wf_tab|split; [exact (eq_sym Eh1)|exact (eq_sym Ew1)]]|].
  split; [split; [apply wf_tab|split; [exact (eq_sym Eh2)|exact (eq_sym Ew2)]]|]. split.
  - intros y x N. rewrite m1_value in N. assert (X := lookup1_spec (x, y)). rewrite m1_value.
    destruct (lookup1 (decode_pairs l) (x, y)) as [[x' y']|]; [|contradiction].
    assert (Y := proj1 (X _) eq_refl). destruct (decode_props _ _ Y) as (A & B & C). split; [exact A|].
    exists y', x'. rewrite Eh1. split; [reflexivity|]. split; [exact B|]. split; [exact C|].
    rewrite m2_value. apply lookup2_spec in Y. rewrite Y. reflexivity.
  - intros y x N. rewrite m2_value in N. assert (X := fun p => lookup2_spec p (x, y)). rewrite m2_value.
    destruct (lookup2 (decode_pairs l) (x, y)) as [[x' y']|]; [|contradiction].
    assert (Y := proj1 (X _) eq_refl). destruct (decode_props _ _ Y) as (A & B & C). split; [exact B|].
    exists y', x'. rewrite Eh2. split; [reflexivity|]. split; [exact A|]. split.
    + unfold near in C. rewrite dist2_sym in C. exact C.
    + rewrite m1_value. apply lookup1_spec in Y. rewrite Y. reflexivity.
Qed.
End Match.

Lemma nothing_correspondence b1 b2 md2 : same_shape b1 b2 ->
  is_correspondence b1 b2 md2 (m1 (nothing (ht b1) (wd b1))) (m2 (nothing (ht b1) (wd b1))).
Proof.
  intros [S1 S2]. unfold nothing. cbn [m1 m2]. split; [split; [apply wf_tab|split; reflexivity]|].
  split; [split; [apply wf_tab|split; assumption]|].
  split; intros y x N; rewrite px_tab in N; destruct (inb _ _ y x); contradiction.
Qed.
