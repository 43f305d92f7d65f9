(** From the graph to the result. *)
From Verif Require Import ModelArrays SpecMatch ProofsImage ProofsKofn ProofsMatch ProofsMatch2 ProofsMatch3 ProofsArrays ProofsArrays2.
From Coq Require Import Lia ZifyBool ZifyNat.
Open Scope Z_scope.
Open Scope list_scope.

Lemma zfor {St} (f : Z -> St -> res St) (I : Z -> St -> Prop) n s : 0 <= n -> I 0 s ->
  (forall i s, 0 <= i < n -> I i s -> exists s', f i s = Ok s' /\ I (i + 1) s') ->
  exists s', foldM f (zseq (Z.to_nat n)) s = Ok s' /\ I n s'.
Proof.
  intros Hn H0 H. destruct (foldM_inv f (fun pre s => exists k, pre = zseq k /\ I (Z.of_nat k) s) (zseq (Z.to_nat n)) s) as (s' & E & k & Ek & J).
  - exists 0%nat. split; [reflexivity|exact H0].
  - intros pre x post t E (k & -> & J).
    assert (X : x = Z.of_nat k /\ (k < Z.to_nat n)%nat).
    { assert (L : (k < Z.to_nat n)%nat).
      { assert (Y := f_equal (@length Z) E). rewrite app_length in Y. unfold zseq in Y. rewrite !map_length, !seq_length in Y. cbn [length] in Y. lia. }
      split; [|exact L]. assert (Y := f_equal (fun l => nth k l 0) E). cbn beta in Y.
      rewrite app_nth2 in Y by (unfold zseq; rewrite map_length, seq_length; lia). unfold zseq at 2 in Y. rewrite map_length, seq_length, Nat.sub_diag in Y. cbn [nth] in Y.
      unfold zseq in Y. change 0 with (Z.of_nat 0) in Y. rewrite map_nth, seq_nth in Y by exact L. lia. }
    destruct X as [-> L]. destruct (H (Z.of_nat k) t) as (t' & E' & J'); [lia|exact J|]. exists t'. split; [exact E'|]. exists (Datatypes.S k).
    split; [symmetry; apply zseq_S|]. replace (Z.of_nat (S k)) with (Z.of_nat k + 1) by lia. exact J'.
  - exists s'. split; [exact E|]. assert (Y := f_equal (@length Z) Ek). unfold zseq in Y. rewrite !map_length, !seq_length in Y. replace n with (Z.of_nat k) by lia. exact J.
Qed.

Definition rows_are (g : arr Z) (m : Z) (F : Z -> Z * Z * Z) : Prop := tbl g m 3 (fun i k => Some (rowval (F i) k)).
Lemma filled_rows gc m L : filled gc m L -> Z.of_nat (length L) = m -> snd gc = m /\ rows_are (fst gc) m (fun i => nth (Z.to_nat i) L r0).
Proof.
  intros (E & f & T & F) H. split; [lia|]. apply (tbl_ext _ _ _ _ _ T). intros i k I K. apply F; lia.
Qed.
Lemma rows_rd g m F i : rows_are g m F -> 0 <= i < m ->
  rd g i 0 = Ok (fst (fst (F i))) /\ rd g i 1 = Ok (snd (fst (F i))) /\ rd g i 2 = Ok (snd (F i)).
Proof.
  intros T I. split; [|split].
  - apply (rd_tbl g m 3 _ i 0 _ T I); [lia|reflexivity].
  - apply (rd_tbl g m 3 _ i 1 _ T I); [lia|reflexivity].
  - apply (rd_tbl g m 3 _ i 2 _ T I); [lia|reflexivity].
Qed.

(** match.cc:251-259 *)
Definition shifted (n : Z) (r : Z * Z * Z) : Z * Z * Z := (fst (fst r) + 1, snd (fst r) + (1 + n), snd r).
Lemma shift_rows_ok m n g F : 0 <= m -> rows_are g m F -> (forall i, 0 <= i < m -> 0 <= fst (fst (F i)) < n /\ 0 <= snd (fst (F i)) < n) ->
  exists g', shift_rows m n g = Ok g' /\ rows_are g' m (fun i => shifted n (F i)).
Proof.
  intros Hm T H. destruct (zfor (fun i g => bind (rd g i 0) (fun a => require ((0 <=? a) && (a <? n))
    (bind (rd g i 1) (fun b => require ((0 <=? b) && (b <? n))
    (bind (wr g i 0 (a + 1)) (fun g => wr g i 1 (b + (1 + n))))))))
    (fun c g => rows_are g m (fun i => if i <? c then shifted n (F i) else F i)) m g Hm) as (g' & E & T').
  - apply (tbl_ext _ _ _ _ _ T). intros i k I K. cbn beta. destruct (i <? 0) eqn:X; [lia|reflexivity].
  - intros i t I Ti. destruct (rows_rd t m _ i Ti I) as (R0 & R1 & _). rewrite R0. cbn [bind]. rewrite Z.ltb_irrefl. destruct (H i I) as [A B].
    unfold require. replace ((0 <=? fst (fst (F i))) && (fst (fst (F i)) <? n)) with true by (symmetry; lia).
    rewrite R1. cbn [bind]. rewrite Z.ltb_irrefl. replace ((0 <=? snd (fst (F i))) && (snd (fst (F i)) <? n)) with true by (symmetry; lia).
    destruct (wr_tbl t m 3 _ i 0 (fst (fst (F i)) + 1) Ti I ltac:(lia)) as (t1 & E1 & T1). rewrite E1. cbn [bind].
    destruct (wr_tbl t1 m 3 _ i 1 (snd (fst (F i)) + (1 + n)) T1 I ltac:(lia)) as (t2 & E2 & T2). exists t2. split; [exact E2|].
    apply (tbl_ext _ _ _ _ _ T2). intros i' k I' K. cbn beta. destruct (Z.eqb_spec i' i) as [->|Ne].
    + replace (i <? i + 1) with true by lia. rewrite Z.ltb_irrefl. assert (k = 0 \/ k = 1 \/ k = 2) as [-> | [-> | ->]] by lia; reflexivity.
    + cbn [andb]. destruct (i' <? i) eqn:X; destruct (i' <? i + 1) eqn:Y; try lia; reflexivity.
  - exists g'. split; [exact E|]. apply (tbl_ext _ _ _ _ _ T'). intros i k I K. cbn beta. destruct (i <? m) eqn:X; [reflexivity|lia].
Qed.
(** csa.hh:713-731 *)
Lemma firstn_snoc {A} (l : list A) i d : (i < length l)%nat -> firstn (S i) l = firstn i l ++ [nth i l d].
Proof.
  revert i. induction l as [|a l IH]; intros i H; [cbn in H; lia|]. destruct i as [|i]; [reflexivity|]. cbn [firstn nth app]. rewrite <- IH by (cbn in H; lia). reflexivity.
Qed.
Lemma csa_input_ok m n t g : Z.of_nat (length g) = m -> (forall a, In a g -> Z.of_nat (a_tail a) < n /\ Z.of_nat (a_head a) < n) ->
  rows_are t m (fun i => shifted n (nth (Z.to_nat i) (map az g) r0)) -> csa_input m n t = Ok g.
Proof.
  intros Lg H T. unfold csa_input.
  match goal with |- foldM ?f _ _ = _ => destruct (zfor f (fun c l => l = firstn (Z.to_nat c) g) m []) as (l & E & ->) end.
  - lia.
  - reflexivity.
  - intros i s I ->. destruct (rows_rd t m _ i T I) as (R0 & R1 & R2). rewrite R0. cbn [bind]. rewrite R1. cbn [bind]. rewrite R2. cbn [bind].
    set (d0' := mkArc 0 0 0). assert (Ed : r0 = az d0') by reflexivity. rewrite Ed, map_nth. set (a := nth (Z.to_nat i) g d0').
    assert (Ia : In a g) by (apply nth_In; lia). destruct (H a Ia) as [A B]. unfold shifted, az. cbn [fst snd].
    match goal with |- context [if ?b then _ else _] => replace b with false by (symmetry; lia) end.
    eexists. split; [reflexivity|]. replace (Z.to_nat (i + 1)) with (S (Z.to_nat i)) by lia. rewrite (firstn_snoc g _ d0') by lia. fold a. f_equal. f_equal.
    destruct a as [ta ha ca]. cbn [a_tail a_head a_cost]. f_equal; lia.
  - rewrite E. rewrite firstn_all2 by lia. reflexivity.
Qed.
(** match.cc:264-270 *)
Definition sol_row (l : list (nat * Z)) (i : Z) : Z * Z * Z := let e := nth (Z.to_nat i) l (O, 0) in (i, Z.of_nat (fst e), snd e).
Lemma vget_ok {A} (l : list A) i d : 0 <= i < Z.of_nat (length l) -> vget l i = Ok (nth (Z.to_nat i) l d).
Proof. intros H. unfold vget. replace (i <? 0) with false by lia. rewrite (nth_error_nth' l d) by lia. reflexivity. Qed.
Lemma solution_rows_ok n l : Z.of_nat (length l) = n -> n * 3 < 2 ^ 32 -> exists og, solution_rows n l = Ok og /\ rows_are og n (sol_row l).
Proof.
  intros L H. unfold solution_rows.
  destruct (put_list (fun i gc => bind (vget l i) (fun e => put (i + 1 - 1, Z.of_nat (fst e) + 1 + n - 1 - n, snd e) gc)) (sol_row l) n (zseq (Z.to_nat n)) (alloc n 3, 0) []) as (gc & E & G).
  - intros i gc I. apply in_zseq in I. rewrite (vget_ok l i (O, 0)) by lia. cbn [bind]. unfold sol_row. f_equal. f_equal. f_equal; lia.
  - split; [reflexivity|]. exists (fun _ _ => None). cbn [fst]. split; [apply alloc_tbl; lia|]. cbn. lia.
  - unfold zseq. rewrite map_length, seq_length. cbn [length]. lia.
  - rewrite E. cbn [bind]. exists (fst gc). split; [reflexivity|]. cbn [app] in G. apply filled_rows in G.
    + destruct G as [_ G]. apply (tbl_ext _ _ _ _ _ G). intros i k I K. f_equal. f_equal.
      unfold zseq. rewrite map_map. rewrite (nth_indep _ r0 (sol_row l (Z.of_nat 0))) by (rewrite map_length, seq_length; lia).
      rewrite (map_nth (fun x => sol_row l (Z.of_nat x))), seq_nth by lia. f_equal. lia.
    + unfold zseq. rewrite !map_length, seq_length. lia.
Qed.

Section Match.
Variable h w : nat.
Variable b1 b2 : image bool.
Variable md2 oc2 : Q.
Hypothesis W1 : wf b1.
Hypothesis W2 : wf b2.
Hypothesis Eh1 : ht b1 = h.
Hypothesis Ew1 : wd b1 = w.
Hypothesis Eh2 : ht b2 = h.
Hypothesis Ew2 : wd b2 = w.
Hypothesis Hmd : (0 <= md2)%Q.
Hypothesis Hoc : (md2 < oc2)%Q.
Notation zh := (Z.of_nat h).
Notation zw := (Z.of_nat w).
Hypothesis Hhw : zw * zh < 2 ^ 32.
Hypothesis Hh : zh < 2 ^ 32.
Hypothesis Hw : zw < 2 ^ 32.
Notation nodes1 := (nodes1 h w b1 b2 md2).
Notation nodes2 := (nodes2 h w b1 b2 md2).
Notation n1 := (n1 h w b1 b2 md2).
Notation n2 := (n2 h w b1 b2 md2).
Notation dd := (-1, -1).
Variable g : list garc.
Variable l : list (nat * Z).
Hypothesis Bg : built h w b1 b2 md2 oc2 g.
Hypothesis Pm : perfect_matching (n1 + n2) g l.
Notation N := (Z.of_nat n1 + Z.of_nat n2).

Lemma sol_len : Z.of_nat (length l) = N. Proof. destruct Pm as (L & _). lia. Qed.
Lemma sol_at i : 0 <= i < N -> let e := nth (Z.to_nat i) l (O, 0) in nth_error l (Z.to_nat i) = Some (fst e, snd e) /\
  (fst e < n1 + n2)%nat /\ 0 <= snd e.
Proof.
  intros I e. assert (L := sol_len). assert (E : nth_error l (Z.to_nat i) = Some (fst e, snd e)) by (rewrite <- surjective_pairing; apply nth_error_nth'; lia).
  split; [exact E|]. destruct (solution_kind h w b1 b2 md2 oc2 W1 W2 Eh1 Ew1 Eh2 Ew2 g l Bg Pm _ _ _ E) as (A & B & K). split; [exact B|].
  assert (R : (a_tail (mkArc (Z.to_nat i) (fst e) (snd e)) < n1 + n2)%nat /\ (a_head (mkArc (Z.to_nat i) (fst e) (snd e)) < n1 + n2)%nat /\ 0 <= a_cost (mkArc (Z.to_nat i) (fst e) (snd e)))
    by (eapply (kind_range h w b1 b2 md2 oc2); eassumption). apply R.
Qed.
(** match.cc:275-296 *)
Lemma check_rows_ok og : rows_are og N (sol_row l) -> check_rows N (Z.of_nat n1) (Z.of_nat n2) nodes1 nodes2 og = Ok tt.
Proof.
  intros T. unfold check_rows.
  match goal with |- foldM ?f _ _ = _ => destruct (zfor f (fun _ _ => True) N tt) as ([] & E & _) end; [lia|exact I| |exact E].
  intros i [] I0 _. destruct (rows_rd og N _ i T I0) as (R0 & R1 & R2). rewrite R0. cbn [bind]. rewrite R1. cbn [bind]. rewrite R2. cbn [bind].
  destruct (sol_at i I0) as (E & B & C). unfold sol_row. set (e := nth (Z.to_nat i) l (O, 0)) in *. cbn [fst snd]. exists tt. split; [|exact I].
  unfold require. match goal with |- (if ?b then _ else _) = _ => replace b with true by (symmetry; lia) end.
  destruct (Z.of_nat n1 <=? i) eqn:X; [reflexivity|]. destruct (Z.of_nat n2 <=? Z.of_nat (fst e)) eqn:Y; [reflexivity|].
  rewrite (vget_ok nodes1 i dd) by (fold n1; lia). cbn [bind]. rewrite (vget_ok nodes2 _ dd) by (fold n2; lia). cbn [bind]. rewrite Nat2Z.id.
  assert (RR : near md2 (nth (Z.to_nat i) nodes1 dd) (nth (fst e) nodes2 dd) /\ snd e = weight (dist2 (nth (Z.to_nat i) nodes1 dd) (nth (fst e) nodes2 dd)))
    by (eapply (real_real h w b1 b2 md2 oc2); try eassumption; lia).
  destruct RR as [_ RR]. rewrite <- RR, Z.eqb_refl. reflexivity.
Qed.
(** match.cc:306-320 *)
Definition found (o : option pixel) : pixel := match o with Some q => q | None => (-1, -1) end.
Lemma combine_snoc (r : list (nat * Z)) e : combine (seq 0 (length (r ++ [e]))) (r ++ [e]) = combine (seq 0 (length r)) r ++ [(length r, e)].
Proof.
  clear. rewrite app_length. cbn [length]. rewrite Nat.add_1_r, seq_S. cbn [Nat.add].
  assert (C : forall (x : list nat) (y : list (nat * Z)) a b, length x = length y -> combine (x ++ [a]) (y ++ [b]) = combine x y ++ [(a, b)]).
  { induction x as [|x0 x IHx]; intros [|y0 y] a b EL; try discriminate; [reflexivity|]. cbn. rewrite IHx; [reflexivity|]. cbn in EL. congruence. }
  apply C, seq_length.
Qed.
Lemma decode_snoc r e : decode_pairs h w b1 b2 md2 (r ++ [e]) = decode_pairs h w b1 b2 md2 r ++
  (if Nat.ltb (length r) n1 && Nat.ltb (fst e) n2 then [(nth (length r) nodes1 dd, nth (fst e) nodes2 dd)] else []).
Proof. clear. unfold decode_pairs. rewrite combine_snoc, flat_map_snoc. destruct e as [j c]. reflexivity. Qed.
Lemma lookup1_snoc ps e p : lookup1 (ps ++ [e]) p = if pix_eqb (fst e) p then Some (snd e) else lookup1 ps p.
Proof. clear. unfold lookup1. rewrite fold_left_app. reflexivity. Qed.
Lemma lookup2_snoc ps e p : lookup2 (ps ++ [e]) p = if pix_eqb (snd e) p then Some (fst e) else lookup2 ps p.
Proof. clear. unfold lookup2. rewrite fold_left_app. reflexivity. Qed.
Lemma node1_in i : (i < n1)%nat -> inimg h w (nth i nodes1 dd).
Proof. clear. intros H. assert (X : In (nth i nodes1 dd) nodes1) by (apply nth_In; exact H). apply filter_In in X. destruct X as [X _]. apply in_colmajor in X. exact X. Qed.
Lemma node2_in i : (i < n2)%nat -> inimg h w (nth i nodes2 dd).
Proof. clear. intros H. assert (X : In (nth i nodes2 dd) nodes2) by (apply nth_In; exact H). apply filter_In in X. destruct X as [X _]. apply in_colmajor in X. exact X. Qed.
Notation ps := (decode_pairs h w b1 b2 md2 l).
Lemma decode_rows_ok og m1 m2 : rows_are og N (sol_row l) ->
  tbl m1 zw zh (fun _ _ => Some dd) -> tbl m2 zw zh (fun _ _ => Some dd) ->
  exists ma1 ma2, decode_rows N (Z.of_nat n1) (Z.of_nat n2) nodes1 nodes2 og (m1, m2) = Ok (ma1, ma2) /\
    tbl ma1 zw zh (fun x y => Some (found (lookup1 ps (x, y)))) /\ tbl ma2 zw zh (fun x y => Some (found (lookup2 ps (x, y)))).
Proof.
  intros T T1 T2. unfold decode_rows.
  match goal with |- context [foldM ?f _ _] => destruct (zfor f (fun c (ms : arr pixel * arr pixel) =>
    tbl (fst ms) zw zh (fun x y => Some (found (lookup1 (decode_pairs h w b1 b2 md2 (firstn (Z.to_nat c) l)) (x, y)))) /\
    tbl (snd ms) zw zh (fun x y => Some (found (lookup2 (decode_pairs h w b1 b2 md2 (firstn (Z.to_nat c) l)) (x, y))))) N (m1, m2)) as ([ma1 ma2] & E & A1 & A2) end.
  - lia.
  - split; [exact T1|exact T2].
  - intros i [c1 c2] I0 [C1 C2]. cbn [fst snd] in C1, C2. destruct (rows_rd og N _ i T I0) as (R0 & R1 & _). rewrite R0. cbn [bind]. rewrite R1. cbn [bind].
    assert (L := sol_len). replace (Z.to_nat (i + 1)) with (S (Z.to_nat i)) by lia. rewrite (firstn_snoc l _ (O, 0)) by lia. rewrite decode_snoc.
    rewrite firstn_length_le by lia. unfold sol_row. set (e := nth (Z.to_nat i) l (O, 0)) in *. cbn [fst snd].
    set (pre := decode_pairs h w b1 b2 md2 (firstn (Z.to_nat i) l)) in *. clearbody pre.
    destruct (Z.of_nat n1 <=? i) eqn:X.
    { exists (c1, c2). split; [reflexivity|]. destruct (Nat.ltb_spec (Z.to_nat i) n1) as [Y|Y]; [lia|]. cbn [andb]. rewrite app_nil_r. split; assumption. }
    destruct (Nat.ltb_spec (Z.to_nat i) n1) as [Y|Y]; [|lia].
    destruct (Z.of_nat n2 <=? Z.of_nat (fst e)) eqn:X2.
    { exists (c1, c2). split; [reflexivity|]. destruct (Nat.ltb_spec (fst e) n2) as [Y2|Y2]; [lia|]. cbn [andb]. rewrite app_nil_r. split; assumption. }
    destruct (Nat.ltb_spec (fst e) n2) as [Y2|Y2]; [|lia]. cbn [andb].
    rewrite (vget_ok nodes1 i dd) by (fold n1; lia). cbn [bind]. rewrite (vget_ok nodes2 _ dd) by (fold n2; lia). cbn [bind]. rewrite Nat2Z.id.
    assert (Ip := node1_in _ Y). assert (Iq := node2_in _ Y2). unfold inimg in Ip, Iq. rewrite inb_spec in Ip, Iq.
    set (p := nth (Z.to_nat i) nodes1 dd) in *. set (q := nth (fst e) nodes2 dd) in *.
    destruct (wr_tbl c1 zw zh _ (fst p) (snd p) q C1 ltac:(lia) ltac:(lia)) as (c1' & E1 & C1'). rewrite E1. cbn [bind].
    destruct (wr_tbl c2 zw zh _ (fst q) (snd q) p C2 ltac:(lia) ltac:(lia)) as (c2' & E2 & C2'). rewrite E2. cbn [bind].
    exists (c1', c2'). split; [reflexivity|]. cbn [fst snd]. split.
    + apply (tbl_ext _ _ _ _ _ C1'). intros x y _ _. cbn beta. rewrite lookup1_snoc. cbn [fst snd]. rewrite pix_eqb_pair. destruct (_ && _); reflexivity.
    + apply (tbl_ext _ _ _ _ _ C2'). intros x y _ _. cbn beta. rewrite lookup2_snoc. cbn [fst snd]. rewrite pix_eqb_pair. destruct (_ && _); reflexivity.
  - exists ma1, ma2. split; [exact E|]. cbn [fst snd] in A1, A2. rewrite firstn_all2 in A1, A2 by (assert (L := sol_len); lia). split; assumption.
Qed.

(** match.cc:321-334 *)
Lemma fill_codes_ok b ma (look : pixel -> option pixel) : ht b = h -> wd b = w ->
  tbl ma zw zh (fun x y => Some (found (look (x, y)))) -> (forall p q, look p = Some q -> 0 <= fst q) ->
  exists o, fill_codes h w b ma = Ok o /\ matrix_image h w o = code_map h w b look.
Proof.
  clear - Hhw Hh Hw. intros Eh Ew T Lk. unfold fill_codes.
  set (val := fun p : pixel => if px false b (snd p) (fst p) then match look p with Some q => code h q | None => 0 end else 0).
  match goal with |- context [foldM ?f _ _] => destruct (foldM_inv f (fun pre (o : arr Z) => exists F, tbl o zw zh F /\
     (forall p, In p (colmajor h w) -> F (fst p) (snd p) = Some (if existsb (pix_eqb p) pre then val p else 0))) (colmajor h w) (init (alloc zw zh) 0)) as (o & E & F & TF & HF) end.
  - exists (fun _ _ => Some 0). split; [exact (init_tbl (alloc zw zh) zw zh _ 0 (pixels_tbl h w Hhw Hh Hw))|]. intros p _. reflexivity.
  - intros pre p post o E (F & TF & HF). assert (P : In p (colmajor h w)) by (rewrite E; apply in_or_app; right; left; reflexivity).
    destruct (in_cm h w p P) as [A B]. assert (ND := NoDup_colmajor h w). rewrite E in ND. apply NoDup_remove_2 in ND.
    assert (NP : existsb (pix_eqb p) pre = false).
    { destruct (existsb (pix_eqb p) pre) eqn:X; [|reflexivity]. apply existsb_exists in X. destruct X as (q & Q1 & Q2). destruct (pix_eqb_spec p q); [subst q|discriminate].
      exfalso. apply ND, in_or_app. left. exact Q1. }
    rewrite (bget_ok h w) by (try assumption; apply in_colmajor; exact P). cbn [bind].
    assert (K : forall v, val p = v -> forall o' F', tbl o' zw zh F' -> (forall x y, F' x y = if (x =? fst p) && (y =? snd p) then Some v else F x y) ->
      exists F2, tbl o' zw zh F2 /\ forall q, In q (colmajor h w) -> F2 (fst q) (snd q) = Some (if existsb (pix_eqb q) (pre ++ [p]) then val q else 0)).
    { intros v Hv o' F' T' HF'. exists F'. split; [exact T'|]. intros q Q1. rewrite HF', existsb_snoc. unfold pix_eqb at 1.
      destruct ((fst q =? fst p) && (snd q =? snd p)) eqn:X; [|cbn [orb]; apply HF; exact Q1]. cbn [orb].
      assert (q = p) as -> by (destruct p, q; cbn [fst snd] in *; f_equal; lia). f_equal. symmetry. exact Hv. }
    assert (K0 : val p = 0 -> exists F2, tbl o zw zh F2 /\ forall q, In q (colmajor h w) -> F2 (fst q) (snd q) = Some (if existsb (pix_eqb q) (pre ++ [p]) then val q else 0)).
    { intros V0. apply (K 0 V0 o (fun x y => if (x =? fst p) && (y =? snd p) then Some 0 else F x y)); [|reflexivity].
      apply (tbl_ext _ _ _ _ _ TF). intros x y X Y. destruct ((x =? fst p) && (y =? snd p)) eqn:Z1; [|reflexivity].
      assert (x = fst p /\ y = snd p) as [-> ->] by lia. rewrite HF, NP by exact P. reflexivity. }
    destruct (px false b (snd p) (fst p)) eqn:B1.
    + rewrite (rd_tbl ma zw zh _ (fst p) (snd p) _ T A B eq_refl). cbn [bind]. rewrite <- (surjective_pairing p).
      unfold val in K, K0 |- *. rewrite B1 in K, K0. destruct (look p) as [q|] eqn:Lp; cbn [found].
      * assert (Q0 := Lk p q Lp). destruct (pix_eqb_spec q (-1, -1)) as [->|_]; [cbn in Q0; lia|].
        destruct (wr_tbl o zw zh F (fst p) (snd p) (code h q) TF A B) as (o' & E' & T'). exists o'. split; [exact E'|].
        apply (K (code h q) eq_refl o' _ T'). intros x y. reflexivity.
      * exists o. split; [reflexivity|]. apply K0. reflexivity.
    + exists o. split; [reflexivity|]. apply K0. unfold val. rewrite B1. reflexivity.
  - exists o. split; [exact E|]. unfold matrix_image, code_map. apply tab_ext. intros y x YX. assert (BB := YX). rewrite inb_spec in BB.
    assert (P : In (x, y) (colmajor h w)) by (apply in_colmajor; exact YX). assert (V := HF (x, y) P). cbn [fst snd] in V.
    replace (existsb (pix_eqb (x, y)) (colmajor h w)) with true in V.
    2: { symmetry. apply existsb_exists. exists (x, y). split; [exact P|]. unfold pix_eqb. rewrite !Z.eqb_refl. reflexivity. }
    rewrite (rd_tbl o zw zh F x y _ TF ltac:(lia) ltac:(lia) V). unfold val. cbn [fst snd]. reflexivity.
Qed.
(** match.cc:336-359 *)
Lemma side_cost_ok b ma (look : pixel -> option pixel) : ht b = h -> wd b = w ->
  tbl ma zw zh (fun x y => Some (found (look (x, y)))) -> (forall p q, look p = Some q -> 0 <= fst q) ->
  side_cost h w b ma = Ok (cost_side h w b look).
Proof.
  clear - Hhw Hh Hw. intros Eh Ew T Lk. unfold side_cost, cost_side.
  match goal with |- context [foldM ?f _ _] => destruct (foldM_inv f (fun pre (c : cost) =>
     c = mkCost (length (filter (fun p => match look p with None => true | _ => false end) (filter (fun p => px false b (snd p) (fst p)) pre)))
         (flat_map (fun p => match look p with Some q => [dist2 p q] | None => [] end) (filter (fun p => px false b (snd p) (fst p)) pre))) (colmajor h w) (mkCost 0 [])) as (o & E & ->) end.
  - reflexivity.
  - intros pre p post o E ->. assert (P : In p (colmajor h w)) by (rewrite E; apply in_or_app; right; left; reflexivity).
    destruct (in_cm h w p P) as [A B]. rewrite (bget_ok h w) by (try assumption; apply in_colmajor; exact P). cbn [bind]. rewrite !filter_app. cbn [filter].
    destruct (px false b (snd p) (fst p)) eqn:B1; [|eexists; split; [reflexivity|cbn [filter]; rewrite !app_nil_r; reflexivity]].
    rewrite (rd_tbl ma zw zh _ (fst p) (snd p) _ T A B eq_refl). cbn [bind]. rewrite <- (surjective_pairing p). cbn [filter c_outliers c_halves].
    destruct (look p) as [q|] eqn:Lp; cbn [found].
    + assert (Q0 := Lk p q Lp). destruct (pix_eqb_spec q (-1, -1)) as [->|_]; [cbn in Q0; lia|]. eexists. split; [reflexivity|].
      rewrite app_nil_r, flat_map_snoc, Lp. reflexivity.
    + cbn. eexists. split; [reflexivity|]. rewrite flat_map_snoc, Lp, app_nil_r, app_length. cbn [length]. f_equal. rewrite Nat.add_1_r. reflexivity.
  - rewrite E. reflexivity.
Qed.
End Match.
