(** csa.hh [parse] on its arrays: the arcs of a left node end up next to each other, in the order of the input. *)
From Verif Require Import ModelCSAMem ProofsCSAMem.
From Coq Require Import Lia ZifyBool ZifyNat.
Open Scope nat_scope.
Open Scope list_scope.

Definition off (g : list garc) (v : nat) : nat := length (filter (fun a => Nat.ltb (a_tail a) v) g).
Lemma off_S g v : off g (S v) = off g v + length (adj g v).
Proof.
  unfold off, adj. induction g as [|a g IH]; [reflexivity|]. cbn [filter].
  destruct (Nat.ltb_spec (a_tail a) (S v)), (Nat.ltb_spec (a_tail a) v), (Nat.eqb_spec (a_tail a) v); cbn [length]; try lia.
Qed.
Lemma off_le g v w : v <= w -> off g v <= off g w.
Proof. induction 1 as [|w _ IH]; [lia|]. rewrite off_S. lia. Qed.
Lemma off_length g v : off g v <= length g.
Proof. unfold off. induction g as [|a g IH]; [apply le_n|]. cbn [filter length]. destruct (Nat.ltb (a_tail a) v); cbn [length]; lia. Qed.
Lemma off_apart g v w k d : k < length (adj g v) -> d < length (adj g w) -> off g v + k = off g w + d -> v = w /\ k = d.
Proof.
  intros K D E. destruct (Nat.lt_trichotomy v w) as [L|[->|L]].
  - assert (O := off_le g (S v) w L). rewrite off_S in O. lia.
  - split; [reflexivity|lia].
  - assert (O := off_le g (S w) v L). rewrite off_S in O. lia.
Qed.
Lemma adj_app g h v : adj (g ++ h) v = adj g v ++ adj h v.
Proof. apply filter_app. Qed.

Lemma parse_loop_ok N suf : forall pre temp deg, msize temp = length (pre ++ suf) ->
  (forall j, j < length pre -> mcell temp j = nth_error (pre ++ suf) j) -> holds deg N (fun v => length (adj pre v)) ->
  if existsb (bad_input N) suf then loopM (parse_arc N) (combine (seq (length pre) (length suf)) suf) (temp, deg) = Err ValueError
  else exists temp' deg', loopM (parse_arc N) (combine (seq (length pre) (length suf)) suf) (temp, deg) = Ok (temp', deg') /\
    msize temp' = length (pre ++ suf) /\ (forall j, j < length (pre ++ suf) -> mcell temp' j = nth_error (pre ++ suf) j) /\ holds deg' N (fun v => length (adj (pre ++ suf) v)).
Proof.
  induction suf as [|a suf IH]; intros pre temp deg M C D.
  - cbn. exists temp, deg. split; [reflexivity|]. rewrite app_nil_r in *. split; [exact M|]. split; [exact C|exact D].
  - cbn [existsb length seq combine loopM]. unfold parse_arc at 1 3. destruct (bad_input N a) eqn:B; [reflexivity|]. cbn [orb].
    unfold bad_input in B. assert (T : a_tail a < N) by lia. cbn [fst snd]. rewrite wrm_put by (rewrite M, app_length; cbn; lia). cbn [bind].
    rewrite (holds_rd _ _ _ _ D T). cbn [bind]. destruct (holds_wr deg N _ (a_tail a) (S (length (adj pre (a_tail a)))) D T) as (W & D'). rewrite W. cbn [bind].
    specialize (IH (pre ++ [a]) (put temp (length pre) a) (put deg (a_tail a) (S (length (adj pre (a_tail a)))))).
    replace ((pre ++ [a]) ++ suf) with (pre ++ a :: suf) in IH by (rewrite <- app_assoc; reflexivity).
    replace (length (pre ++ [a])) with (S (length pre)) in IH by (rewrite app_length; cbn; lia). apply IH.
    + exact M.
    + intros j J. rewrite put_cell. destruct (Nat.eqb_spec j (length pre)) as [->|Ne].
      * rewrite nth_error_app2 by lia. rewrite Nat.sub_diag. reflexivity.
      * apply C. lia.
    + eapply holds_ext; [exact D'|]. intros v V. unfold upd. rewrite adj_app, app_length. change (adj [a] v) with (if Nat.eqb (a_tail a) v then [a] else []).
      destruct (Nat.eqb_spec v (a_tail a)) as [->|Ne]; [rewrite Nat.eqb_refl; cbn; lia|]. destruct (Nat.eqb_spec (a_tail a) v); [congruence|cbn; lia].
Qed.
Lemma loop_rev {T} (f : nat -> T -> res T) (I : nat -> T -> Prop) n : forall s, I n s ->
  (forall i s, i < n -> I (S i) s -> exists s', f i s = Ok s' /\ I i s') -> exists s', loopM f (rev (seq 0 n)) s = Ok s' /\ I 0 s'.
Proof.
  induction n as [|n IH]; intros s H0 H; [exists s; split; [reflexivity|exact H0]|]. rewrite seq_S, rev_app_distr. cbn [rev app loopM Nat.add].
  destruct (H n s ltac:(lia) H0) as (s1 & E & I1). rewrite E. cbn [bind]. apply IH; [exact I1|]. intros i t L. apply H. lia.
Qed.
Lemma firstn_S_adj g i a v : nth_error g i = Some a -> adj (firstn (S i) g) v = adj (firstn i g) v ++ (if Nat.eqb (a_tail a) v then [a] else []).
Proof.
  intros E. assert (F : firstn (S i) g = firstn i g ++ [a]).
  { clear -E. revert g E. induction i as [|i IH]; intros [|b g] E; try discriminate; cbn in *; [injection E as ->; reflexivity|]. f_equal. apply IH, E. }
  rewrite F, adj_app. unfold adj at 2. cbn [filter]. destruct (Nat.eqb (a_tail a) v); reflexivity.
Qed.
Lemma arc_at_place g i a : nth_error g i = Some a -> arc_at g (a_tail a) (length (adj (firstn i g) (a_tail a))) = a /\ length (adj (firstn i g) (a_tail a)) < length (adj g (a_tail a)).
Proof.
  intros E. assert (G := firstn_skipn (S i) g). assert (A : adj g (a_tail a) = adj (firstn i g) (a_tail a) ++ a :: adj (skipn (S i) g) (a_tail a)).
  { rewrite <- G at 1. rewrite adj_app, (firstn_S_adj g i a) by exact E. rewrite Nat.eqb_refl, <- app_assoc. reflexivity. }
  unfold arc_at. rewrite A. split; [rewrite app_nth2, Nat.sub_diag by lia; reflexivity|rewrite app_length; cbn; lia].
Qed.
(** [parse] on a good graph. *)
Lemma parse_ok N g : existsb (bad_input N) g = false -> exists G, parse N g = Ok G /\
  (forall v k, v < N -> k < length (adj g v) -> rdm (x_arcs G) (off g v + k) = Ok (a_head (arc_at g v k), a_cost (arc_at g v k))) /\
  (forall v, v <= N -> rdm (x_first G) v = Ok (off g v)) /\
  (forall v, v < N -> rdm (x_few G) v = Ok (few_arcs g v)) /\ msize (x_arcs G) = length g + 1.
Proof.
  intros B. unfold parse. destruct (fill_holds N 0) as (deg0 & E0 & H0). rewrite E0. cbn [bind].
  assert (PL := parse_loop_ok N g [] (malloc (length g)) deg0 eq_refl). cbn [app length] in PL. rewrite B in PL.
  destruct PL as (temp & deg & E1 & Mt & Ct & Hd); [intros j J; lia|exact H0|]. rewrite E1. cbn [bind].
  destruct (loop_seq (set_first deg) (fun i s => let '(first, few, a) := s in msize first = N + 1 /\ msize few = N /\ a = off g i /\
      (forall v, v < i -> mcell first v = Some (off g v)) /\ (forall v, v < i -> mcell few v = Some (few_arcs g v))) N (malloc (N + 1), malloc N, 0))
    as ([[first few] a] & E2 & Mf & Mw & -> & Cf & Cw).
  - split; [reflexivity|]. split; [reflexivity|]. split; [unfold off; clear; induction g; [reflexivity|cbn; assumption]|]. split; intros v V; lia.
  - intros i [[first few] a] I (Mf & Mw & -> & Cf & Cw). unfold set_first. rewrite wrm_put by lia. cbn [bind]. rewrite (holds_rd _ _ _ i Hd I). cbn [bind].
    rewrite wrm_put by lia. cbn [bind]. eexists. split; [reflexivity|]. split; [exact Mf|]. split; [exact Mw|]. split; [rewrite off_S; reflexivity|].
    split; intros v V; rewrite put_cell; destruct (Nat.eqb_spec v i) as [->|]; try reflexivity; [apply Cf|apply Cw]; lia.
  - rewrite E2. cbn [bind]. rewrite wrm_put by lia. cbn [bind].
    assert (Hfirst : holds (put first N (off g N)) (N + 1) (off g)).
    { split; [exact Mf|]. intros v V. rewrite put_cell. destruct (Nat.eqb_spec v N) as [->|]; [reflexivity|apply Cf; lia]. }
    destruct (loop_rev (place_arc temp (put first N (off g N)))
      (fun i s => holds (fst s) N (fun v => length (adj (firstn i g) v)) /\ msize (snd s) = length g + 1 /\
        forall v k, v < N -> length (adj (firstn i g) v) <= k < length (adj g v) -> mcell (snd s) (off g v + k) = Some (a_head (arc_at g v k), a_cost (arc_at g v k)))
      (length g) (deg, malloc (length g + 1))) as ([deg2 arcs] & E3 & _ & Ma & Ca).
    + rewrite firstn_all. split; [exact Hd|]. split; [reflexivity|]. intros v k V K. lia.
    + intros i [d1 ar] I (H1 & M1 & C1). cbn [fst snd] in *. unfold place_arc. destruct (nth_error g i) as [a|] eqn:Ea; [|apply nth_error_None in Ea; lia].
      rewrite (rdm_cell temp i a) by (try lia; rewrite Ct by lia; exact Ea). cbn [bind].
      assert (T : a_tail a < N).
      { assert (X : bad_input N a = false). { destruct (bad_input N a) eqn:X; [|reflexivity]. exfalso. rewrite <- Bool.not_true_iff_false in B. apply B, existsb_exists. exists a. split; [eapply nth_error_In, Ea|exact X]. }
        unfold bad_input in X. lia. }
      rewrite (holds_rd _ _ _ (a_tail a) Hfirst) by lia. cbn [bind]. cbn [fst snd]. rewrite (holds_rd _ _ _ _ H1 T). rewrite (firstn_S_adj g i a _ Ea), Nat.eqb_refl, app_length. cbn [length bind fst snd].
      rewrite Nat.add_1_r. destruct (holds_wr _ _ _ (a_tail a) (length (adj (firstn i g) (a_tail a))) H1 T) as (W & H2). rewrite W. cbn [bind].
      destruct (arc_at_place g i a Ea) as (Aa & La). assert (OL := off_length g (S (a_tail a))). rewrite off_S in OL. rewrite wrm_put by lia. cbn [bind].
      eexists. split; [reflexivity|]. cbn [fst snd]. split; [|split; [exact M1|]].
      * eapply holds_ext; [exact H2|]. intros v V. unfold upd. rewrite (firstn_S_adj g i a v Ea), app_length. destruct (Nat.eqb_spec v (a_tail a)) as [->|Ne]; [reflexivity|].
        destruct (Nat.eqb_spec (a_tail a) v); [congruence|cbn; lia].
      * intros v k V K. rewrite put_cell. destruct (Nat.eqb_spec (off g v + k) (off g (a_tail a) + length (adj (firstn i g) (a_tail a)))) as [Q|Q].
        -- apply off_apart in Q; [|lia|exact La]. destruct Q as (-> & ->). rewrite Aa. reflexivity.
        -- apply C1; [exact V|]. rewrite (firstn_S_adj g i a v Ea), app_length. destruct (Nat.eqb_spec (a_tail a) v) as [E|Ne]; [|cbn; lia].
           subst v. cbn [length]. assert (k <> length (adj (firstn i g) (a_tail a))) by (intros ->; apply Q; reflexivity). lia.
    + rewrite E3. cbn [bind]. eexists. split; [reflexivity|]. cbn [x_arcs x_first x_few fst snd] in *. split; [|split; [|split; [|exact Ma]]].
      * intros v k V K. assert (OL := off_length g (S v)). rewrite off_S in OL. apply rdm_cell; [lia|]. apply Ca; [exact V|]. cbn. lia.
      * intros v V. apply (holds_rd _ _ _ v Hfirst). lia.
      * intros v V. apply rdm_cell; [lia|apply Cw, V].
Qed.
Lemma parse_bad N g : existsb (bad_input N) g = true -> parse N g = Err ValueError.
Proof.
  intros B. unfold parse. destruct (fill_holds N 0) as (deg0 & E0 & H0). rewrite E0. cbn [bind].
  assert (PL := parse_loop_ok N g [] (malloc (length g)) deg0 eq_refl). cbn [app length] in PL. rewrite B in PL. rewrite PL; [reflexivity|intros j J; lia|exact H0].
Qed.

(** The whole solver. *)
Theorem csa_mem_ok fuel pfuel N g r : csa_solve fuel pfuel N g = Ok r -> csa_mem_solve fuel pfuel N g = Ok r.
Proof.
  unfold csa_solve, csa_mem_solve. destruct (existsb (bad_input N) g) eqn:B; [discriminate|]. intros E.
  destruct (parse_ok N g B) as (G & Eg & Ha & Hf & Hw & _). rewrite Eg. cbn [bind].
  assert (Hh : forall v k, v < N -> k < length (adj g v) -> a_head (arc_at g v k) < N).
  { intros v k _ K. assert (I : In (arc_at g v k) g) by (apply (proj1 (filter_In (fun a => Nat.eqb (a_tail a) v) (arc_at g v k) g)), nth_In; exact K).
    assert (X : bad_input N (arc_at g v k) = false). { destruct (bad_input N (arc_at g v k)) eqn:X; [|reflexivity]. exfalso. rewrite <- Bool.not_true_iff_false in B. apply B, existsb_exists. eexists. split; [exact I|exact X]. }
    unfold bad_input in X. lia. }
  assert (Ho : forall v, v < N -> off g (S v) = off g v + length (adj g v)) by (intros v _; apply off_S).
  destruct (init_ok N g G (off g) Ho Ha Hf Hw Hh) as (x & Ex & Ix). rewrite Ex. cbn [bind].
  destruct (main_loop g fuel pfuel N _ _ _ (init_csa g)) as [[s|]|e] eqn:Em; [| |discriminate]; cbn [bind] in E.
  - destruct (main_loop_ok N g G (off g) Ho Ha Hf Hw Hh _ _ _ _ _ _ _ _ Ix Em) as (x1 & E1 & I1). rewrite E1. cbn [bind].
    destruct (store_results g s (seq 0 N)) as [l|] eqn:Es; [|discriminate]. cbn [bind] in E. injection E as <-.
    assert (SO : exists rs, store_resultsx N G x1 = Ok rs /\ loopM (fun i l => bind (rdm rs i) (fun e => Ok (l ++ [e]))) (seq 0 N) [] = Ok l)
      by (eapply store_ok; try eassumption; exact (proj1 I1)).
    destruct SO as (rs & Er & El). rewrite Er. cbn [bind]. rewrite El. reflexivity.
  - rewrite (main_loop_ok N g G (off g) Ho Ha Hf Hw Hh _ _ _ _ _ _ _ _ Ix Em). cbn [bind]. injection E as <-. reflexivity.
Qed.
Theorem csa_mem_bad fuel pfuel N g : csa_solve fuel pfuel N g = Err ValueError -> existsb (bad_input N) g = true -> csa_mem_solve fuel pfuel N g = Err ValueError.
Proof. intros _ B. unfold csa_mem_solve. rewrite parse_bad by exact B. reflexivity. Qed.
