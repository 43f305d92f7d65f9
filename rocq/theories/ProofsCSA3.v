(** The assignment solver: result and optimality. *)
From Verif Require Import ModelCSA SpecMatch ProofsImage ProofsCSA ProofsCSA2.
From Coq Require Import Lqa Permutation ZifyBool ZifyNat.
Open Scope nat_scope.

Definition qsum (l : list Q) : Q := fold_right Qplus 0%Q l.
Lemma qsum_perm l l' : Permutation l l' -> (qsum l == qsum l')%Q.
Proof. induction 1; unfold qsum in *; cbn [fold_right] in *; try lra. Qed.
Lemma qsum_zsum l : (qsum (map inject_Z l) == inject_Z (zsum l))%Q.
Proof.
  induction l as [|a l IH]; [reflexivity|]. unfold qsum, zsum in *. cbn [map fold_right]. rewrite IH, inject_Z_plus. reflexivity.
Qed.
Lemma qsum_sub {A} (f h : A -> Q) l : (qsum (map (fun x => f x - h x)%Q l) == qsum (map f l) - qsum (map h l))%Q.
Proof. induction l as [|a l IH]; unfold qsum in *; cbn [map fold_right]; [lra|]. rewrite IH. lra. Qed.

Lemma NoDup_map_inj_on {A B} (f : A -> B) l : (forall a b, In a l -> In b l -> f a = f b -> a = b) -> NoDup l -> NoDup (map f l).
Proof.
  intros H D. induction l as [|a l IH]; [constructor|]. apply NoDup_cons_iff in D. destruct D as [D1 D2]. cbn [map]. constructor.
  - intros I. apply in_map_iff in I. destruct I as (b & E & Hb). apply D1. rewrite (H a b); [exact Hb|left; reflexivity|right; exact Hb|symmetry; exact E].
  - apply IH; [|exact D2]. intros x y Hx Hy. apply H; right; assumption.
Qed.

Section Csa.
Variable g : list garc.
Variable N : nat.
Notation len v := (length (adj g v)).
Notation rcg := (rc g).
Notation hd_at v k := (a_head (arc_at g v k)).
Notation cost_at v k := (a_cost (arc_at g v k)).

Lemma adj_in v k : k < len v -> In (arc_at g v k) g /\ a_tail (arc_at g v k) = v.
Proof.
  intros H. assert (I : In (arc_at g v k) (adj g v)) by (apply nth_In, H). apply filter_In in I.
  destruct I as [I E]. split; [exact I|]. apply Nat.eqb_eq, E.
Qed.
Lemma in_adj v w c : In (mkArc v w c) g -> exists k, k < len v /\ arc_at g v k = mkArc v w c.
Proof.
  intros H. assert (I : In (mkArc v w c) (adj g v)) by (apply filter_In; split; [exact H|apply Nat.eqb_refl]).
  destruct (In_nth _ _ (mkArc 0 0 0) I) as (k & Hk & E). exists k. split; [exact Hk|exact E].
Qed.
Hypothesis heads : forall a, In a g -> a_head a < N.

Definition entry (s : csa) (v : nat) : nat * Z :=
  match lmatch s v with Some k => (hd_at v k, cost_at v k) | None => (0, 0%Z) end.
Lemma store_results_ok s vs : (forall v, In v vs -> lmatch s v <> None) -> store_results g s vs = Ok (map (entry s) vs).
Proof.
  induction vs as [|v vs IH]; intros H; [reflexivity|]. cbn [store_results map]. unfold entry at 1.
  destruct (lmatch s v) as [k|] eqn:E; [|exfalso; apply (H v (or_introl eq_refl)), E].
  rewrite IH by (intros x Hx; apply H; right; exact Hx). reflexivity.
Qed.
Lemma nth_error_map_seq {A} (f : nat -> A) n v : v < n -> nth_error (map f (seq 0 n)) v = Some (f v).
Proof.
  intros H. rewrite nth_error_map. rewrite nth_error_nth' with (d := 0) by (rewrite seq_length; exact H).
  cbn [option_map]. rewrite seq_nth by exact H. reflexivity.
Qed.
Lemma solved_perfect eps s : solved g N eps s -> perfect_matching N g (map (entry s) (seq 0 N)).
Proof.
  intros (((L1 & L2) & _ & _) & O & S). split; [rewrite map_length, seq_length; reflexivity|]. split.
  - rewrite map_map. apply NoDup_map_inj_on.
    + intros a b Ha Hb E. apply in_seq in Ha, Hb. unfold entry in E.
      destruct (lmatch s a) as [ka|] eqn:Ea; [|exfalso; apply (S a); [lia|exact Ea]].
      destruct (lmatch s b) as [kb|] eqn:Eb; [|exfalso; apply (S b); [lia|exact Eb]].
      cbn [fst] in E. destruct (L1 _ _ Ea) as (_ & _ & Xa). destruct (L1 _ _ Eb) as (_ & _ & Xb). rewrite E in Xa. congruence.
    + apply seq_NoDup.
  - intros v w c E. assert (Hv : v < N).
    { assert (X : nth_error (map (entry s) (seq 0 N)) v <> None) by congruence. apply nth_error_Some in X.
      rewrite map_length, seq_length in X. exact X. }
    rewrite nth_error_map_seq in E by exact Hv. injection E as E. unfold entry in E.
    destruct (lmatch s v) as [k|] eqn:Ek; [|exfalso; apply (S v Hv Ek)]. injection E as <- <-.
    destruct (L1 _ _ Ek) as (_ & Hk & _). destruct (adj_in v k Hk) as [I T]. split; [apply heads, I|].
    rewrite <- T at 1. destruct (arc_at g v k) as [t h c]. exact I.
Qed.

Lemma perfect_heads m : perfect_matching N g m -> Permutation (map fst m) (seq 0 N).
Proof.
  intros (L & D & A). apply NoDup_Permutation_bis; [exact D|rewrite map_length, seq_length; lia|].
  intros w Hw. apply in_map_iff in Hw. destruct Hw as ([w' c] & <- & Hin). apply In_nth_error in Hin. destruct Hin as (v & E).
  destruct (A v w' c E) as [Hw _]. apply in_seq. cbn [fst]. lia.
Qed.
Lemma sum_le (p : nat -> Q) eps : forall (m m' : list (nat * Z)), length m = length m' ->
  (forall v w c w' c', nth_error m v = Some (w, c) -> nth_error m' v = Some (w', c') ->
     (inject_Z c - p w <= inject_Z c' - p w' + eps)%Q) ->
  (qsum (map (fun x => inject_Z (snd x) - p (fst x))%Q m) <=
   qsum (map (fun x => inject_Z (snd x) - p (fst x))%Q m') + inject_Z (Z.of_nat (length m)) * eps)%Q.
Proof.
  induction m as [|[w c] m IH]; intros [|[w' c'] m'] L H; [|discriminate L|discriminate L|].
  - unfold qsum. cbn [map fold_right length]. change (inject_Z (Z.of_nat 0)) with 0%Q. lra.
  - injection L as L. assert (H0 := H 0 w c w' c' eq_refl eq_refl).
    specialize (IH m' L (fun v => H (S v))). unfold qsum in *. cbn [map fold_right length fst snd].
    rewrite Nat2Z.inj_succ, <- Z.add_1_l, inject_Z_plus. change (inject_Z 1) with 1%Q. lra.
Qed.
Lemma solved_optimal eps s m' : (eps == 2 / (2 * inject_Z (Z.of_nat N) + 1))%Q -> solved g N eps s -> perfect_matching N g m' ->
  (total_cost (map (entry s) (seq 0 N)) <= total_cost m')%Z.
Proof.
  intros Ee Hs P'. pose proof (solved_perfect eps s Hs) as P. set (m := map (entry s) (seq 0 N)) in *.
  pose proof (sum_le (price s) eps m m') as SL.
  assert (Lm : length m = N) by apply P. assert (Lm' : length m' = N) by apply P'.
  specialize (SL ltac:(congruence)).
  assert (H : forall v w c w' c', nth_error m v = Some (w, c) -> nth_error m' v = Some (w', c') ->
     (inject_Z c - price s w <= inject_Z c' - price s w' + eps)%Q).
  { intros v w c w' c' E E'. assert (Hv : v < N).
    { rewrite <- Lm. apply nth_error_Some. congruence. }
    unfold m in E. rewrite nth_error_map_seq in E by exact Hv. injection E as E. unfold entry in E.
    destruct Hs as (_ & O & S). destruct (lmatch s v) as [k|] eqn:Ek; [|exfalso; apply (S v Hv Ek)]. injection E as <- <-.
    destruct P' as (_ & _ & A'). destruct (A' v w' c' E') as [_ I']. destruct (in_adj _ _ _ I') as (j & Hj & Ej).
    specialize (O v k Ek j Hj). unfold rc in O. rewrite Ej in O. cbn [a_cost a_head] in O. exact O. }
  specialize (SL H). rewrite !qsum_sub in SL.
  assert (E1 : (qsum (map (fun x => price s (fst x)) m) == qsum (map (fun x => price s (fst x)) m'))%Q).
  { rewrite <- (map_map fst (price s) m), <- (map_map fst (price s) m'). apply qsum_perm, Permutation_map.
    apply perm_trans with (seq 0 N); [apply perfect_heads, P|apply Permutation_sym, perfect_heads, P']. }
  assert (E2 : forall l : list (nat * Z), (qsum (map (fun x => inject_Z (snd x)) l) == inject_Z (total_cost l))%Q).
  { intros l. unfold total_cost. rewrite <- qsum_zsum, map_map. reflexivity. }
  rewrite E1, !E2, Lm, Ee in SL.
  assert (N0 : (0 <= inject_Z (Z.of_nat N))%Q) by (change 0%Q with (inject_Z 0); rewrite <- Zle_Qle; lia).
  assert (X : (inject_Z (Z.of_nat N) * (2 / (2 * inject_Z (Z.of_nat N) + 1)) < 1)%Q).
  { set (q := inject_Z (Z.of_nat N)) in *. assert (Hq : (0 < 2 * q + 1)%Q) by lra.
    assert (E3 : (q * (2 / (2 * q + 1)) == (2 * q) / (2 * q + 1))%Q) by (field; lra). rewrite E3.
    apply Qlt_shift_div_r; lra. }
  assert (Y : (inject_Z (total_cost m) < inject_Z (total_cost m' + 1))%Q).
  { rewrite inject_Z_plus. change (inject_Z 1) with 1%Q. lra. }
  rewrite <- Zlt_Qlt in Y. lia.
Qed.
End Csa.

(** ** Results of the whole solver *)
Lemma init_between g N : between g N (init_csa g).
Proof.
  split; [split; [intros v k H; discriminate|intros w v H; discriminate]|]. split; [|reflexivity].
  intros v Hv. unfold init_csa. cbn [price best]. destruct (few_arcs g v) eqn:F; [left; exact F|].
  apply built_best_ok, best_build_built, F.
Qed.
Lemma perfect_degree N g m v : perfect_matching N g m -> v < N -> 0 < length (adj g v).
Proof.
  intros (L & _ & A) Hv. destruct (nth_error m v) as [[w c]|] eqn:E; [|apply nth_error_None in E; lia].
  destruct (A v w c E) as [_ I]. destruct (in_adj g v w c I) as (k & Hk & _). lia.
Qed.
Definition valid_graph (N : nat) (g : list garc) : Prop := forall a, In a g -> a_tail a < N /\ a_head a < N.
Lemma valid_no_error N g : valid_graph N g -> existsb (bad_input N) g = false.
Proof.
  intros V. apply not_true_iff_false. rewrite existsb_exists. intros (a & Ha & Hb). destruct (V a Ha) as [X Y].
  apply Nat.ltb_lt in X, Y. unfold bad_input in Hb. rewrite X, Y in Hb. discriminate.
Qed.
Lemma max_cost_bound g a : In a g -> (Z.abs (a_cost a) <= max_cost g)%Z.
Proof.
  induction g as [|b g IH]; [intros []|]. intros [->|H]; cbn [max_cost fold_right]; [lia|]. specialize (IH H). unfold max_cost in IH. lia.
Qed.
Lemma nodes_pos N : (0 <= 2 * inject_Z (Z.of_nat N))%Q.
Proof. assert ((0 <= inject_Z (Z.of_nat N))%Q) by (change 0%Q with (inject_Z 0); rewrite <- Zle_Qle; lia). lra. Qed.
Lemma min_eps_pos N : (0 < 2 / (2 * inject_Z (Z.of_nat N) + 1))%Q.
Proof. pose proof (nodes_pos N). apply Qlt_shift_div_l; lra. Qed.
Lemma min_eps_small N g : 0 < N -> (1 <= max_cost g)%Z -> (2 / (2 * inject_Z (Z.of_nat N) + 1) < inject_Z (max_cost g))%Q.
Proof.
  intros HN HC. assert (A : (1 <= inject_Z (Z.of_nat N))%Q) by (change 1%Q with (inject_Z 1); rewrite <- Zle_Qle; lia).
  assert (B : (1 <= inject_Z (max_cost g))%Q) by (change 1%Q with (inject_Z 1); rewrite <- Zle_Qle; lia).
  apply Qlt_le_trans with 1%Q; [|exact B]. apply Qlt_shift_div_r; lra.
Qed.
Lemma csa_solve_sound fuel pfuel N g m : 0 < N -> valid_graph N g -> (1 <= max_cost g)%Z -> perfect_matching N g m ->
  exists r, csa_solve fuel pfuel N g = Ok r /\ match r with None => True | Some l => minimum_cost_matching N g l end.
Proof.
  intros HN V HC P. unfold csa_solve. rewrite valid_no_error by exact V.
  destruct (main_loop_ok g N (2 * inject_Z (Z.of_nat N)) (2 / (2 * inject_Z (Z.of_nat N) + 1)) pfuel
     (min_eps_pos N) (nodes_pos N) (fun v => perfect_degree N g m v P) fuel (inject_Z (max_cost g)) (init_csa g)
     (or_introl (min_eps_small N g HN HC)) (init_between g N)) as (r & E & H).
  rewrite E. cbn [bind]. destruct r as [s|]; [|exists None; split; [reflexivity|exact I]].
  assert (Hd : forall a, In a g -> a_head a < N) by (intros a Ha; apply V, Ha).
  rewrite store_results_ok by (intros v Hv; apply in_seq in Hv; apply H; lia). cbn [bind].
  eexists. split; [reflexivity|]. split; [eapply solved_perfect; eassumption|].
  intros m' P'. eapply solved_optimal; [exact Hd|reflexivity|exact H|exact P'].
Qed.
