(** The assignment solver: termination. *)
From Verif Require Import ModelCSA SpecMatch ProofsImage ProofsCSA ProofsCSA2 ProofsCSA3.
From Coq Require Import Lqa Qround Permutation ZifyBool ZifyNat.
Open Scope nat_scope.

Lemma plateau (f : nat -> nat) n : (exists k, k < n /\ f (S k) <= f k) \/ f 0 + n <= f n.
Proof.
  induction n as [|n IH]; [right; lia|]. destruct IH as [(k & H1 & H2)|IH]; [left; exists k; lia|].
  destruct (le_lt_dec (f (S n)) (f n)) as [L|L]; [left; exists n; lia|right; lia].
Qed.

Lemma filter_short {A} (f : A -> bool) l : length (filter f l) <= length l.
Proof. induction l as [|a l IH]; [reflexivity|]. cbn [filter]. destruct (f a); cbn [length]; lia. Qed.

Section Csa.
Variable g : list garc.
Variable N : nat.
Notation len v := (length (adj g v)).
Notation rcg := (rc g).
Notation hd_at v k := (a_head (arc_at g v k)).
Notation cost_at v k := (a_cost (arc_at g v k)).
Hypothesis heads : forall a, In a g -> a_head a < N.
Variable m : list (nat * Z).
Hypothesis perfect : perfect_matching N g m.
Variable C : Q.
Hypothesis costs : forall a, In a g -> (- C <= inject_Z (a_cost a) <= C)%Q.

Lemma arc_cost v k : k < len v -> (- C <= inject_Z (cost_at v k) <= C)%Q.
Proof. intros H. apply costs, (adj_in g v k H). Qed.
Lemma arc_head v k : k < len v -> hd_at v k < N.
Proof. intros H. apply heads, (adj_in g v k H). Qed.

(** Every price that is lowered is still above a fixed bound. *)
Lemma price_floor eps p0 s s' v w B : (0 < eps)%Q -> Inv g N eps p0 s -> pushed g N eps s s' v w ->
  (forall x, x < N -> (B <= p0 x)%Q) ->
  (B - inject_Z (Z.of_nat N) * (2 * C + eps) <= price s w)%Q.
Proof.
  intros He ((L1 & L2) & O & _ & _ & K) (Hv & Hvn & (k0 & Hk0 & Hw & Hmin) & _) HB.
  destruct (Qlt_le_dec (price s w) (B - inject_Z (Z.of_nat N) * (2 * C + eps))) as [Lo|]; [exfalso|assumption].
  assert (C0 : (0 <= C)%Q) by (pose proof (arc_cost v k0 Hk0); lra).
  set (D := (2 * C + eps)%Q) in *. assert (HD : (0 < D)%Q) by (unfold D; lra).
  set (lev := fun k => (price s w + inject_Z (Z.of_nat k) * D)%Q).
  set (A := fun k => filter (fun x => Qle_bool (price s x) (lev k)) (seq 0 N)).
  assert (Ain : forall k x, In x (A k) <-> x < N /\ (price s x <= lev k)%Q).
  { intros k x. unfold A. rewrite filter_In, in_seq, Qle_bool_iff. intuition lia. }
  assert (levS : forall k, (lev (S k) == lev k + D)%Q).
  { intros k. unfold lev. rewrite Nat2Z.inj_succ, <- Z.add_1_l, inject_Z_plus. change (inject_Z 1) with 1%Q. lra. }
  assert (lev0 : (lev 0%nat == price s w)%Q) by (unfold lev; change (inject_Z (Z.of_nat 0)) with 0%Q; lra).
  assert (levm : forall k k', k <= k' -> (lev k <= lev k')%Q).
  { intros k k' H. induction H as [|k' H IH]; [lra|]. rewrite levS. lra. }
  assert (Wn : w < N) by (rewrite <- Hw; apply arc_head, Hk0).
  destruct (plateau (fun k => length (A k)) N) as [(k & Hk & Pl)|Pl].
  2:{ assert (L : length (A N) <= N) by (unfold A; rewrite <- (seq_length N 0) at 2; apply filter_short).
      assert (L0 : In w (A 0)) by (apply Ain; split; [exact Wn|lra]). destruct (A 0) as [|? ?]; [destruct L0|]. cbn [length] in Pl. lia. }
  assert (ND : forall j, NoDup (A j)) by (intros j; apply NoDup_filter, seq_NoDup).
  assert (Same : incl (A (S k)) (A k)).
  { apply NoDup_length_incl; [apply ND|exact Pl|]. intros x Hx. apply Ain in Hx. apply Ain. split; [apply Hx|].
    rewrite levS. destruct Hx. lra. }
  assert (Top : (lev k < B)%Q).
  { apply Qle_lt_trans with (lev N); [apply levm; lia|]. unfold lev. fold D. lra. }
  (* partners *)
  set (partner := fun x => match rmatch s x with Some u => u | None => 0 end).
  assert (Pt : forall x, In x (A k) -> exists ki, rmatch s x = Some (partner x) /\ lmatch s (partner x) = Some ki /\ hd_at (partner x) ki = x).
  { intros x Hx. apply Ain in Hx. destruct Hx as [Hx1 Hx2]. unfold partner. destruct (rmatch s x) as [u|] eqn:E.
    - destruct (L2 x u E) as (ki & X1 & X2). exists ki. auto.
    - specialize (K x E). specialize (HB x Hx1). rewrite K in Hx2. lra. }
  set (T := v :: map partner (A k)).
  assert (NT : NoDup T).
  { constructor.
    - intros I. apply in_map_iff in I. destruct I as (x & E & Hx). destruct (Pt x Hx) as (ki & _ & X & _). rewrite E in X. congruence.
    - apply NoDup_map_inj_on; [|apply ND]. intros a b Ha Hb E. destruct (Pt a Ha) as (ka & A1 & A2 & A3).
      destruct (Pt b Hb) as (kb & B1 & B2 & B3). rewrite <- E in B2, B3. rewrite A2 in B2. injection B2 as ->. congruence. }
  assert (Cl : forall u, In u T -> u < N /\ forall j, j < len u -> In (hd_at u j) (A k)).
  { intros u [<-|Hu].
    - split; [exact Hv|]. intros j Hj. apply Same, Ain. split; [apply arc_head, Hj|]. rewrite levS.
      specialize (Hmin j Hj). unfold rc in Hmin. rewrite Hw in Hmin.
      pose proof (arc_cost v k0 Hk0). pose proof (arc_cost v j Hj). pose proof (levm 0 k ltac:(lia)). unfold D. lra.
    - apply in_map_iff in Hu. destruct Hu as (x & <- & Hx). destruct (Pt x Hx) as (ki & X1 & X2 & X3).
      destruct (L1 _ _ X2) as (Y1 & Y2 & _). split; [exact Y1|]. intros j Hj. apply Same, Ain. split; [apply arc_head, Hj|].
      rewrite levS. specialize (O _ _ X2 j Hj). unfold rc in O. rewrite X3 in O.
      pose proof (arc_cost _ ki Y2). pose proof (arc_cost _ j Hj). apply Ain in Hx. destruct Hx as [_ Hx]. unfold D. lra. }
  destruct perfect as (PL & PD & PA).
  set (sig := fun u => fst (nth u m (0, 0%Z))).
  assert (Sig : forall u, u < N -> nth_error m u = Some (nth u m (0, 0%Z))) by (intros u Hu; apply nth_error_nth'; lia).
  assert (I : length (map sig T) <= length (A k)).
  { apply NoDup_incl_length.
    - apply NoDup_map_inj_on; [|exact NT]. intros a b Ha Hb E. destruct (Cl a Ha) as [Ha' _]. destruct (Cl b Hb) as [Hb' _].
      rewrite NoDup_nth_error in PD. apply PD; [rewrite map_length; lia|]. rewrite !nth_error_map, (Sig a Ha'), (Sig b Hb').
      cbn [option_map]. f_equal. exact E.
    - intros x Hx. apply in_map_iff in Hx. destruct Hx as (u & <- & Hu). destruct (Cl u Hu) as [Hu' Hc].
      specialize (Sig u Hu'). unfold sig. destruct (nth u m (0, 0%Z)) as [w' c'] eqn:En. destruct (PA u w' c' Sig) as [_ Ia].
      destruct (in_adj g u w' c' Ia) as (j & Hj & Ej). specialize (Hc j Hj). rewrite Ej in Hc. exact Hc. }
  unfold T in I. cbn [map length] in I. rewrite map_length in I. cbn [length] in I. rewrite map_length in I. lia.
Qed.

(** Number of pushes still possible at each right node. *)
Definition room (B eps : Q) (p : nat -> Q) (x : nat) : nat := Z.to_nat (Qfloor ((p x - B) / eps) + 1).
Definition phi (B eps : Q) (p : nat -> Q) : nat := list_sum (map (room B eps p) (seq 0 N)).
Lemma room_drop B eps p p' x : (0 < eps)%Q -> (B <= p x)%Q -> (p' x <= p x - eps)%Q -> room B eps p' x < room B eps p x.
Proof.
  intros He H1 H2. unfold room.
  assert (A : (0 <= Qfloor ((p x - B) / eps))%Z).
  { change 0%Z with (Qfloor 0). apply Qfloor_resp_le. apply Qle_shift_div_l; lra. }
  assert (E : ((p' x - B) / eps <= (p x - B) / eps - 1)%Q).
  { apply Qle_shift_div_r; [exact He|]. assert (X : ((p x - B) / eps * eps == p x - B)%Q) by (field; lra). lra. }
  assert (F : (Qfloor ((p' x - B) / eps) < Qfloor ((p x - B) / eps))%Z).
  { rewrite Zlt_Qlt. pose proof (Qfloor_le ((p' x - B) / eps)). pose proof (Qlt_floor ((p x - B) / eps)) as X.
    rewrite inject_Z_plus in X. change (inject_Z 1) with 1%Q in X. lra. }
  lia.
Qed.
Lemma list_sum_drop (f f' : nat -> nat) l w : NoDup l -> In w l -> f' w < f w -> (forall x, x <> w -> f' x = f x) ->
  list_sum (map f' l) < list_sum (map f l).
Proof.
  intros D I H E. induction l as [|a l IH]; [destruct I|]. apply NoDup_cons_iff in D. destruct D as [D1 D2].
  change (list_sum (map f' (a :: l))) with (f' a + list_sum (map f' l)).
  change (list_sum (map f (a :: l))) with (f a + list_sum (map f l)). destruct I as [->|I].
  - assert (X : map f' l = map f l) by (apply map_ext_in; intros x Hx; apply E; intros ->; contradiction). rewrite X. lia.
  - rewrite (E a) by (intros ->; contradiction). specialize (IH D2 I). lia.
Qed.
Lemma lower_bound (M : nat) (p0 : nat -> Q) : exists B, forall x, x < M -> (B <= p0 x)%Q.
Proof.
  induction M as [|n [B H]]; [exists 0%Q; intros; lia|]. destruct (Qlt_le_dec B (p0 n)).
  - exists B. intros x Hx. destruct (Nat.eq_dec x n) as [->|]; [lra|apply H; lia].
  - exists (p0 n). intros x Hx. destruct (Nat.eq_dec x n) as [->|]; [lra|]. specialize (H x ltac:(lia)). lra.
Qed.
Lemma push_loop_terminates n eps p0 B : (0 < eps)%Q -> (0 <= n)%Q -> (forall x, x < N -> (B <= p0 x)%Q) ->
  forall fuel s, Inv g N eps p0 s -> phi (B - inject_Z (Z.of_nat N) * (2 * C + eps))%Q eps (price s) < fuel ->
  exists s', push_loop g fuel n eps s = Ok (Some s').
Proof.
  intros He Hn HB. assert (Hd : forall v, v < N -> 0 < len v) by (intros v; apply perfect_degree with (m := m), perfect).
  set (F := (B - inject_Z (Z.of_nat N) * (2 * C + eps))%Q).
  induction fuel as [|fuel IH]; intros s I L; [lia|]. cbn [push_loop].
  destruct (Nat.ltb_spec 0 (total_e s)) as [Ht|Ht]; [|exists s; reflexivity].
  destruct (active s) as [|v rest] eqn:Ea.
  { destruct I as (_ & _ & _ & (_ & A2 & _) & _). rewrite A2, Ea in Ht. cbn [length] in Ht. lia. }
  destruct (double_push_inv g N n eps p0 s v rest He Hn Hd I Ea) as (s' & E & I' & w & Pu). unfold popped in E. rewrite E. cbn [bind].
  apply IH; [exact I'|]. pose proof (price_floor eps p0 s s' v w B He I Pu HB) as Fl. fold F in Fl.
  assert (X : phi F eps (price s') < phi F eps (price s)); [|lia].
  destruct Pu as (_ & _ & (k & Hk & Hw & _) & Dr & Ot & _).
  apply list_sum_drop with (w := w).
  - apply seq_NoDup.
  - apply in_seq. rewrite <- Hw. pose proof (arc_head v k Hk). lia.
  - apply room_drop; assumption.
  - intros x Hx. unfold room. rewrite (Ot x Hx). reflexivity.
Qed.
End Csa.

Lemma push_loop_mono g n eps fuel : forall fuel' s s', push_loop g fuel n eps s = Ok (Some s') -> fuel <= fuel' ->
  push_loop g fuel' n eps s = Ok (Some s').
Proof.
  induction fuel as [|fuel IH]; intros fuel' s s' E L; [discriminate|]. destruct fuel' as [|fuel']; [lia|]. cbn [push_loop] in *.
  destruct (Nat.ltb 0 (total_e s)); [|exact E]. destruct (active s) as [|v rest]; [exact E|].
  destruct (double_push g n eps v _) as [t|]; [|exact E]. cbn [bind] in *. apply IH; [exact E|lia].
Qed.
Lemma refine_terminates g N m n eps s : (forall a, In a g -> a_head a < N) -> perfect_matching N g m -> (0 < eps)%Q -> (0 <= n)%Q ->
  between g N s -> exists F s', forall fuel, F <= fuel -> refine g fuel N n eps s = Ok (Some s').
Proof.
  intros Hh P He Hn (L & B & A). set (C := inject_Z (max_cost g)).
  assert (costs : forall a, In a g -> (- C <= inject_Z (a_cost a) <= C)%Q).
  { intros a Ha. pose proof (max_cost_bound g a Ha). unfold C. rewrite <- inject_Z_opp, <- !Zle_Qle. lia. }
  destruct (lower_bound N (price s)) as (B0 & HB0).
  set (F := S (phi N (B0 - inject_Z (Z.of_nat N) * (2 * C + eps))%Q eps (price (unmatch_all g N s)))).
  destruct (push_loop_terminates g N Hh m P C costs n eps (price s) B0 He Hn HB0 F _ (refine_start g N eps s L B A)) as (s' & E); [unfold F; lia|].
  exists F, s'. intros fuel Hf. unfold refine. eapply push_loop_mono; eassumption.
Qed.
Lemma main_loop_terminates g N m n min_eps : (forall a, In a g -> a_head a < N) -> perfect_matching N g m -> (0 < min_eps)%Q -> (0 <= n)%Q ->
  forall k eps s, (Qfloor (eps / min_eps) <= Z.of_nat k)%Z -> between g N s ->
  exists F P s', forall fuel pfuel, F <= fuel -> P <= pfuel -> main_loop g fuel pfuel N n min_eps eps s = Ok (Some s').
Proof.
  intros Hh P He Hn. assert (Hd : forall v, v < N -> 0 < length (adj g v)) by (intros v; apply perfect_degree with (m := m), P).
  assert (St : forall eps s, (eps <= min_eps)%Q -> exists F P s', forall fuel pfuel, F <= fuel -> P <= pfuel -> main_loop g fuel pfuel N n min_eps eps s = Ok (Some s')).
  { intros eps s H. exists 1, 0, s. intros fuel pfuel Hf _. destruct fuel as [|fuel]; [lia|]. cbn [main_loop].
    qcase min_eps eps; [lra|reflexivity]. }
  induction k as [|k IH]; intros eps s Hk Bt.
  - apply St. destruct (Qlt_le_dec min_eps eps) as [L|L]; [exfalso|exact L].
    assert (X : (1 <= Qfloor (eps / min_eps))%Z); [|lia]. change 1%Z with (Qfloor 1). apply Qfloor_resp_le. apply Qle_shift_div_l; lra.
  - destruct (Qlt_le_dec min_eps eps) as [L|L]; [|apply St, L].
    set (e := update_epsilon min_eps eps).
    assert (Ee : (0 < e)%Q /\ ((e <= min_eps)%Q \/ (e == eps / 10)%Q /\ (min_eps <= eps / 10)%Q)).
    { unfold e, update_epsilon. assert (QR := Qred_correct (eps / 10)). qcase (Qred (eps / 10)) min_eps; [split; [exact He|left; lra]|].
      split; [lra|right; split; [exact QR|lra]]. }
    destruct Ee as [Ep Ee].
    destruct (refine_terminates g N m n e s Hh P Ep Hn Bt) as (F1 & s1 & E1).
    assert (Bt1 : between g N s1).
    { destruct (refine_ok g N F1 n e s Ep Hn Hd Bt) as (r & Er & Hr). rewrite (E1 F1 ltac:(lia)) in Er. injection Er as <-. apply Hr. }
    assert (R : exists F P s', forall fuel pfuel, F <= fuel -> P <= pfuel -> main_loop g fuel pfuel N n min_eps e s1 = Ok (Some s')).
    { destruct Ee as [Ee|[Ee Em]]; [apply St, Ee|]. apply IH; [|exact Bt1].
      assert (X : (Qfloor (e / min_eps) < Qfloor (eps / min_eps))%Z); [|lia].
      rewrite Zlt_Qlt. pose proof (Qfloor_le (e / min_eps)). pose proof (Qlt_floor (eps / min_eps)) as Y.
      rewrite inject_Z_plus in Y. change (inject_Z 1) with 1%Q in Y.
      assert (Z1 : (e / min_eps == eps / min_eps / 10)%Q) by (rewrite Ee; field; lra).
      assert (Z0 : (eps == eps / 10 * 10)%Q) by field.
      assert (Z2 : (10 <= eps / min_eps)%Q) by (apply Qle_shift_div_l; lra).
      assert (Z3 : (eps / min_eps == eps / min_eps / 10 * 10)%Q) by (field; lra). lra. }
    destruct R as (F2 & P2 & s2 & E2). exists (S F2), (max F1 P2), s2. intros fuel pfuel Hf Hp. destruct fuel as [|fuel]; [lia|].
    cbn [main_loop]. qcase min_eps eps; [|lra]. fold e. rewrite E1 by lia. cbn [bind]. apply E2; lia.
Qed.
Lemma csa_solve_terminates N g m : 0 < N -> valid_graph N g -> (1 <= max_cost g)%Z -> perfect_matching N g m ->
  exists F P l, forall fuel pfuel, F <= fuel -> P <= pfuel -> csa_solve fuel pfuel N g = Ok (Some l).
Proof.
  intros HN V HC P. remember (2 * inject_Z (Z.of_nat N))%Q as n eqn:En.
  destruct (main_loop_terminates g N m n (2 / (n + 1)) (fun a Ha => proj2 (V a Ha)) P ltac:(rewrite En; apply min_eps_pos) ltac:(rewrite En; apply nodes_pos)
    (Z.to_nat (Qfloor (inject_Z (max_cost g) / (2 / (n + 1))))) (inject_Z (max_cost g)) (init_csa g) ltac:(lia) (init_between g N))
    as (F & P0 & s' & E).
  destruct (csa_solve_sound F P0 N g m HN V HC P) as (r & Er & _).
  exists F, P0. destruct r as [l|].
  - exists l. intros fuel pfuel Hf Hp. unfold csa_solve in *. rewrite valid_no_error in * by exact V. rewrite <- En in *.
    rewrite (E F P0 (le_n _) (le_n _)) in Er. rewrite (E fuel pfuel Hf Hp). exact Er.
  - exfalso. unfold csa_solve in Er. rewrite valid_no_error in Er by exact V. rewrite <- En in Er. rewrite (E F P0 (le_n _) (le_n _)) in Er. cbn [bind] in Er.
    destruct (store_results g s' (seq 0 N)); discriminate.
Qed.
