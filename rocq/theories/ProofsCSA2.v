(** The assignment solver: invariant of [refine], optimality. *)
From Verif Require Import ModelCSA SpecMatch ProofsImage ProofsCSA.
From Coq Require Import Lqa Permutation ZifyBool ZifyNat.
Open Scope nat_scope.

Section Csa.
Variable g : list garc.
Variable N : nat.
Notation len v := (length (adj g v)).
Notation rcg := (rc g).
Notation hd_at v k := (a_head (arc_at g v k)).

(** Left and right pointers agree. *)
Definition linked (s : csa) : Prop :=
  (forall v k, lmatch s v = Some k -> v < N /\ k < len v /\ rmatch s (hd_at v k) = Some v) /\
  (forall w v, rmatch s w = Some v -> exists k, lmatch s v = Some k /\ hd_at v k = w).
Definition eps_opt (eps : Q) (s : csa) : Prop :=
  forall v k, lmatch s v = Some k -> forall j, j < len v -> (rcg (price s) v k <= rcg (price s) v j + eps)%Q.
Definition bests (s : csa) : Prop := forall v, v < N -> best_ok g (price s) v (best s v).
Definition actives (s : csa) : Prop :=
  NoDup (active s) /\ total_e s = length (active s) /\ forall v, In v (active s) <-> v < N /\ lmatch s v = None.
Definition kept (p0 : nat -> Q) (s : csa) : Prop := forall w, rmatch s w = None -> price s w = p0 w.
Definition Inv (eps : Q) (p0 : nat -> Q) (s : csa) : Prop :=
  linked s /\ eps_opt eps s /\ bests s /\ actives s /\ kept p0 s.

Definition popped (s : csa) rest := mkCsa (price s) (rmatch s) (lmatch s) (best s) rest (total_e s).

(** What a double push does to the prices: the node whose price drops is the cheapest choice of
    the popped left node. *)
Definition pushed (eps : Q) (s s' : csa) (v w : nat) : Prop :=
  v < N /\ lmatch s v = None /\
  (exists k, k < len v /\ hd_at v k = w /\ forall j, j < len v -> (rcg (price s) v k <= rcg (price s) v j)%Q) /\
  (price s' w <= price s w - eps)%Q /\ (forall x, x <> w -> price s' x = price s x) /\
  rmatch s' w = Some v.

Lemma double_push_inv n eps p0 s v rest : (0 < eps)%Q -> (0 <= n)%Q -> (forall v, v < N -> 0 < len v) ->
  Inv eps p0 s -> active s = v :: rest ->
  exists s', double_push g n eps v (popped s rest) = Ok s' /\ Inv eps p0 s' /\ exists w, pushed eps s s' v w.
Proof.
  intros He Hn Hd ((L1 & L2) & O & B & (A1 & A2 & A3) & K) Ea. rewrite Ea in *.
  assert (Hv : v < N /\ lmatch s v = None) by (apply A3; left; reflexivity). destruct Hv as [Hv Hvn].
  destruct (part1_ok g n eps (price s) v (best s v) He Hn (Hd v Hv) (B v Hv)) as (pref & second & adm & bst & E & (C1 & C2 & C3 & C4) & Bn).
  unfold double_push, popped. cbn [price best rmatch lmatch active total_e]. rewrite E. cbn [bind].
  set (w := hd_at v adm). set (p' := upd (price s) w (Qred (price s w - (second - pref + eps)))).
  assert (Lw : (p' w == price s w - (second - pref) - eps)%Q) by (unfold p'; rewrite upd_same, Qred_correct; lra).
  assert (Lo : forall x, x <> w -> p' x = price s x) by (intros x Hx; apply upd_other, Hx).
  assert (Low : forall x, (p' x <= price s x)%Q).
  { intros x. destruct (Nat.eq_dec x w) as [->|Hx]; [lra|rewrite (Lo x Hx); lra]. }
  assert (RcW : (rcg p' v adm == second + eps)%Q).
  { unfold rc. fold w. rewrite Lw, C2. unfold rc. fold w. lra. }
  assert (RcUp : forall x k, (rcg (price s) x k <= rcg p' x k)%Q).
  { intros x k. unfold rc. specialize (Low (hd_at x k)). lra. }
  assert (RcEq : forall x k, hd_at x k <> w -> (rcg p' x k == rcg (price s) x k)%Q).
  { intros x k Hx. unfold rc. rewrite (Lo _ Hx). lra. }
  assert (OptV : forall j, j < len v -> (rcg p' v adm <= rcg p' v j + eps)%Q).
  { intros j Hj. rewrite RcW. destruct (Nat.eq_dec j adm) as [->|Hne]; [rewrite RcW; lra|].
    specialize (C4 j Hj Hne). specialize (RcUp v j). lra. }
  assert (OptO : forall x k, x <> v -> hd_at x k <> w -> lmatch s x = Some k -> forall j, j < len x -> (rcg p' x k <= rcg p' x j + eps)%Q).
  { intros x k Hx Hh Hm j Hj. rewrite (RcEq _ _ Hh). specialize (O x k Hm j Hj). specialize (RcUp x j). lra. }
  assert (Bx : forall x, x < N -> best_ok g p' x (upd (best s) v bst x)).
  { intros x Hx. apply best_ok_lower with (p := price s); [exact Low|]. destruct (Nat.eq_dec x v) as [->|Hne].
    - rewrite upd_same. exact Bn.
    - rewrite upd_other by exact Hne. apply B, Hx. }
  apply NoDup_cons_iff in A1. destruct A1 as [An1 An2].
  assert (Push : forall s', price s' = p' -> rmatch s' w = Some v -> exists x, pushed eps s s' v x).
  { intros s' Ep Er. exists w. split; [exact Hv|]. split; [exact Hvn|]. split.
    - exists adm. split; [exact C1|]. split; [reflexivity|]. intros j Hj. destruct (Nat.eq_dec j adm) as [->|Hne]; [lra|].
      rewrite <- C2. specialize (C4 j Hj Hne). lra.
    - rewrite Ep. split; [lra|]. split; [exact Lo|exact Er]. }
  destruct (rmatch s w) as [u|] eqn:Em.
  - destruct (L2 w u Em) as (ku & Hku & Hhu). destruct (L1 u ku Hku) as (Hu & Hkl & _).
    assert (Huv : u <> v) by congruence.
    eexists. split; [reflexivity|]. split; [|apply Push; [reflexivity|cbn [rmatch]; apply upd_same]].
    split; [|split; [|split; [|split]]]; cbn [price rmatch lmatch best active total_e].
    + split.
      * intros x k Hx. cbn [lmatch] in Hx. destruct (Nat.eq_dec x v) as [->|Hxv].
        { rewrite upd_same in Hx. injection Hx as <-. split; [exact Hv|]. split; [exact C1|]. cbn [rmatch]. apply upd_same. }
        rewrite upd_other in Hx by exact Hxv. destruct (Nat.eq_dec x u) as [->|Hxu]; [rewrite upd_same in Hx; discriminate|].
        rewrite upd_other in Hx by exact Hxu. destruct (L1 x k Hx) as (X1 & X2 & X3). split; [exact X1|]. split; [exact X2|].
        cbn [rmatch]. rewrite upd_other; [exact X3|]. intros Eh. rewrite Eh in X3. congruence.
      * intros x y Hx. cbn [rmatch] in Hx. cbn [lmatch]. destruct (Nat.eq_dec x w) as [->|Hxw].
        { rewrite upd_same in Hx. injection Hx as <-. exists adm. split; [apply upd_same|reflexivity]. }
        rewrite upd_other in Hx by exact Hxw. destruct (L2 x y Hx) as (k & Hk & Hh). exists k. split; [|exact Hh].
        assert (y <> v) by congruence. assert (y <> u) by (intros ->; rewrite Hku in Hk; injection Hk as ->; congruence).
        rewrite !upd_other by assumption. exact Hk.
    + intros x k Hx. cbn [lmatch] in Hx. cbn [price]. destruct (Nat.eq_dec x v) as [->|Hxv].
      { rewrite upd_same in Hx. injection Hx as <-. exact OptV. }
      rewrite upd_other in Hx by exact Hxv. destruct (Nat.eq_dec x u) as [->|Hxu]; [rewrite upd_same in Hx; discriminate|].
      rewrite upd_other in Hx by exact Hxu. apply OptO; [exact Hxv| |exact Hx].
      intros Eh. destruct (L1 x k Hx) as (_ & _ & X3). rewrite Eh in X3. congruence.
    + exact Bx.
    + split; [|split].
      * constructor; [|exact An2]. intros Hin. destruct (proj1 (A3 u) (or_intror Hin)). congruence.
      * cbn [total_e active]. rewrite A2. reflexivity.
      * intros x. cbn [active lmatch]. split.
        { intros [<-|Hx]; [split; [exact Hu|]; rewrite upd_other by exact Huv; apply upd_same|].
          destruct (proj1 (A3 x) (or_intror Hx)) as [X1 X2]. split; [exact X1|].
          assert (x <> v) by (intros ->; contradiction). rewrite upd_other by assumption.
          destruct (Nat.eq_dec x u) as [->|]; [apply upd_same|]. rewrite upd_other by assumption. exact X2. }
        { intros [X1 X2]. destruct (Nat.eq_dec x v) as [->|Hxv]; [rewrite upd_same in X2; discriminate|].
          rewrite upd_other in X2 by exact Hxv. destruct (Nat.eq_dec x u) as [->|Hxu]; [left; reflexivity|].
          rewrite upd_other in X2 by exact Hxu. right. destruct (proj2 (A3 x) (conj X1 X2)) as [->|Hx]; [contradiction|exact Hx]. }
    + intros x Hx. cbn [rmatch] in Hx. cbn [price]. destruct (Nat.eq_dec x w) as [->|Hxw]; [rewrite upd_same in Hx; discriminate|].
      rewrite upd_other in Hx by exact Hxw. rewrite (Lo x Hxw). apply K, Hx.
  - eexists. split; [reflexivity|]. split; [|apply Push; [reflexivity|cbn [rmatch]; apply upd_same]].
    split; [|split; [|split; [|split]]]; cbn [price rmatch lmatch best active total_e].
    + split.
      * intros x k Hx. cbn [lmatch] in Hx. destruct (Nat.eq_dec x v) as [->|Hxv].
        { rewrite upd_same in Hx. injection Hx as <-. split; [exact Hv|]. split; [exact C1|]. cbn [rmatch]. apply upd_same. }
        rewrite upd_other in Hx by exact Hxv. destruct (L1 x k Hx) as (X1 & X2 & X3). split; [exact X1|]. split; [exact X2|].
        cbn [rmatch]. rewrite upd_other; [exact X3|]. intros Eh. rewrite Eh in X3. congruence.
      * intros x y Hx. cbn [rmatch] in Hx. cbn [lmatch]. destruct (Nat.eq_dec x w) as [->|Hxw].
        { rewrite upd_same in Hx. injection Hx as <-. exists adm. split; [apply upd_same|reflexivity]. }
        rewrite upd_other in Hx by exact Hxw. destruct (L2 x y Hx) as (k & Hk & Hh). exists k. split; [|exact Hh].
        assert (y <> v) by congruence. rewrite upd_other by assumption. exact Hk.
    + intros x k Hx. cbn [lmatch] in Hx. cbn [price]. destruct (Nat.eq_dec x v) as [->|Hxv].
      { rewrite upd_same in Hx. injection Hx as <-. exact OptV. }
      rewrite upd_other in Hx by exact Hxv. apply OptO; [exact Hxv| |exact Hx].
      intros Eh. destruct (L1 x k Hx) as (_ & _ & X3). rewrite Eh in X3. congruence.
    + exact Bx.
    + split; [exact An2|]. split.
      * cbn [total_e active]. rewrite A2. cbn [length]. lia.
      * intros x. cbn [active lmatch]. split.
        { intros Hx. destruct (proj1 (A3 x) (or_intror Hx)) as [X1 X2]. split; [exact X1|].
          assert (x <> v) by (intros ->; contradiction). rewrite upd_other by assumption. exact X2. }
        { intros [X1 X2]. destruct (Nat.eq_dec x v) as [->|Hxv]; [rewrite upd_same in X2; discriminate|].
          rewrite upd_other in X2 by exact Hxv. destruct (proj2 (A3 x) (conj X1 X2)) as [->|Hx]; [contradiction|exact Hx]. }
    + intros x Hx. cbn [rmatch] in Hx. cbn [price]. destruct (Nat.eq_dec x w) as [->|Hxw]; [rewrite upd_same in Hx; discriminate|].
      rewrite upd_other in Hx by exact Hxw. rewrite (Lo x Hxw). apply K, Hx.
Qed.

(** ** Start of [refine] *)
Lemma unmatch_all_spec s : linked s -> active s = [] ->
  let s' := unmatch_all g N s in
  price s' = price s /\ best s' = best s /\ (forall v, lmatch s' v = None) /\ (forall w, rmatch s' w = None) /\
  active s' = rev (seq 0 N) /\ total_e s' = N.
Proof.
  intros (L1 & L2) Ea. unfold unmatch_all.
  set (f := fun s v => _).
  assert (G : forall n, n <= N -> let s' := fold_left f (seq 0 n) (mkCsa (price s) (rmatch s) (lmatch s) (best s) (active s) 0) in
    price s' = price s /\ best s' = best s /\ (forall v, lmatch s' v = if Nat.ltb v n then None else lmatch s v) /\
    (forall w, rmatch s' w = match rmatch s w with Some v => if Nat.ltb v n then None else Some v | None => None end) /\
    active s' = rev (seq 0 n) /\ total_e s' = n).
  { induction n as [|n IH]; intros Hn.
    - cbn. rewrite Ea. repeat (split; [reflexivity|]). split; [|split; reflexivity]. intros w. destruct (rmatch s w); reflexivity.
    - rewrite seq_S, fold_left_app. cbn [Nat.add fold_left]. specialize (IH ltac:(lia)). cbv zeta in IH.
      set (t := fold_left f (seq 0 n) _) in *. destruct IH as (P & B & L & R & A & T).
      assert (Et : f t n = match lmatch s n with
         | Some k => mkCsa (price t) (upd (rmatch t) (hd_at n k) None) (upd (lmatch t) n None) (best t) (n :: active t) (S (total_e t))
         | None => mkCsa (price t) (rmatch t) (lmatch t) (best t) (n :: active t) (S (total_e t)) end).
      { unfold f. rewrite (L n). replace (Nat.ltb n n) with false by (symmetry; apply Nat.ltb_irrefl).
        destruct (lmatch s n); reflexivity. }
      rewrite Et. clear Et. clearbody t. clear f.
      rewrite rev_app_distr. cbn [rev app].
      destruct (lmatch s n) as [k|] eqn:En; cbv zeta; cbn [price best lmatch rmatch active total_e].
      + destruct (L1 n k En) as (_ & _ & Rn).
        split; [exact P|]. split; [exact B|]. split; [|split; [|split; [rewrite A; reflexivity|rewrite T; reflexivity]]].
        * intros v. destruct (Nat.eq_dec v n) as [->|Hv]; [rewrite upd_same; replace (n <? S n) with true by (symmetry; apply Nat.ltb_lt; lia); reflexivity|].
          rewrite upd_other by exact Hv. rewrite L. destruct (Nat.ltb_spec v n), (Nat.ltb_spec v (S n)); try lia; reflexivity.
        * intros w. destruct (Nat.eq_dec w (hd_at n k)) as [->|Hw].
          { rewrite upd_same, Rn. replace (n <? S n) with true by (symmetry; apply Nat.ltb_lt; lia). reflexivity. }
          rewrite upd_other by exact Hw. rewrite R. destruct (rmatch s w) as [v|] eqn:Ew; [|reflexivity].
          destruct (L2 w v Ew) as (k' & Hk' & Hh). assert (v <> n) by (intros ->; congruence).
          destruct (Nat.ltb_spec v n), (Nat.ltb_spec v (S n)); try lia; reflexivity.
      + split; [exact P|]. split; [exact B|]. split; [|split; [|split; [rewrite A; reflexivity|rewrite T; reflexivity]]].
        * intros v. rewrite L. destruct (Nat.ltb_spec v n), (Nat.ltb_spec v (S n)); try lia; try reflexivity.
          assert (v = n) as -> by lia. exact En.
        * intros w. rewrite R. destruct (rmatch s w) as [v|] eqn:Ew; [|reflexivity].
          destruct (L2 w v Ew) as (k' & Hk' & Hh). assert (v <> n) by (intros ->; congruence).
          destruct (Nat.ltb_spec v n), (Nat.ltb_spec v (S n)); try lia; reflexivity. }
  specialize (G N ltac:(lia)). cbv zeta in G. destruct G as (P & B & L & R & A & T).
  split; [exact P|]. split; [exact B|]. split; [|split; [|split; [exact A|exact T]]].
  - intros v. rewrite L. destruct (Nat.ltb_spec v N); [reflexivity|]. destruct (lmatch s v) as [k|] eqn:E; [|reflexivity].
    destruct (L1 v k E). lia.
  - intros w. rewrite R. destruct (rmatch s w) as [v|] eqn:E; [|reflexivity]. destruct (L2 w v E) as (k & Hk & _).
    destruct (L1 v k Hk) as (X & _). apply Nat.ltb_lt in X. rewrite X. reflexivity.
Qed.
Lemma refine_start eps s : linked s -> bests s -> active s = [] -> Inv eps (price s) (unmatch_all g N s).
Proof.
  intros L B A. destruct (unmatch_all_spec s L A) as (P & Bs & Lm & Rm & Ac & T).
  set (s' := unmatch_all g N s) in *. split; [|split; [|split; [|split]]].
  - split; [intros v k H; rewrite Lm in H; discriminate|intros w v H; rewrite Rm in H; discriminate].
  - intros v k H. rewrite Lm in H. discriminate.
  - intros v Hv. rewrite P, Bs. apply B, Hv.
  - split; [rewrite Ac; apply NoDup_rev, seq_NoDup|]. split; [rewrite T, Ac, rev_length, seq_length; reflexivity|].
    intros v. rewrite Ac, <- in_rev, in_seq, Lm. split; [intros; split; [lia|reflexivity]|lia].
  - intros w _. rewrite P. reflexivity.
Qed.

(** ** The push loop *)
Lemma push_loop_inv n eps p0 : (0 < eps)%Q -> (0 <= n)%Q -> (forall v, v < N -> 0 < len v) ->
  forall fuel s, Inv eps p0 s -> exists r, push_loop g fuel n eps s = Ok r /\
    match r with None => True | Some s' => Inv eps p0 s' /\ active s' = [] end.
Proof.
  intros He Hn Hd. induction fuel as [|fuel IH]; intros s I; [exists None; split; [reflexivity|exact Logic.I]|].
  cbn [push_loop]. destruct I as (L & O & B & (A1 & A2 & A3) & K). destruct (active s) as [|v rest] eqn:Ea.
  - rewrite A2. cbn [length Nat.ltb Nat.leb]. exists (Some s). split; [reflexivity|]. split; [|exact Ea].
    split; [exact L|]. split; [exact O|]. split; [exact B|]. split; [|exact K]. rewrite <- Ea in A1, A2, A3. split; [exact A1|split; [exact A2|exact A3]].
  - replace (Nat.ltb 0 (total_e s)) with true by (rewrite A2; reflexivity).
    assert (I : Inv eps p0 s). { split; [exact L|]. split; [exact O|]. split; [exact B|]. split; [|exact K]. rewrite <- Ea in A1, A2, A3. split; [exact A1|split; [exact A2|exact A3]]. }
    destruct (double_push_inv n eps p0 s v rest He Hn Hd I Ea) as (s' & E & I' & _). unfold popped in E. rewrite E. cbn [bind].
    apply IH, I'.
Qed.
Definition between (s : csa) : Prop := linked s /\ bests s /\ active s = [].
Definition solved (eps : Q) (s : csa) : Prop := between s /\ eps_opt eps s /\ forall v, v < N -> lmatch s v <> None.
Lemma refine_ok fuel n eps s : (0 < eps)%Q -> (0 <= n)%Q -> (forall v, v < N -> 0 < len v) -> between s ->
  exists r, refine g fuel N n eps s = Ok r /\ match r with None => True | Some s' => solved eps s' end.
Proof.
  intros He Hn Hd (L & B & A). unfold refine.
  destruct (push_loop_inv n eps (price s) He Hn Hd fuel _ (refine_start eps s L B A)) as (r & E & H).
  exists r. split; [exact E|]. destruct r as [s'|]; [|exact Logic.I]. destruct H as ((L' & O' & B' & (A1 & A2 & A3) & K) & Ea).
  split; [split; [exact L'|split; [exact B'|exact Ea]]|]. split; [exact O'|]. intros v Hv Hm.
  rewrite Ea in A3. apply (proj2 (A3 v)). split; assumption.
Qed.
Lemma main_loop_ok n min_eps pfuel : (0 < min_eps)%Q -> (0 <= n)%Q -> (forall v, v < N -> 0 < len v) ->
  forall fuel eps s, (min_eps < eps)%Q \/ (eps == min_eps)%Q /\ solved min_eps s -> between s ->
  exists r, main_loop g fuel pfuel N n min_eps eps s = Ok r /\ match r with None => True | Some s' => solved min_eps s' end.
Proof.
  intros He Hn Hd. induction fuel as [|fuel IH]; intros eps s H Bt; [exists None; split; [reflexivity|exact Logic.I]|].
  cbn [main_loop]. qcase min_eps eps.
  - set (e := update_epsilon min_eps eps).
    assert (Ee : (min_eps <= e)%Q) by (unfold e, update_epsilon; qcase (Qred (eps / 10)) min_eps; lra).
    destruct (refine_ok pfuel n e s ltac:(lra) Hn Hd Bt) as (r & Er & Hr). rewrite Er. cbn [bind].
    destruct r as [s'|]; [|exists None; split; [reflexivity|exact Logic.I]].
    apply IH; [|apply Hr]. apply Qle_lteq in Ee. destruct Ee as [Ee|Ee]; [left; exact Ee|right].
    split; [symmetry; exact Ee|]. destruct Hr as (X & Y & Z). split; [exact X|]. split; [|exact Z].
    intros v k Hk j Hj. specialize (Y v k Hk j Hj). lra.
  - exists (Some s). split; [reflexivity|]. destruct H as [H|[_ H]]; [lra|exact H].
Qed.
End Csa.
