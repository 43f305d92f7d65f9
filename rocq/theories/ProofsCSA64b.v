(** The assignment solver in binary64: invariant of [drefine]. *)
From Verif Require Import ModelCSA64 SpecMatch ProofsImage ProofsFloat ProofsCSA ProofsCSA64.
From Coq Require Import Lra Permutation ZifyBool ZifyNat.
Open Scope R_scope.
Open Scope nat_scope.

Section Csa.
Variable g : list garc.
Variable N : nat.
Notation len v := (List.length (adj g v)).
Notation hd_at v k := (a_head (arc_at g v k)).

(** Left and right pointers agree. *)
Definition dlinked (s : dcsa) : Prop :=
  (forall v k, dlmatch s v = Some k -> v < N /\ k < len v /\ drmatch s (hd_at v k) = Some v) /\
  (forall w v, drmatch s w = Some v -> exists k, dlmatch s v = Some k /\ hd_at v k = w).
Definition dbests (s : dcsa) : Prop := forall v, v < N -> dbest_ok g (dprice s) v (dbest s v).
Definition dactives (s : dcsa) : Prop :=
  NoDup (dactive s) /\ dtotal s = List.length (dactive s) /\ forall v, In v (dactive s) <-> v < N /\ dlmatch s v = None.
Definition dkept (p0 : nat -> R) (s : dcsa) : Prop := forall w, drmatch s w = None -> dprice s w = p0 w.
Definition ddoubles (s : dcsa) : Prop := forall x, fmt (dprice s x).
Definition dInv (p0 : nat -> R) (s : dcsa) : Prop :=
  dlinked s /\ ddoubles s /\ dbests s /\ dactives s /\ dkept p0 s.

Definition dpopped (s : dcsa) rest := mkD (dprice s) (drmatch s) (dlmatch s) (dbest s) rest (dtotal s).

(** What a double push does. *)
Definition dpushed (n eps : R) (s s' : dcsa) (v : nat) : Prop :=
  exists pref second adm, v < N /\ dlmatch s v = None /\ dchosen g (dprice s) v pref second adm /\
    (len v = 1 -> second = fadd pref (fmul eps (fadd (dpo_cost_thresh n) 1))) /\
    dprice s' (hd_at v adm) = fsub (dprice s (hd_at v adm)) (fadd (fsub second pref) eps) /\
    (forall x, x <> hd_at v adm -> dprice s' x = dprice s x) /\
    (forall x k, dlmatch s' x = Some k -> x = v /\ k = adm \/ hd_at x k <> hd_at v adm /\ dlmatch s x = Some k).

Lemma ddouble_push_inv n eps p0 s v rest : (0 < eps)%R -> fmt eps -> (0 <= n)%R -> (forall v, v < N -> 0 < len v) ->
  dInv p0 s -> dactive s = v :: rest ->
  exists s', ddouble_push g n eps v (dpopped s rest) = Ok s' /\ dInv p0 s' /\ dpushed n eps s s' v.
Proof.
  intros He Fe Hn Hd ((L1 & L2) & O & B & (A1 & A2 & A3) & K) Ea. rewrite Ea in *.
  assert (Hv : v < N /\ dlmatch s v = None) by (apply A3; left; reflexivity). destruct Hv as [Hv Hvn].
  destruct (dpart1_ok g n eps (dprice s) v (dbest s v) He Hn (Hd v Hv) (B v Hv)) as (pref & second & adm & bst & E & (C1 & C2 & C3 & C4) & Bn & One).
  unfold ddouble_push, dpopped. cbn [dprice dbest drmatch dlmatch dactive dtotal]. rewrite E. cbn [bind].
  set (w := hd_at v adm). set (p' := upd (dprice s) w (fsub (dprice s w) (fadd (fsub second pref) eps))).
  assert (Lw : p' w = fsub (dprice s w) (fadd (fsub second pref) eps)) by (unfold p'; rewrite upd_same; reflexivity).
  assert (Lo : forall x, x <> w -> p' x = dprice s x) by (intros x Hx; apply upd_other, Hx).
  assert (Dp : (0 <= fadd (fsub second pref) eps)%R) by (apply rnd_nonneg; assert (0 <= fsub second pref)%R by (apply rnd_nonneg; lra); lra).
  assert (Low : forall x, (p' x <= dprice s x)%R).
  { intros x. destruct (Nat.eq_dec x w) as [->|Hx]; [rewrite Lw; apply rnd_le_fmt; [apply O|lra]|rewrite (Lo x Hx); lra]. }
  assert (Fm : forall x, fmt (p' x)).
  { intros x. destruct (Nat.eq_dec x w) as [->|Hx]; [rewrite Lw; apply rnd_fmt|rewrite (Lo x Hx); apply O]. }
  assert (Bx : forall x, x < N -> dbest_ok g p' x (upd (dbest s) v bst x)).
  { intros x Hx. apply dbest_ok_lower with (p := dprice s); [exact Low|]. destruct (Nat.eq_dec x v) as [->|Hne].
    - rewrite upd_same. exact Bn.
    - rewrite upd_other by exact Hne. apply B, Hx. }
  apply NoDup_cons_iff in A1. destruct A1 as [An1 An2].
  assert (Push : forall s', dprice s' = p' -> (forall x k, dlmatch s' x = Some k -> x = v /\ k = adm \/ hd_at x k <> w /\ dlmatch s x = Some k) -> dpushed n eps s s' v).
  { intros s' Ep Er. exists pref, second, adm. split; [exact Hv|]. split; [exact Hvn|]. split; [split; [exact C1|]; split; [exact C2|]; split; [exact C3|exact C4]|]. split; [exact One|].
    rewrite Ep. split; [exact Lw|]. split; [exact Lo|exact Er]. }
  destruct (drmatch s w) as [u|] eqn:Em.
  - destruct (L2 w u Em) as (ku & Hku & Hhu). destruct (L1 u ku Hku) as (Hu & Hkl & _).
    assert (Huv : u <> v) by congruence.
    eexists. split; [reflexivity|]. split; [|apply Push; [reflexivity|]; cbn [dlmatch]; intros x k Hx; destruct (Nat.eq_dec x v) as [->|Hxv]; [rewrite upd_same in Hx; injection Hx as <-; left; split; reflexivity|];
      rewrite upd_other in Hx by exact Hxv; destruct (Nat.eq_dec x u) as [->|Hxu]; [rewrite upd_same in Hx; discriminate|]; rewrite upd_other in Hx by exact Hxu; right; split; [|exact Hx];
      intros Eh; destruct (L1 x k Hx) as (_ & _ & X3); rewrite Eh in X3; congruence].
    split; [|split; [|split; [|split]]]; cbn [dprice drmatch dlmatch dbest dactive dtotal].
    + split.
      * intros x k Hx. cbn [dlmatch] in Hx. destruct (Nat.eq_dec x v) as [->|Hxv].
        { rewrite upd_same in Hx. injection Hx as <-. split; [exact Hv|]. split; [exact C1|]. cbn [drmatch]. apply upd_same. }
        rewrite upd_other in Hx by exact Hxv. destruct (Nat.eq_dec x u) as [->|Hxu]; [rewrite upd_same in Hx; discriminate|].
        rewrite upd_other in Hx by exact Hxu. destruct (L1 x k Hx) as (X1 & X2 & X3). split; [exact X1|]. split; [exact X2|].
        cbn [drmatch]. rewrite upd_other; [exact X3|]. intros Eh. rewrite Eh in X3. congruence.
      * intros x y Hx. cbn [drmatch] in Hx. cbn [dlmatch]. destruct (Nat.eq_dec x w) as [->|Hxw].
        { rewrite upd_same in Hx. injection Hx as <-. exists adm. split; [apply upd_same|reflexivity]. }
        rewrite upd_other in Hx by exact Hxw. destruct (L2 x y Hx) as (k & Hk & Hh). exists k. split; [|exact Hh].
        assert (y <> v) by congruence. assert (y <> u) by (intros ->; rewrite Hku in Hk; injection Hk as ->; congruence).
        rewrite !upd_other by assumption. exact Hk.
    + exact Fm.
    + exact Bx.
    + split; [|split].
      * constructor; [|exact An2]. intros Hin. destruct (proj1 (A3 u) (or_intror Hin)). congruence.
      * cbn [dtotal dactive]. rewrite A2. reflexivity.
      * intros x. cbn [dactive dlmatch]. split.
        { intros [<-|Hx]; [split; [exact Hu|]; rewrite upd_other by exact Huv; apply upd_same|].
          destruct (proj1 (A3 x) (or_intror Hx)) as [X1 X2]. split; [exact X1|].
          assert (x <> v) by (intros ->; contradiction). rewrite upd_other by assumption.
          destruct (Nat.eq_dec x u) as [->|]; [apply upd_same|]. rewrite upd_other by assumption. exact X2. }
        { intros [X1 X2]. destruct (Nat.eq_dec x v) as [->|Hxv]; [rewrite upd_same in X2; discriminate|].
          rewrite upd_other in X2 by exact Hxv. destruct (Nat.eq_dec x u) as [->|Hxu]; [left; reflexivity|].
          rewrite upd_other in X2 by exact Hxu. right. destruct (proj2 (A3 x) (conj X1 X2)) as [->|Hx]; [contradiction|exact Hx]. }
    + intros x Hx. cbn [drmatch] in Hx. cbn [dprice]. destruct (Nat.eq_dec x w) as [->|Hxw]; [rewrite upd_same in Hx; discriminate|].
      rewrite upd_other in Hx by exact Hxw. rewrite (Lo x Hxw). apply K, Hx.
  - eexists. split; [reflexivity|]. split; [|apply Push; [reflexivity|]; cbn [dlmatch]; intros x k Hx; destruct (Nat.eq_dec x v) as [->|Hxv]; [rewrite upd_same in Hx; injection Hx as <-; left; split; reflexivity|];
      rewrite upd_other in Hx by exact Hxv; right; split; [|exact Hx];
      intros Eh; destruct (L1 x k Hx) as (_ & _ & X3); rewrite Eh in X3; congruence].
    split; [|split; [|split; [|split]]]; cbn [dprice drmatch dlmatch dbest dactive dtotal].
    + split.
      * intros x k Hx. cbn [dlmatch] in Hx. destruct (Nat.eq_dec x v) as [->|Hxv].
        { rewrite upd_same in Hx. injection Hx as <-. split; [exact Hv|]. split; [exact C1|]. cbn [drmatch]. apply upd_same. }
        rewrite upd_other in Hx by exact Hxv. destruct (L1 x k Hx) as (X1 & X2 & X3). split; [exact X1|]. split; [exact X2|].
        cbn [drmatch]. rewrite upd_other; [exact X3|]. intros Eh. rewrite Eh in X3. congruence.
      * intros x y Hx. cbn [drmatch] in Hx. cbn [dlmatch]. destruct (Nat.eq_dec x w) as [->|Hxw].
        { rewrite upd_same in Hx. injection Hx as <-. exists adm. split; [apply upd_same|reflexivity]. }
        rewrite upd_other in Hx by exact Hxw. destruct (L2 x y Hx) as (k & Hk & Hh). exists k. split; [|exact Hh].
        assert (y <> v) by congruence. rewrite upd_other by assumption. exact Hk.
    + exact Fm.
    + exact Bx.
    + split; [exact An2|]. split.
      * cbn [dtotal dactive]. rewrite A2. cbn [List.length]. lia.
      * intros x. cbn [dactive dlmatch]. split.
        { intros Hx. destruct (proj1 (A3 x) (or_intror Hx)) as [X1 X2]. split; [exact X1|].
          assert (x <> v) by (intros ->; contradiction). rewrite upd_other by assumption. exact X2. }
        { intros [X1 X2]. destruct (Nat.eq_dec x v) as [->|Hxv]; [rewrite upd_same in X2; discriminate|].
          rewrite upd_other in X2 by exact Hxv. destruct (proj2 (A3 x) (conj X1 X2)) as [->|Hx]; [contradiction|exact Hx]. }
    + intros x Hx. cbn [drmatch] in Hx. cbn [dprice]. destruct (Nat.eq_dec x w) as [->|Hxw]; [rewrite upd_same in Hx; discriminate|].
      rewrite upd_other in Hx by exact Hxw. rewrite (Lo x Hxw). apply K, Hx.
Qed.

(** ** Start of [drefine] *)
Lemma dunmatch_all_spec s : dlinked s -> dactive s = [] ->
  let s' := dunmatch_all g N s in
  dprice s' = dprice s /\ dbest s' = dbest s /\ (forall v, dlmatch s' v = None) /\ (forall w, drmatch s' w = None) /\
  dactive s' = rev (seq 0 N) /\ dtotal s' = N.
Proof.
  intros (L1 & L2) Ea. unfold dunmatch_all.
  set (f := fun s v => _).
  assert (G : forall n, n <= N -> let s' := fold_left f (seq 0 n) (mkD (dprice s) (drmatch s) (dlmatch s) (dbest s) (dactive s) 0) in
    dprice s' = dprice s /\ dbest s' = dbest s /\ (forall v, dlmatch s' v = if Nat.ltb v n then None else dlmatch s v) /\
    (forall w, drmatch s' w = match drmatch s w with Some v => if Nat.ltb v n then None else Some v | None => None end) /\
    dactive s' = rev (seq 0 n) /\ dtotal s' = n).
  { induction n as [|n IH]; intros Hn.
    - cbn. rewrite Ea. repeat (split; [reflexivity|]). split; [|split; reflexivity]. intros w. destruct (drmatch s w); reflexivity.
    - rewrite seq_S, fold_left_app. cbn [Nat.add fold_left]. specialize (IH ltac:(lia)). cbv zeta in IH.
      set (t := fold_left f (seq 0 n) _) in *. destruct IH as (P & B & L & R & A & T).
      assert (Et : f t n = match dlmatch s n with
         | Some k => mkD (dprice t) (upd (drmatch t) (hd_at n k) None) (upd (dlmatch t) n None) (dbest t) (n :: dactive t) (S (dtotal t))
         | None => mkD (dprice t) (drmatch t) (dlmatch t) (dbest t) (n :: dactive t) (S (dtotal t)) end).
      { unfold f. rewrite (L n). replace (Nat.ltb n n) with false by (symmetry; apply Nat.ltb_irrefl).
        destruct (dlmatch s n); reflexivity. }
      rewrite Et. clear Et. clearbody t. clear f.
      rewrite rev_app_distr. cbn [rev app].
      destruct (dlmatch s n) as [k|] eqn:En; cbv zeta; cbn [dprice dbest dlmatch drmatch dactive dtotal].
      + destruct (L1 n k En) as (_ & _ & Rn).
        split; [exact P|]. split; [exact B|]. split; [|split; [|split; [rewrite A; reflexivity|rewrite T; reflexivity]]].
        * intros v. destruct (Nat.eq_dec v n) as [->|Hv]; [rewrite upd_same; replace (n <? S n) with true by (symmetry; apply Nat.ltb_lt; lia); reflexivity|].
          rewrite upd_other by exact Hv. rewrite L. destruct (Nat.ltb_spec v n), (Nat.ltb_spec v (S n)); try lia; reflexivity.
        * intros w. destruct (Nat.eq_dec w (hd_at n k)) as [->|Hw].
          { rewrite upd_same, Rn. replace (n <? S n) with true by (symmetry; apply Nat.ltb_lt; lia). reflexivity. }
          rewrite upd_other by exact Hw. rewrite R. destruct (drmatch s w) as [v|] eqn:Ew; [|reflexivity].
          destruct (L2 w v Ew) as (k' & Hk' & Hh). assert (v <> n) by (intros ->; congruence).
          destruct (Nat.ltb_spec v n), (Nat.ltb_spec v (S n)); try lia; reflexivity.
      + split; [exact P|]. split; [exact B|]. split; [|split; [|split; [rewrite A; reflexivity|rewrite T; reflexivity]]].
        * intros v. rewrite L. destruct (Nat.ltb_spec v n), (Nat.ltb_spec v (S n)); try lia; try reflexivity.
          assert (v = n) as -> by lia. exact En.
        * intros w. rewrite R. destruct (drmatch s w) as [v|] eqn:Ew; [|reflexivity].
          destruct (L2 w v Ew) as (k' & Hk' & Hh). assert (v <> n) by (intros ->; congruence).
          destruct (Nat.ltb_spec v n), (Nat.ltb_spec v (S n)); try lia; reflexivity. }
  specialize (G N ltac:(lia)). cbv zeta in G. destruct G as (P & B & L & R & A & T).
  split; [exact P|]. split; [exact B|]. split; [|split; [|split; [exact A|exact T]]].
  - intros v. rewrite L. destruct (Nat.ltb_spec v N); [reflexivity|]. destruct (dlmatch s v) as [k|] eqn:E; [|reflexivity].
    destruct (L1 v k E). lia.
  - intros w. rewrite R. destruct (drmatch s w) as [v|] eqn:E; [|reflexivity]. destruct (L2 w v E) as (k & Hk & _).
    destruct (L1 v k Hk) as (X & _). apply Nat.ltb_lt in X. rewrite X. reflexivity.
Qed.
Lemma drefine_start s : dlinked s -> ddoubles s -> dbests s -> dactive s = [] -> dInv (dprice s) (dunmatch_all g N s).
Proof.
  intros L Fd B A. destruct (dunmatch_all_spec s L A) as (P & Bs & Lm & Rm & Ac & T).
  set (s' := dunmatch_all g N s) in *. split; [|split; [|split; [|split]]].
  - split; [intros v k H; rewrite Lm in H; discriminate|intros w v H; rewrite Rm in H; discriminate].
  - intros x. rewrite P. apply Fd.
  - intros v Hv. rewrite P, Bs. apply B, Hv.
  - split; [rewrite Ac; apply NoDup_rev, seq_NoDup|]. split; [rewrite T, Ac, rev_length, seq_length; reflexivity|].
    intros v. rewrite Ac, <- in_rev, in_seq, Lm. split; [intros; split; [lia|reflexivity]|lia].
  - intros w _. rewrite P. reflexivity.
Qed.

(** ** The push loop *)
Lemma dpush_loop_inv n eps p0 : (0 < eps)%R -> fmt eps -> (0 <= n)%R -> (forall v, v < N -> 0 < len v) ->
  forall fuel s, dInv p0 s -> exists r, dpush_loop g fuel n eps s = Ok r /\
    match r with None => True | Some s' => dInv p0 s' /\ dactive s' = [] end.
Proof.
  intros He Fe Hn Hd. induction fuel as [|fuel IH]; intros s I; [exists None; split; [reflexivity|exact Logic.I]|].
  cbn [dpush_loop]. destruct (dactive s) as [|v rest] eqn:Ea.
  - assert (A2 : dtotal s = 0) by (destruct I as (_ & _ & _ & (_ & A2 & _) & _); rewrite A2, Ea; reflexivity). rewrite A2. cbn [Nat.ltb Nat.leb]. exists (Some s). split; [reflexivity|]. split; [exact I|exact Ea].
  - assert (A2 : dtotal s = S (List.length rest)) by (destruct I as (_ & _ & _ & (_ & A2 & _) & _); rewrite A2, Ea; reflexivity). rewrite A2. cbn [Nat.ltb Nat.leb]. rewrite <- A2.
    destruct (ddouble_push_inv n eps p0 s v rest He Fe Hn Hd I Ea) as (s' & E & I' & _). unfold dpopped in E. rewrite E. cbn [bind].
    apply IH, I'.
Qed.
Definition dbetween (s : dcsa) : Prop := dlinked s /\ ddoubles s /\ dbests s /\ dactive s = [].
Definition dsolved (s : dcsa) : Prop := dbetween s /\ forall v, v < N -> dlmatch s v <> None.
Lemma dend_solved p0 s : dInv p0 s -> dactive s = [] -> dsolved s.
Proof.
  intros (L' & O' & B' & (A1 & A2 & A3) & K) Ea. split; [split; [exact L'|split; [exact O'|split; [exact B'|exact Ea]]]|]. intros v Hv Hm.
  rewrite Ea in A3. apply (proj2 (A3 v)). split; assumption.
Qed.
Lemma drefine_ok fuel n eps s : (0 < eps)%R -> fmt eps -> (0 <= n)%R -> (forall v, v < N -> 0 < len v) -> dbetween s ->
  exists r, drefine g fuel N n eps s = Ok r /\ match r with None => True | Some s' => dsolved s' end.
Proof.
  intros He Fe Hn Hd (L & Fd & B & A). unfold drefine.
  destruct (dpush_loop_inv n eps (dprice s) He Fe Hn Hd fuel _ (drefine_start s L Fd B A)) as (r & E & H).
  exists r. split; [exact E|]. destruct r as [s'|]; [|exact Logic.I]. destruct H as (I & Ea). exact (dend_solved _ _ I Ea).
Qed.
Lemma dmain_loop_ok n min_eps pfuel : (0 < min_eps)%R -> fmt min_eps -> (0 <= n)%R -> (forall v, v < N -> 0 < len v) ->
  forall fuel eps s, (min_eps < eps)%R \/ dsolved s -> dbetween s ->
  exists r, dmain_loop g fuel pfuel N n min_eps eps s = Ok r /\ match r with None => True | Some s' => dsolved s' end.
Proof.
  intros He Fe Hn Hd. induction fuel as [|fuel IH]; intros eps s H Bt; [exists None; split; [reflexivity|exact Logic.I]|].
  cbn [dmain_loop]. rcase min_eps eps.
  - set (e := dupdate_epsilon min_eps eps).
    assert (Ee : (min_eps <= e)%R /\ fmt e) by (unfold e, dupdate_epsilon; rcase (fdiv eps 10) min_eps; split; try lra; [exact Fe|apply rnd_fmt]). destruct Ee as [Ee Ff].
    destruct (drefine_ok pfuel n e s ltac:(lra) Ff Hn Hd Bt) as (r & Er & Hr). rewrite Er. cbn [bind].
    destruct r as [s'|]; [|exists None; split; [reflexivity|exact Logic.I]].
    apply IH; [right; exact Hr|apply Hr].
  - exists (Some s). split; [reflexivity|]. destruct H as [H|H]; [lra|exact H].
Qed.
End Csa.
