(** The assignment solver in binary64: errors of one push, and the range of the prices. *)
From Verif Require Import ModelCSA64 SpecMatch ProofsImage ProofsFloat ProofsCSA ProofsCSA3 ProofsCSA4 ProofsCSA64 ProofsCSA64b.
From Coq Require Import Lra Psatz Permutation ZifyBool ZifyNat.
Open Scope R_scope.

Section Num.
Variable g : list garc.
Variable N : nat.
Notation len v := (List.length (adj g v)).
Notation hd_at v k := (a_head (arc_at g v k)).
Notation cost_at v k := (a_cost (arc_at g v k)).
Hypothesis heads : forall a, In a g -> (a_head a < N)%nat.
Variables (C P d : R).
Hypothesis costs : forall a, In a g -> - C <= IZR (a_cost a) <= C.
Hypothesis acc : forall x, Rabs x <= 4 * (C + P) -> Rabs (rnd x - x) <= d.
Hypothesis C1 : 0 < C. Hypothesis P0 : 0 <= P. Hypothesis d0 : 0 <= d. Hypothesis dC : 50 * d <= C.

(** The exact reduced cost. *)
Definition xrc (p : nat -> R) (v k : nat) : R := IZR (cost_at v k) - p (hd_at v k).
Definition ranged (p : nat -> R) : Prop := forall x, (x < N)%nat -> - P <= p x <= 0.
Definition near_opt (e : R) (s : dcsa) : Prop :=
  forall v k, dlmatch s v = Some k -> forall j, (j < len v)%nat -> xrc (dprice s) v k <= xrc (dprice s) v j + e.

Lemma darc_cost v k : (k < len v)%nat -> - C <= IZR (cost_at v k) <= C.
Proof using costs. intros H. apply costs, (adj_in g v k H). Qed.
Lemma darc_head v k : (k < len v)%nat -> (hd_at v k < N)%nat.
Proof using heads. intros H. apply heads, (adj_in g v k H). Qed.
Lemma drc_close p v k : ranged p -> (k < len v)%nat -> Rabs (drc g p v k - xrc p v k) <= d /\ - C <= xrc p v k <= C + P.
Proof using heads costs acc C1 P0.
  intros R H. assert (A := darc_cost v k H). assert (B := R _ (darc_head v k H)). unfold xrc. split; [|lra].
  apply acc. apply Rabs_le. lra.
Qed.
(** One push; the second-best arc of a node with a single arc is made up ([J] bounds its distance). *)
Lemma push_numbers n eps J s s' v : 0 < eps <= C -> fmt eps -> 0 <= fmul eps (fadd (dpo_cost_thresh n) 1) <= J -> J <= C + P ->
  ranged (dprice s) -> (1 <= len v)%nat -> dpushed g N n eps s s' v ->
  exists adm, (adm < len v)%nat /\ (v < N)%nat /\ dlmatch s v = None /\
    (forall j, (j < len v)%nat -> xrc (dprice s) v adm <= xrc (dprice s) v j + 2 * d) /\
    dprice s' (hd_at v adm) <= dprice s (hd_at v adm) - eps + d /\
    (forall j, (j < len v)%nat -> j <> adm -> xrc (dprice s') v adm <= xrc (dprice s) v j + eps + 5 * d) /\
    (forall x, x <> hd_at v adm -> dprice s' x = dprice s x) /\
    (forall x k, dlmatch s' x = Some k -> x = v /\ k = adm \/ hd_at x k <> hd_at v adm /\ dlmatch s x = Some k) /\
    (len v = 1%nat -> dprice s (hd_at v adm) - (J + eps + 4 * d) <= dprice s' (hd_at v adm)).
Proof using heads costs acc C1 P0 d0 dC.
  intros He Fe HJ JP R H1 (pref & second & adm & Hv & Hm & (A1 & A2 & A3 & A4) & One & Hp & Ho & Hl). exists adm. split; [exact A1|]. split; [exact Hv|]. split; [exact Hm|].
  destruct (drc_close _ v adm R A1) as [E1 R1]. rewrite <- A2 in E1. apply Rabs_le_inv in E1.
  assert (Sb : 0 <= second - pref <= 2 * (C + P) + 2 * d /\ (len v = 1%nat -> second - pref <= J + d)).
  { destruct (Nat.eq_dec (len v) 1) as [L1|L1].
    - specialize (One L1). set (q := fmul eps (fadd (dpo_cost_thresh n) 1)) in *. assert (X := acc (pref + q) ltac:(apply Rabs_le; lra)). fold (fadd pref q) in X. rewrite <- One in X. apply Rabs_le_inv in X.
      split; [lra|]. intros _. lra.
    - assert (S : exists j, (j < len v)%nat /\ j <> adm) by (destruct adm as [|a]; [exists 1%nat; lia|exists 0%nat; lia]). destruct S as (j0 & J1 & J2).
      assert (Q0 := A4 j0 J1 J2). destruct (drc_close _ v j0 R J1) as [E2 R2]. apply Rabs_le_inv in E2. split; [lra|contradiction]. }
  destruct Sb as [Sb1 Sb2].
  assert (Hw := R _ (darc_head v adm A1)). set (w := hd_at v adm) in *.
  assert (G := acc (second - pref) ltac:(apply Rabs_le; lra)). fold (fsub second pref) in G. apply Rabs_le_inv in G.
  assert (G0 : 0 <= fsub second pref) by (apply rnd_nonneg; lra). set (gap := fsub second pref) in *.
  assert (Z := acc (gap + eps) ltac:(apply Rabs_le; lra)). fold (fadd gap eps) in Z. apply Rabs_le_inv in Z.
  assert (Z0 : eps <= fadd gap eps) by (apply rnd_ge_fmt; [exact Fe|lra]). set (z := fadd gap eps) in *.
  assert (W := acc (dprice s w - z) ltac:(apply Rabs_le; lra)). fold (fsub (dprice s w) z) in W. rewrite <- Hp in W. apply Rabs_le_inv in W.
  split.
  { intros j Hj. destruct (Nat.eq_dec j adm) as [->|Hne]; [lra|]. destruct (drc_close _ v j R Hj) as [E R'']. apply Rabs_le_inv in E. specialize (A4 j Hj Hne). lra. }
  split; [lra|]. split; [|split; [exact Ho|split; [exact Hl|]]].
  - intros j Hj Hne. destruct (drc_close _ v j R Hj) as [E R'']. apply Rabs_le_inv in E. specialize (A4 j Hj Hne).
    unfold xrc at 1. fold w. unfold xrc in E1 at 1 2. fold w in E1. lra.
  - intros L1. specialize (Sb2 L1). lra.
Qed.

Variable m : list (nat * Z).
Hypothesis perfect : perfect_matching N g m.

(** Every price that is lowered is still above a fixed bound. *)
Lemma dprice_floor e p0 s v adm B : 0 < e -> 2 * d <= e -> dInv g N p0 s -> near_opt e s -> (v < N)%nat -> dlmatch s v = None -> (adm < len v)%nat ->
  (forall j, (j < len v)%nat -> xrc (dprice s) v adm <= xrc (dprice s) v j + 2 * d) ->
  (forall x, (x < N)%nat -> B <= p0 x) ->
  B - IZR (Z.of_nat N) * (2 * C + e) <= dprice s (hd_at v adm).
Proof using heads costs acc C1 P0 d0 dC perfect.
  intros He Hd2 ((L1 & L2) & _ & _ & _ & K) O Hv Hvn Hadm Hmin HB. set (w := hd_at v adm) in *.
  destruct (Rlt_le_dec (dprice s w) (B - IZR (Z.of_nat N) * (2 * C + e))) as [Lo|]; [exfalso|assumption].
  set (D := (2 * C + e)%R) in *. assert (HD : (0 < D)%R) by (unfold D; lra).
  set (lev := fun k => (dprice s w + IZR (Z.of_nat k) * D)%R).
  set (A := fun k => filter (fun x => if Rle_dec (dprice s x) (lev k) then true else false) (seq 0 N)).
  assert (Ain : forall k x, In x (A k) <-> (x < N)%nat /\ (dprice s x <= lev k)%R).
  { intros k x. unfold A. rewrite filter_In, in_seq. destruct (Rle_dec (dprice s x) (lev k)) as [Q|Q]; intuition (try lia; try discriminate; lra). }
  assert (levS : forall k, lev (S k) = lev k + D).
  { intros k. unfold lev. rewrite Nat2Z.inj_succ, <- Z.add_1_l, plus_IZR. ring. }
  assert (lev0 : lev 0%nat = dprice s w) by (unfold lev; cbn; ring).
  assert (levm : forall k k', (k <= k')%nat -> (lev k <= lev k')%R).
  { intros k k' H. induction H as [|k' H IH]; [lra|]. rewrite levS. lra. }
  assert (Wn : (w < N)%nat) by (apply darc_head, Hadm).
  destruct (plateau (fun k => List.length (A k)) N) as [(k & Hk & Pl)|Pl].
  2:{ assert (L : (List.length (A N) <= N)%nat) by (unfold A; rewrite <- (seq_length N 0) at 2; apply filter_short).
      assert (L0 : In w (A 0%nat)) by (apply Ain; split; [exact Wn|lra]). destruct (A 0%nat) as [|? ?]; [destruct L0|]. cbn [List.length] in Pl. lia. }
  assert (ND : forall j, NoDup (A j)) by (intros j; apply NoDup_filter, seq_NoDup).
  assert (Same : incl (A (S k)) (A k)).
  { apply NoDup_length_incl; [apply ND|exact Pl|]. intros x Hx. apply Ain in Hx. apply Ain. split; [apply Hx|].
    rewrite levS. destruct Hx. lra. }
  assert (Top : (lev k < B)%R).
  { apply Rle_lt_trans with (lev N); [apply levm; lia|]. unfold lev. fold D. lra. }
  (* partners *)
  set (partner := fun x => match drmatch s x with Some u => u | None => 0%nat end).
  assert (Pt : forall x, In x (A k) -> exists ki, drmatch s x = Some (partner x) /\ dlmatch s (partner x) = Some ki /\ hd_at (partner x) ki = x).
  { intros x Hx. apply Ain in Hx. destruct Hx as [Hx1 Hx2]. unfold partner. destruct (drmatch s x) as [u|] eqn:E.
    - destruct (L2 x u E) as (ki & X1 & X2). exists ki. auto.
    - specialize (K x E). specialize (HB x Hx1). rewrite K in Hx2. lra. }
  set (T := v :: map partner (A k)).
  assert (NT : NoDup T).
  { constructor.
    - intros I. apply in_map_iff in I. destruct I as (x & E & Hx). destruct (Pt x Hx) as (ki & _ & X & _). rewrite E in X. congruence.
    - apply NoDup_map_inj_on; [|apply ND]. intros a b Ha Hb E. destruct (Pt a Ha) as (ka & A1 & A2 & A3).
      destruct (Pt b Hb) as (kb & B1 & B2 & B3). rewrite <- E in B2, B3. rewrite A2 in B2. injection B2 as ->. congruence. }
  assert (Cl : forall u, In u T -> (u < N)%nat /\ forall j, (j < len u)%nat -> In (hd_at u j) (A k)).
  { intros u [<-|Hu].
    - split; [exact Hv|]. intros j Hj. apply Same, Ain. split; [apply darc_head, Hj|]. rewrite levS.
      specialize (Hmin j Hj). unfold xrc in Hmin. fold w in Hmin.
      pose proof (darc_cost v adm Hadm). pose proof (darc_cost v j Hj). pose proof (levm 0%nat k ltac:(lia)). unfold D. lra.
    - apply in_map_iff in Hu. destruct Hu as (x & <- & Hx). destruct (Pt x Hx) as (ki & X1 & X2 & X3).
      destruct (L1 _ _ X2) as (Y1 & Y2 & _). split; [exact Y1|]. intros j Hj. apply Same, Ain. split; [apply darc_head, Hj|].
      rewrite levS. specialize (O _ _ X2 j Hj). unfold xrc in O. rewrite X3 in O.
      pose proof (darc_cost _ ki Y2). pose proof (darc_cost _ j Hj). apply Ain in Hx. destruct Hx as [_ Hx]. unfold D. lra. }
  destruct perfect as (PL & PD & PA).
  set (sig := fun u => fst (nth u m (0%nat, 0%Z))).
  assert (Sig : forall u, (u < N)%nat -> nth_error m u = Some (nth u m (0%nat, 0%Z))) by (intros u Hu; apply nth_error_nth'; lia).
  assert (I : (List.length (map sig T) <= List.length (A k))%nat).
  { apply NoDup_incl_length.
    - apply NoDup_map_inj_on; [|exact NT]. intros a b Ha Hb E. destruct (Cl a Ha) as [Ha' _]. destruct (Cl b Hb) as [Hb' _].
      rewrite NoDup_nth_error in PD. apply PD; [rewrite map_length; lia|]. rewrite !nth_error_map, (Sig a Ha'), (Sig b Hb').
      cbn [option_map]. f_equal. exact E.
    - intros x Hx. apply in_map_iff in Hx. destruct Hx as (u & <- & Hu). destruct (Cl u Hu) as [Hu' Hc].
      specialize (Sig u Hu'). unfold sig. destruct (nth u m (0%nat, 0%Z)) as [w' c'] eqn:En. destruct (PA u w' c' Sig) as [_ Ia].
      destruct (in_adj g u w' c' Ia) as (j & Hj & Ej). specialize (Hc j Hj). rewrite Ej in Hc. exact Hc. }
  unfold T in I. cbn [map List.length] in I. rewrite map_length in I. cbn [List.length] in I. rewrite map_length in I. lia.
Qed.

(** At the end of a push the new price is at most [2 C + e] below another one. *)
Lemma push_new_price eps s s' v adm : ranged (dprice s) -> (2 <= len v)%nat -> (adm < len v)%nat ->
  (forall j, (j < len v)%nat -> j <> adm -> xrc (dprice s') v adm <= xrc (dprice s) v j + eps + 5 * d) ->
  exists x, (x < N)%nat /\ dprice s x - (2 * C + (eps + 5 * d)) <= dprice s' (hd_at v adm).
Proof using heads costs acc C1 P0 d0 dC.
  intros R H2 A1 H. assert (S : exists j, (j < len v)%nat /\ j <> adm) by (destruct adm as [|a]; [exists 1%nat; lia|exists 0%nat; lia]). destruct S as (j & J1 & J2).
  specialize (H j J1 J2). exists (hd_at v j). split; [apply darc_head, J1|]. unfold xrc in H. assert (A := darc_cost v adm A1). assert (B := darc_cost v j J1). lra.
Qed.
(** The number of prices below [F]. *)
Definition low (F : R) (p : nat -> R) : list nat := filter (fun x => if Rlt_dec (p x) F then true else false) (seq 0 N).
Lemma in_low F p x : In x (low F p) <-> (x < N)%nat /\ p x < F.
Proof. unfold low. rewrite filter_In, in_seq. destruct (Rlt_dec (p x) F) as [Q|Q]; split; intros [H1 H2]; try (split; [lia|assumption || reflexivity]); try discriminate. contradiction. Qed.
Definition floored (F Fb D : R) (p : nat -> R) : Prop := forall x, (x < N)%nat -> Fb - IZR (Z.of_nat (List.length (low F p))) * D <= p x.
Lemma low_short F p : (List.length (low F p) <= N)%nat.
Proof. unfold low. rewrite <- (seq_length N 0) at 2. apply filter_short. Qed.
Lemma floored_push F Fb D p p' w : 0 <= D -> Fb <= F -> floored F Fb D p -> (w < N)%nat -> F <= p w -> (exists x0, (x0 < N)%nat /\ p x0 - D <= p' w) \/ Fb <= p' w ->
  (forall x, x <> w -> p' x = p x) -> floored F Fb D p'.
Proof.
  intros HD Hb Fl Hw Fw Hn Ho. assert (ND : forall q, NoDup (low F q)) by (intros q; apply NoDup_filter, seq_NoDup).
  destruct (Rlt_dec (p' w) F) as [L|L].
  - assert (Ln : (S (List.length (low F p)) <= List.length (low F p'))%nat).
    { change (S (List.length (low F p))) with (List.length (w :: low F p)). apply NoDup_incl_length.
      - constructor; [intros I; apply in_low in I; lra|apply ND].
      - intros x [<-|I]; apply in_low; [split; assumption|]. apply in_low in I. split; [apply I|]. rewrite Ho; [apply I|]. intros ->. lra. }
    assert (Lr : IZR (Z.of_nat (List.length (low F p))) + 1 <= IZR (Z.of_nat (List.length (low F p')))) by (rewrite <- (plus_IZR _ 1); apply IZR_le; lia).
    assert (L0 : 0 <= IZR (Z.of_nat (List.length (low F p)))) by (apply IZR_le; lia).
    intros x Hx. destruct (Nat.eq_dec x w) as [->|Nw]; [destruct Hn as [(x0 & Hx0 & Hn)|Hn]; [specialize (Fl x0 Hx0); nra|nra]|]. rewrite Ho by exact Nw. specialize (Fl x Hx). nra.
  - assert (Ln : (List.length (low F p) <= List.length (low F p'))%nat).
    { apply NoDup_incl_length; [apply ND|]. intros x I. apply in_low in I. apply in_low. split; [apply I|]. rewrite Ho; [apply I|]. intros ->. lra. }
    assert (Lr : IZR (Z.of_nat (List.length (low F p))) <= IZR (Z.of_nat (List.length (low F p')))) by (apply IZR_le; lia).
    assert (L0 : 0 <= IZR (Z.of_nat (List.length (low F p')))) by (apply IZR_le; lia).
    intros x Hx. destruct (Nat.eq_dec x w) as [->|Nw]; [nra|]. rewrite Ho by exact Nw. specialize (Fl x Hx). nra.
Qed.

(** ** One phase *)
Hypothesis degree : forall v, (v < N)%nat -> (1 <= len v)%nat.
Section Phase.
Variables (n eps B J : R) (p0 : nat -> R).
Hypothesis He : 0 < eps <= C. Hypothesis Fe : fmt eps. Hypothesis Hn : 0 <= n.
Hypothesis de : 2 * d <= eps.
Hypothesis HJ : 0 <= fmul eps (fadd (dpo_cost_thresh n) 1) <= J. Hypothesis JP : J <= C + P.
Hypothesis HB : forall x, (x < N)%nat -> B <= p0 x.
Let e := eps + 5 * d.
Let D := 2 * C + e.
Let F := B - IZR (Z.of_nat N) * D.
Let Fb := F - (J + eps + 4 * d).
Hypothesis room_enough : - P <= Fb - IZR (Z.of_nat N) * D.
Definition PInv (s : dcsa) : Prop :=
  dInv g N p0 s /\ near_opt e s /\ floored F Fb D (dprice s) /\ (forall x, (x < N)%nat -> dprice s x <= 0).
Lemma PInv_ranged s : PInv s -> ranged (dprice s).
Proof using heads costs acc C1 P0 d0 dC perfect degree He Fe Hn de HJ JP HB room_enough.
  intros (_ & _ & Fl & Up) x Hx. split; [|apply Up, Hx]. specialize (Fl x Hx).
  assert (L : IZR (Z.of_nat (List.length (low F (dprice s)))) <= IZR (Z.of_nat N)) by (apply IZR_le; assert (X := low_short F (dprice s)); lia).
  assert (D0 : 0 <= D) by (unfold D, e; lra). nra.
Qed.
Lemma PInv_push s v rest : PInv s -> dactive s = v :: rest ->
  exists s' w, ddouble_push g n eps v (dpopped s rest) = Ok s' /\ PInv s' /\ (w < N)%nat /\ F <= dprice s w /\
    dprice s' w <= dprice s w - (eps - d) /\ (forall x, x <> w -> dprice s' x = dprice s x).
Proof using heads costs acc C1 P0 d0 dC perfect degree He Fe Hn de HJ JP HB room_enough.
  intros PI Ea. assert (R := PInv_ranged s PI). destruct PI as (I & O & Fl & Up).
  destruct (ddouble_push_inv g N n eps p0 s v rest (proj1 He) Fe Hn ltac:(intros x Hx; specialize (degree x Hx); lia) I Ea) as (s' & E & I' & Pu).
  assert (Hv : (v < N)%nat) by (destruct Pu as (? & ? & ? & X & _); exact X).
  destruct (push_numbers n eps J s s' v He Fe HJ JP R (degree v Hv) Pu) as (adm & A1 & _ & Hm & Mn & Dr & Nw & Ot & Lm & Ln1). set (w := hd_at v adm) in *.
  assert (Fw : F <= dprice s w) by (unfold F, D; apply (dprice_floor e p0 s v adm B); unfold e; try assumption; lra).
  assert (D0 : 0 <= D) by (unfold D, e; lra).
  exists s', w. split; [exact E|]. split.
  - split; [exact I'|]. split; [|split].
    + intros x k Hx j Hj. destruct (Lm x k Hx) as [[-> ->]|[Hh Hx']].
      * destruct (Nat.eq_dec j adm) as [->|Hne]; [unfold e; lra|]. specialize (Nw j Hj Hne). unfold xrc in Nw at 2. unfold e. unfold xrc at 2.
        destruct (Nat.eq_dec (hd_at v j) w) as [Eq|Nq]; [rewrite Eq in *; lra|]. rewrite (Ot _ Nq). lra.
      * specialize (O x k Hx' j Hj). unfold xrc in *. fold w in Hh. rewrite (Ot _ Hh).
        destruct (Nat.eq_dec (hd_at x j) w) as [Eq|Nq]; [rewrite Eq in *; lra|]. rewrite (Ot _ Nq). exact O.
    + apply (floored_push F Fb D (dprice s) (dprice s') w); try assumption; [unfold Fb; lra|apply darc_head, A1|].
      destruct (Nat.eq_dec (len v) 1) as [L1|L1]; [right; specialize (Ln1 L1); fold w in Ln1; unfold Fb; lra|left].
      assert (H1 := degree v Hv). exact (push_new_price eps s s' v adm R ltac:(lia) A1 Nw).
    + intros x Hx. destruct (Nat.eq_dec x w) as [->|Nx]; [specialize (Up w Hx); lra|]. rewrite (Ot x Nx). apply Up, Hx.
  - split; [apply darc_head, A1|]. split; [exact Fw|]. split; [lra|exact Ot].
Qed.
(** Number of pushes still possible at each right node. *)
Definition droom (p : nat -> R) (x : nat) : nat := Z.to_nat (up ((p x - F) / (eps - d))).
Lemma up_le a b : a <= b -> (up a <= up b)%Z.
Proof. intros H. destruct (archimed a) as [A1 A2]. destruct (archimed b) as [B1 B2]. apply Z.lt_succ_r. apply lt_IZR. rewrite succ_IZR. lra. Qed.
Lemma droom_drop p p' x : F <= p x -> p' x <= p x - (eps - d) -> (droom p' x < droom p x)%nat.
Proof using heads costs acc C1 P0 d0 dC perfect degree He Fe Hn de HJ JP HB room_enough.
  intros H1 H2. unfold droom. assert (H0 : 0 < eps - d) by lra.
  assert (E : (p' x - F) / (eps - d) <= (p x - F) / (eps - d) - 1).
  { apply Rmult_le_reg_r with (eps - d); [exact H0|]. replace ((p' x - F) / (eps - d) * (eps - d)) with (p' x - F) by (field; lra). replace (((p x - F) / (eps - d) - 1) * (eps - d)) with (p x - F - (eps - d)) by (field; lra). lra. }
  assert (G : 0 <= (p x - F) / (eps - d)) by (apply Rmult_le_pos; [lra|]; apply Rlt_le, Rinv_0_lt_compat, H0).
  set (a := (p' x - F) / (eps - d)) in *. set (b := (p x - F) / (eps - d)) in *. destruct (archimed a) as [A1 A2]. destruct (archimed b) as [B1 B2].
  assert (U0 : (0 < up b)%Z) by (apply lt_IZR; lra). assert (U1 : (up a < up b)%Z) by (apply lt_IZR; lra). lia.
Qed.
Lemma phase_terminates : forall fuel s, PInv s -> (list_sum (map (droom (dprice s)) (seq 0 N)) < fuel)%nat ->
  exists s', dpush_loop g fuel n eps s = Ok (Some s') /\ PInv s' /\ dactive s' = [].
Proof using heads costs acc C1 P0 d0 dC perfect degree He Fe Hn de HJ JP HB room_enough.
  induction fuel as [|fuel IH]; intros s I L; [lia|]. cbn [dpush_loop].
  destruct (dactive s) as [|v rest] eqn:Ea.
  - assert (A2 : dtotal s = 0%nat) by (destruct I as ((_ & _ & _ & (_ & A2 & _) & _) & _); rewrite A2, Ea; reflexivity). rewrite A2. cbn [Nat.ltb Nat.leb]. exists s. split; [reflexivity|]. split; [exact I|exact Ea].
  - assert (A2 : dtotal s = S (List.length rest)) by (destruct I as ((_ & _ & _ & (_ & A2 & _) & _) & _); rewrite A2, Ea; reflexivity). rewrite A2. cbn [Nat.ltb Nat.leb]. rewrite <- A2.
    destruct (PInv_push s v rest I Ea) as (s' & w & E & I' & Hw & Fw & Dr & Ot). unfold dpopped in E. rewrite E. cbn [bind]. apply IH; [exact I'|].
    assert (X : (list_sum (map (droom (dprice s')) (seq 0 N)) < list_sum (map (droom (dprice s)) (seq 0 N)))%nat); [|lia].
    apply list_sum_drop with (w := w); [apply seq_NoDup|apply in_seq; lia|apply droom_drop; assumption|]. intros x Hx. unfold droom. rewrite (Ot x Hx). reflexivity.
Qed.
End Phase.
End Num.
