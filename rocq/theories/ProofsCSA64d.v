(** The assignment solver in binary64: all phases, and the cost of the result. *)
From Verif Require Import ModelCSA64 SpecMatch ProofsImage ProofsFloat ProofsCSA ProofsCSA3 ProofsCSA4 ProofsCSA64 ProofsCSA64b ProofsCSA64c.
From Coq Require Import Lra Psatz Permutation ZifyBool ZifyNat.
Open Scope R_scope.

Lemma dpush_loop_mono g n eps fuel : forall fuel' s s', dpush_loop g fuel n eps s = Ok (Some s') -> (fuel <= fuel')%nat ->
  dpush_loop g fuel' n eps s = Ok (Some s').
Proof.
  induction fuel as [|fuel IH]; intros fuel' s s' E L; [discriminate|]. destruct fuel' as [|fuel']; [lia|]. cbn [dpush_loop] in *.
  destruct (Nat.ltb 0 (dtotal s)); [|exact E]. destruct (dactive s) as [|v rest]; [exact E|].
  destruct (ddouble_push g n eps v _) as [t|]; [|exact E]. cbn [bind] in *. apply IH; [exact E|lia].
Qed.

Section Num.
Variable g : list garc.
Variable N : nat.
Notation len v := (List.length (adj g v)).
Notation hd_at v k := (a_head (arc_at g v k)).
Notation cost_at v k := (a_cost (arc_at g v k)).
Hypothesis heads : forall a, In a g -> (a_head a < N)%nat.
Variables (C P d : R).
Hypothesis costs : forall a, In a g -> - C <= IZR (a_cost a) <= C.
Hypothesis acc : forall x, Rabs x <= 4 * (C + P) -> Rabs (rnd x - x) <= d.
Hypothesis C1 : 0 < C. Hypothesis P0 : 0 <= P. Hypothesis d0 : 0 <= d. Hypothesis dC : 50 * d <= C.
Variable m : list (nat * Z).
Hypothesis perfect : perfect_matching N g m.
Hypothesis degree : forall v, (v < N)%nat -> (1 <= len v)%nat.

Lemma refine_phase n eps J Bk s : 0 < eps <= C -> fmt eps -> 0 <= n -> 2 * d <= eps -> 0 <= fmul eps (fadd (dpo_cost_thresh n) 1) <= J -> J <= C + P -> dbetween g N s ->
  (forall x, (x < N)%nat -> - Bk <= dprice s x <= 0) -> Bk + 2 * IZR (Z.of_nat N) * (2 * C + (eps + 5 * d)) + (J + eps + 4 * d) <= P ->
  exists F s', (forall fuel, (F <= fuel)%nat -> drefine g fuel N n eps s = Ok (Some s')) /\ dsolved g N s' /\ near_opt g (eps + 5 * d) s' /\
    forall x, (x < N)%nat -> - (Bk + 2 * IZR (Z.of_nat N) * (2 * C + (eps + 5 * d)) + (J + eps + 4 * d)) <= dprice s' x <= 0.
Proof using heads costs acc C1 P0 d0 dC perfect degree.
  intros He Fe Hn de HJ JP (L & Fd & B & A) Rg Rm. set (D := 2 * C + (eps + 5 * d)) in *. assert (D0 : 0 <= D) by (unfold D; lra). assert (N0 : 0 <= IZR (Z.of_nat N)) by (apply IZR_le; lia).
  assert (ND : 0 <= IZR (Z.of_nat N) * D) by (apply Rmult_le_pos; assumption).
  assert (I0 := drefine_start g N s L Fd B A). destruct (dunmatch_all_spec g N s L A) as (Pr & _ & Lm & _ & _ & _).
  set (s0 := dunmatch_all g N s) in *.
  assert (PI : PInv g N C d eps (- Bk) J (dprice s) s0).
  { split; [exact I0|]. split; [intros v k H; rewrite Lm in H; discriminate|]. split.
    - intros x Hx. rewrite Pr. fold D. assert (X := proj1 (Rg x Hx)). assert (Y : 0 <= IZR (Z.of_nat (List.length (low N (- Bk - IZR (Z.of_nat N) * D) (dprice s)))) * D) by (apply Rmult_le_pos; [apply IZR_le; lia|exact D0]). lra.
    - intros x Hx. rewrite Pr. apply Rg, Hx. }
  assert (RE : - P <= - Bk - IZR (Z.of_nat N) * D - (J + eps + 4 * d) - IZR (Z.of_nat N) * D) by lra.
  destruct (phase_terminates g N heads C P d costs acc C1 P0 d0 dC m perfect degree n eps (- Bk) J (dprice s) He Fe Hn de HJ JP (fun x Hx => proj1 (Rg x Hx)) RE
    (S (list_sum (map (droom N C d eps (- Bk) (dprice s0)) (seq 0 N)))) s0 PI ltac:(lia)) as (s' & E & PI' & Ea).
  eexists _, s'. split; [intros fuel Hf; unfold drefine; fold s0; eapply dpush_loop_mono; [exact E|exact Hf]|].
  split; [exact (dend_solved g N _ _ (proj1 PI') Ea)|]. split; [apply PI'|]. destruct PI' as (_ & _ & Fl & Up). intros x Hx. split; [|apply Up, Hx].
  specialize (Fl x Hx). fold D in Fl. set (l := List.length _) in Fl. assert (Ll : IZR (Z.of_nat l) <= IZR (Z.of_nat N)) by (apply IZR_le; assert (X := low_short N (- Bk - IZR (Z.of_nat N) * D) (dprice s')); unfold l; lia). nra.
Qed.

Lemma phases n mn : (1 <= N)%nat -> 0 < mn <= C -> fmt mn -> 10 * tiny <= mn -> 0 <= n -> 2 * d <= mn ->
  (forall e, mn <= e <= C -> 0 <= fmul e (fadd (dpo_cost_thresh n) 1) <= 46 * IZR (Z.of_nat N) * e) -> forall k eps s Bk,
  eps <= mn * 8 ^ k -> eps <= C -> mn < eps \/ dsolved g N s /\ near_opt g (mn + 5 * d) s -> dbetween g N s ->
  (forall x, (x < N)%nat -> - Bk <= dprice s x <= 0) ->
  (mn < eps -> Bk + INR k * (2 * IZR (Z.of_nat N) * (2 * C + 5 * d)) + 52 * IZR (Z.of_nat N) * (eps / 7 + mn) <= P) ->
  exists F Pf s', (forall fuel pfuel, (F <= fuel)%nat -> (Pf <= pfuel)%nat -> dmain_loop g fuel pfuel N n mn eps s = Ok (Some s')) /\
    dsolved g N s' /\ near_opt g (mn + 5 * d) s'.
Proof using heads costs acc C1 P0 d0 dC perfect degree.
  intros N1 Hm Fm Tm Hn dm Jp. assert (NR : 1 <= IZR (Z.of_nat N)) by (apply IZR_le; lia).
  assert (St : forall eps s, ~ mn < eps -> mn < eps \/ dsolved g N s /\ near_opt g (mn + 5 * d) s -> exists F Pf s', (forall fuel pfuel, (F <= fuel)%nat -> (Pf <= pfuel)%nat -> dmain_loop g fuel pfuel N n mn eps s = Ok (Some s')) /\
    dsolved g N s' /\ near_opt g (mn + 5 * d) s').
  { intros eps s H [H'|H']; [contradiction|]. exists 1%nat, 0%nat, s. split; [|exact H']. intros fuel pfuel Hf _. destruct fuel as [|fuel]; [lia|]. cbn [dmain_loop]. rcase mn eps; [contradiction|reflexivity]. }
  induction k as [|k IH]; intros eps s Bk Ek Ec Q Bt Rg Rm; [apply St; [cbn in Ek; lra|exact Q]|].
  destruct (Rlt_le_dec mn eps) as [L|L]; [|apply St; [lra|exact Q]]. specialize (Rm L).
  set (e := dupdate_epsilon mn eps).
  assert (K1 : 1 <= 8 ^ k) by (apply pow_R1_Rle; lra). assert (U := u_small). assert (T := bpow_gt_0 radix2 (-1022)).
  assert (Ee : mn <= e <= C /\ fmt e /\ e <= mn * 8 ^ k /\ (e = mn \/ e <= eps / 8)).
  { unfold e, dupdate_epsilon. destruct (rnd_rel (eps / 10)) as (x & X1 & X2). { rewrite Rabs_pos_eq by lra. lra. }
    apply Rabs_le_inv in X1. assert (X3 : fdiv eps 10 <= eps / 8) by (unfold fdiv; rewrite X2; nra). rewrite <- tech_pow_Rmult in Ek.
    rcase (fdiv eps 10) mn; [split; [lra|]; split; [exact Fm|split; [nra|left; reflexivity]]|]. split; [lra|]. split; [apply rnd_fmt|]. split; [nra|right; exact X3]. }
  destruct Ee as (E1 & E2 & E3 & E4). specialize (Jp e E1). set (M := IZR (Z.of_nat N)) in *.
  set (W := 2 * M * (2 * C + 5 * d)) in *. assert (W0 : 0 <= W) by (unfold W; apply Rmult_le_pos; lra).
  rewrite S_INR in Rm. assert (K0 : 0 <= INR k) by apply pos_INR. assert (KW : 0 <= INR k * W) by (apply Rmult_le_pos; assumption).
  assert (Me : 0 < M * e) by nra. assert (Meq : 2 * M * (2 * C + (e + 5 * d)) = W + 2 * (M * e)) by (unfold W; ring).
  assert (Xe : e <= eps / 7 + mn) by (destruct E4; lra).
  assert (Y : M * e <= M * (eps / 7 + mn)) by (apply Rmult_le_compat_l; lra). assert (eM : e <= M * e) by nra.
  assert (Wk : (INR k + 1) * W = INR k * W + W) by ring. rewrite Wk in Rm.
  set (Bk' := Bk + 2 * M * (2 * C + (e + 5 * d)) + (46 * M * e + e + 4 * d)).
  assert (Bk'_le : Bk' <= Bk + W + 52 * (M * e)) by (unfold Bk'; rewrite Meq; nra).
  assert (BP : 0 <= Bk) by (destruct (Rg 0%nat ltac:(lia)); lra).
  destruct (refine_phase n e (46 * M * e) Bk s ltac:(lra) E2 Hn ltac:(lra) Jp ltac:(lra) Bt Rg ltac:(fold M; unfold Bk' in Bk'_le; lra)) as (F1 & s1 & R1 & S1 & O1 & G1).
  fold M in G1. fold Bk' in G1.
  destruct (IH e s1 Bk') as (F2 & P2 & s2 & R2 & S2 & O2).
  - exact E3.
  - lra.
  - destruct (Rlt_le_dec mn e) as [Lt|Le]; [left; exact Lt|right]. split; [exact S1|]. replace mn with e by lra. exact O1.
  - apply S1.
  - exact G1.
  - intros Lt. assert (X : e <= eps / 8) by (destruct E4; [lra|assumption]). assert (Z : M * (e + (e / 7 + mn)) <= M * (eps / 7 + mn)) by (apply Rmult_le_compat_l; lra).
    nra.
  - exists (S F2), (max F1 P2), s2. split; [|split; [exact S2|exact O2]]. intros fuel pfuel Hf Hp. destruct fuel as [|fuel]; [lia|].
    cbn [dmain_loop]. rcase mn eps; [|lra]. fold e. rewrite R1 by lia. cbn [bind]. apply R2; lia.
Qed.
End Num.

(** ** The result *)
Section Result.
Variable g : list garc.
Variable N : nat.
Notation len v := (List.length (adj g v)).
Notation hd_at v k := (a_head (arc_at g v k)).
Notation cost_at v k := (a_cost (arc_at g v k)).
Hypothesis heads : forall a, In a g -> (a_head a < N)%nat.
Definition dentry (s : dcsa) (v : nat) : nat * Z :=
  match dlmatch s v with Some k => (hd_at v k, cost_at v k) | None => (0%nat, 0%Z) end.
Lemma dstore_results_ok s vs : (forall v, In v vs -> dlmatch s v <> None) -> dstore_results g s vs = Ok (map (dentry s) vs).
Proof.
  induction vs as [|v vs IH]; intros H; [reflexivity|]. cbn [dstore_results map]. unfold dentry at 1.
  destruct (dlmatch s v) as [k|] eqn:E; [|exfalso; apply (H v (or_introl eq_refl)), E].
  rewrite IH by (intros x Hx; apply H; right; exact Hx). reflexivity.
Qed.
Lemma dsolved_perfect s : dsolved g N s -> perfect_matching N g (map (dentry s) (seq 0 N)).
Proof using heads.
  intros (((L1 & L2) & _ & _ & _) & S). split; [rewrite map_length, seq_length; reflexivity|]. split.
  - rewrite map_map. apply NoDup_map_inj_on.
    + intros a b Ha Hb E. apply in_seq in Ha, Hb. unfold dentry in E.
      destruct (dlmatch s a) as [ka|] eqn:Ea; [|exfalso; apply (S a); [lia|exact Ea]].
      destruct (dlmatch s b) as [kb|] eqn:Eb; [|exfalso; apply (S b); [lia|exact Eb]].
      cbn [fst] in E. destruct (L1 _ _ Ea) as (_ & _ & Xa). destruct (L1 _ _ Eb) as (_ & _ & Xb). rewrite E in Xa. congruence.
    + apply seq_NoDup.
  - intros v w c E. assert (Hv : (v < N)%nat).
    { assert (X : nth_error (map (dentry s) (seq 0 N)) v <> None) by congruence. apply nth_error_Some in X.
      rewrite map_length, seq_length in X. exact X. }
    rewrite nth_error_map_seq in E by exact Hv. injection E as E. unfold dentry in E.
    destruct (dlmatch s v) as [k|] eqn:Ek; [|exfalso; apply (S v Hv Ek)]. injection E as <- <-.
    destruct (L1 _ _ Ek) as (_ & Hk & _). destruct (adj_in g v k Hk) as [I T]. split; [apply heads, I|].
    rewrite <- T at 1. destruct (arc_at g v k) as [t h c]. exact I.
Qed.
Definition rsum (l : list R) : R := fold_right Rplus 0 l.
Lemma rsum_perm l l' : Permutation l l' -> rsum l = rsum l'.
Proof. induction 1; unfold rsum in *; cbn [fold_right] in *; lra. Qed.
Lemma rsum_cost (l : list (nat * Z)) : rsum (map (fun x => IZR (snd x)) l) = IZR (total_cost l).
Proof.
  unfold total_cost. induction l as [|a l IH]; [reflexivity|]. unfold rsum, zsum in *. cbn [map fold_right]. rewrite IH, plus_IZR. reflexivity.
Qed.
Lemma rsum_sub {A} (f h : A -> R) l : rsum (map (fun x => f x - h x) l) = rsum (map f l) - rsum (map h l).
Proof. induction l as [|a l IH]; unfold rsum in *; cbn [map fold_right]; [lra|]. rewrite IH. lra. Qed.
Lemma rsum_le (p : nat -> R) e : forall (m m' : list (nat * Z)), List.length m = List.length m' ->
  (forall v w c w' c', nth_error m v = Some (w, c) -> nth_error m' v = Some (w', c') ->
     (IZR c - p w <= IZR c' - p w' + e)) ->
  (rsum (map (fun x => IZR (snd x) - p (fst x)) m) <=
   rsum (map (fun x => IZR (snd x) - p (fst x)) m') + IZR (Z.of_nat (List.length m)) * e).
Proof.
  induction m as [|[w c] m IH]; intros [|[w' c'] m'] L H; [|discriminate L|discriminate L|].
  - unfold rsum. cbn [map fold_right List.length]. change (IZR (Z.of_nat 0)) with 0. lra.
  - injection L as L. assert (H0 := H 0%nat w c w' c' eq_refl eq_refl).
    specialize (IH m' L (fun v => H (S v))). unfold rsum in *. cbn [map fold_right List.length fst snd].
    rewrite Nat2Z.inj_succ, <- Z.add_1_l, plus_IZR. lra.
Qed.
Lemma dsolved_cost e s m' : dsolved g N s -> near_opt g e s -> perfect_matching N g m' ->
  IZR (total_cost (map (dentry s) (seq 0 N))) <= IZR (total_cost m') + IZR (Z.of_nat N) * e.
Proof using heads.
  intros Hs O P'. pose proof (dsolved_perfect s Hs) as P. set (m := map (dentry s) (seq 0 N)) in *.
  pose proof (rsum_le (dprice s) e m m') as SL.
  assert (Lm : List.length m = N) by apply P. assert (Lm' : List.length m' = N) by apply P'.
  specialize (SL ltac:(congruence)).
  assert (H : forall v w c w' c', nth_error m v = Some (w, c) -> nth_error m' v = Some (w', c') ->
     (IZR c - dprice s w <= IZR c' - dprice s w' + e)).
  { intros v w c w' c' E E'. assert (Hv : (v < N)%nat).
    { rewrite <- Lm. apply nth_error_Some. congruence. }
    unfold m in E. rewrite nth_error_map_seq in E by exact Hv. injection E as E. unfold dentry in E.
    destruct Hs as (_ & S). destruct (dlmatch s v) as [k|] eqn:Ek; [|exfalso; apply (S v Hv Ek)]. injection E as <- <-.
    destruct P' as (_ & _ & A'). destruct (A' v w' c' E') as [_ I']. destruct (in_adj g _ _ _ I') as (j & Hj & Ej).
    specialize (O v k Ek j Hj). unfold xrc in O. rewrite Ej in O. cbn [a_cost a_head] in O. exact O. }
  specialize (SL H). rewrite !rsum_sub in SL.
  assert (E1 : rsum (map (fun x => dprice s (fst x)) m) = rsum (map (fun x => dprice s (fst x)) m')).
  { rewrite <- (map_map fst (dprice s) m), <- (map_map fst (dprice s) m'). apply rsum_perm, Permutation_map.
    apply perm_trans with (seq 0 N); [apply (perfect_heads g N), P|apply Permutation_sym, (perfect_heads g N), P']. }
  rewrite E1, !rsum_cost, Lm in SL. lra.
Qed.
End Result.
