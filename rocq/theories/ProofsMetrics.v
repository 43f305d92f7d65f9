From Verif Require Export ModelMetrics ProofsProgress ProofsImage.
From Coq Require Import Lqa Qfield Permutation Sorted Setoid Morphisms ZifyBool ZifyNat.
Open Scope Q_scope.

(** ** Rational helpers *)
Lemma Qle_bool_false x y : Qle_bool x y = false <-> y < x.
Proof.
  split; intros H.
  - apply Qnot_le_lt. intros C. apply Qle_bool_iff in C. congruence.
  - destruct (Qle_bool x y) eqn:E; [|reflexivity]. apply Qle_bool_iff in E. lra.
Qed.

Lemma Qdiv_nonneg a b : 0 <= a -> 0 <= b -> 0 <= a / b.
Proof.
  intros Ha Hb. unfold Qdiv. apply Qmult_le_0_compat; [exact Ha|]. apply Qinv_le_0_compat; exact Hb.
Qed.
Lemma Qdiv_le_1 a b : 0 < b -> a <= b -> a / b <= 1.
Proof. intros Hb H. apply Qle_shift_div_r; [exact Hb|]. lra. Qed.

Lemma inject_pos z : (0 < z)%Z -> 0 < inject_Z z.
Proof. intros H. change 0 with (inject_Z 0). rewrite <- Zlt_Qlt. exact H. Qed.
Lemma inject_nonneg z : (0 <= z)%Z -> 0 <= inject_Z z.
Proof. intros H. change 0 with (inject_Z 0). rewrite <- Zle_Qle. exact H. Qed.
Lemma inject_le a b : (a <= b)%Z -> inject_Z a <= inject_Z b.
Proof. rewrite Zle_Qle; auto. Qed.

(** ** C01 *)
Lemma denom_pos s : (0 <= s)%Z -> 0 < inject_Z (s + b2z (s =? 0)%Z).
Proof. intros H; apply inject_pos. destruct (Z.eqb_spec s 0); simpl; lia. Qed.

Lemma recall_unit c s : (0 <= c <= s)%Z -> 0 <= recall c s <= 1.
Proof.
  intros H. unfold recall. pose proof (denom_pos s ltac:(lia)) as D. split.
  - apply Qdiv_nonneg; [apply inject_nonneg; lia|lra].
  - apply Qdiv_le_1; [exact D|]. apply inject_le. destruct (s =? 0)%Z; simpl; lia.
Qed.
Lemma recall_value c s : (0 < s)%Z -> recall c s == inject_Z c / inject_Z s.
Proof. intros H; unfold recall. replace (s =? 0)%Z with false by lia. simpl b2z. rewrite Z.add_0_r. reflexivity. Qed.
Lemma recall_zero c s : (0 <= c <= s)%Z -> (recall c s == 0 <-> c = 0%Z).
Proof.
  intros H. pose proof (denom_pos s ltac:(lia)) as D. unfold recall. split; intros E.
  - assert (inject_Z c == 0) as E1.
    { rewrite <- (Qmult_div_r (inject_Z c) (inject_Z (s + b2z (s =? 0)%Z))) by lra. rewrite E. ring. }
    unfold Qeq in E1; simpl in E1; lia.
  - subst c. unfold Qdiv. change (inject_Z 0) with 0. ring.
Qed.
Lemma recall_one c s : (0 <= c <= s)%Z -> (recall c s == 1 <-> c = s /\ (0 < s)%Z).
Proof.
  intros H. pose proof (denom_pos s ltac:(lia)) as D. unfold recall. split; intros E.
  - assert (inject_Z c == inject_Z (s + b2z (s =? 0)%Z)) as E1.
    { rewrite <- (Qmult_div_r (inject_Z c) (inject_Z (s + b2z (s =? 0)%Z))) by lra. rewrite E. ring. }
    unfold Qeq in E1; simpl in E1. destruct (Z.eqb_spec s 0); simpl in E1; lia.
  - destruct E as [-> Hs]. replace (s =? 0)%Z with false by lia. simpl b2z. rewrite Z.add_0_r.
    field. pose proof (inject_pos s Hs); lra.
Qed.

Global Instance f1_proper : Proper (Qeq ==> Qeq ==> Qeq) f1.
Proof.
  intros p p' Hp r r' Hr. unfold f1.
  assert (E : Qeq_bool (p + r) 0 = Qeq_bool (p' + r') 0).
  { apply eq_true_iff_eq. rewrite !Qeq_bool_iff. rewrite Hp, Hr. reflexivity. }
  rewrite E, Hp, Hr. reflexivity.
Qed.

Lemma f1_pos p r : 0 < p + r -> f1 p r == 2 * p * r / (p + r).
Proof.
  intros H. unfold f1. destruct (Qeq_bool (p + r) 0) eqn:E; [apply Qeq_bool_iff in E; lra|].
  rewrite Qplus_0_r. reflexivity.
Qed.
Lemma f1_00 p r : 0 <= p -> 0 <= r -> p + r == 0 -> f1 p r == 0.
Proof.
  intros Hp Hr H. assert (p == 0) as -> by lra. assert (r == 0) as -> by lra.
  vm_compute. reflexivity.
Qed.
Lemma f1_eqn p r : 0 <= p -> 0 <= r -> f1 p r * (p + r) == 2 * p * r.
Proof.
  intros Hp Hr. destruct (Qlt_le_dec 0 (p + r)) as [H|H].
  - rewrite f1_pos by exact H. field. lra.
  - assert (p == 0) as -> by lra. assert (r == 0) as -> by lra. vm_compute; reflexivity.
Qed.

Lemma Qmul_cancel_le a b c : 0 < c -> a * c <= b * c -> a <= b.
Proof. intros Hc H. apply (Qmult_le_r a b c Hc) in H. exact H. Qed.

Lemma f1_bounds p r : 0 <= p -> 0 <= r -> Qmin p r <= f1 p r <= Qmax p r.
Proof.
  intros Hp Hr. destruct (Qlt_le_dec 0 (p + r)) as [H|H].
  - pose proof (f1_eqn p r Hp Hr) as E.
    destruct (Q.min_spec p r) as [[L ->]|[L ->]]; destruct (Q.max_spec p r) as [[L' ->]|[L' ->]];
      split; apply (Qmul_cancel_le _ _ (p + r)); try exact H; rewrite ?E; nra.
  - assert (E : f1 p r == 0) by (apply f1_00; lra). rewrite E.
    destruct (Q.min_spec p r) as [[L ->]|[L ->]]; destruct (Q.max_spec p r) as [[L' ->]|[L' ->]]; lra.
Qed.
Lemma f1_unit p r : 0 <= p <= 1 -> 0 <= r <= 1 -> 0 <= f1 p r <= 1.
Proof.
  intros Hp Hr. destruct (f1_bounds p r) as [B1 B2]; [lra|lra|].
  destruct (Q.min_spec p r) as [[L E]|[L E]]; rewrite E in B1;
  destruct (Q.max_spec p r) as [[L' E']|[L' E']]; rewrite E' in B2; lra.
Qed.
Lemma f1_sym p r : f1 p r == f1 r p.
Proof.
  unfold f1. assert (E : Qeq_bool (p + r) 0 = Qeq_bool (r + p) 0).
  { apply eq_true_iff_eq. rewrite !Qeq_bool_iff. rewrite Qplus_comm. reflexivity. }
  rewrite E. rewrite (Qplus_comm p r). apply Qdiv_comp; [ring|reflexivity].
Qed.
Lemma f1_mono_l p p' r : 0 <= p -> p <= p' -> 0 <= r -> f1 p r <= f1 p' r.
Proof.
  intros Hp Hpp Hr. destruct (Qlt_le_dec 0 (p + r)) as [H|H].
  - apply (Qmul_cancel_le _ _ ((p + r) * (p' + r))); [apply Qmult_lt_0_compat; lra|].
    assert (E1 : f1 p r * ((p + r) * (p' + r)) == 2 * p * r * (p' + r))
      by (rewrite Qmult_assoc, f1_eqn by lra; reflexivity).
    assert (E2 : f1 p' r * ((p + r) * (p' + r)) == 2 * p' * r * (p + r))
      by (rewrite (Qmult_comm (p + r)), Qmult_assoc, f1_eqn by lra; reflexivity).
    rewrite E1, E2. nra.
  - rewrite (f1_00 p r) by lra. destruct (f1_bounds p' r) as [B _]; [lra|lra|].
    destruct (Q.min_spec p' r) as [[L E]|[L E]]; rewrite E in B; lra.
Qed.
Lemma f1_mono p p' r r' : 0 <= p -> p <= p' -> 0 <= r -> r <= r' -> f1 p r <= f1 p' r'.
Proof.
  intros. apply Qle_trans with (f1 p' r); [apply f1_mono_l; lra|].
  rewrite (f1_sym p' r), (f1_sym p' r'). apply f1_mono_l; lra.
Qed.
Lemma f1_zero_iff p r : 0 <= p -> 0 <= r -> (f1 p r == 0 <-> p == 0 \/ r == 0).
Proof.
  intros Hp Hr. split; intros H.
  - pose proof (f1_eqn p r Hp Hr) as E. rewrite H in E.
    destruct (Qlt_le_dec 0 p) as [Lp|Lp]; [|left; lra].
    destruct (Qlt_le_dec 0 r) as [Lr|Lr]; [|right; lra].
    exfalso. assert (0 < p * r) by (apply Qmult_lt_0_compat; lra). lra.
  - destruct (Qlt_le_dec 0 (p + r)) as [L|L]; [|apply f1_00; lra].
    rewrite f1_pos by exact L. destruct H as [H|H]; rewrite H; field; lra.
Qed.
Lemma f1_one_iff p r : 0 <= p <= 1 -> 0 <= r <= 1 -> (f1 p r == 1 <-> p == 1 /\ r == 1).
Proof.
  intros Hp Hr. split; intros H.
  - pose proof (f1_bounds p r ltac:(lra) ltac:(lra)) as [_ B].
    pose proof (f1_eqn p r ltac:(lra) ltac:(lra)) as E. rewrite H in E, B.
    destruct (Q.max_spec p r) as [[L' E']|[L' E']]; rewrite E' in B.
    + assert (r == 1) as R by lra. rewrite R in E. split; [lra|exact R].
    + assert (p == 1) as R by lra. rewrite R in E. split; [exact R|lra].
  - destruct H as [-> ->]. vm_compute; reflexivity.
Qed.
Lemma f1_harmonic p r : 0 < p -> 0 < r -> 1 / f1 p r == (1 / p + 1 / r) / 2.
Proof. intros Hp Hr. rewrite f1_pos by lra. field. repeat split; lra. Qed.

(** ** map2 *)
Lemma map2_length {A B C} (f : A -> B -> C) l1 l2 : length (map2 f l1 l2) = Nat.min (length l1) (length l2).
Proof. unfold map2; rewrite map_length, combine_length; reflexivity. Qed.
Lemma nth_map2 {A B C} (f : A -> B -> C) l1 l2 i da db dc :
  (i < length l1)%nat -> (i < length l2)%nat -> nth i (map2 f l1 l2) dc = f (nth i l1 da) (nth i l2 db).
Proof.
  revert l2 i; induction l1 as [|a l1 IH]; intros [|b l2] [|i] H1 H2; simpl in *; try lia; [reflexivity|].
  apply IH; lia.
Qed.

(** ** C02: interpolated_max_scores *)
Definition point (th rec prec : list Q) (ik : nat * Z) : score :=
  (lerp th (fst ik) (snd ik), lerp rec (fst ik) (snd ik), lerp prec (fst ik) (snd ik),
   f1 (lerp prec (fst ik) (snd ik)) (lerp rec (fst ik) (snd ik))).

Lemma ims_fold th rec prec pts : forall init,
  let res := fold_left (ims_step th rec prec) pts init in
  (res = init /\ forall q, In q pts -> sc_f (point th rec prec q) <= sc_f init) \/
  (exists pre q post, pts = pre ++ q :: post /\ res = point th rec prec q /\
     sc_f init < sc_f res /\ (forall q', In q' pre -> sc_f (point th rec prec q') < sc_f res) /\
     (forall q', In q' post -> sc_f (point th rec prec q') <= sc_f res)).
Proof.
  induction pts as [|[i k] pts IH]; intros init; cbn [fold_left].
  - left; split; [reflexivity|intros q []].
  - set (g := point th rec prec (i, k)).
    assert (St : ims_step th rec prec init (i, k) = if negb (Qle_bool (sc_f g) (sc_f init)) then g else init)
      by reflexivity.
    rewrite St. destruct (Qle_bool (sc_f g) (sc_f init)) eqn:E; cbn [negb].
    + apply Qle_bool_iff in E.
      destruct (IH init) as [[R H]|(pre & q & post & R1 & R2 & R3 & R4 & R5)].
      * left; split; [exact R|]. intros q [<-|Hq]; [exact E|apply H; exact Hq].
      * right. exists ((i, k) :: pre), q, post. split; [simpl; rewrite R1; reflexivity|].
        split; [exact R2|split; [exact R3|split; [|exact R5]]].
        intros q' [<-|Hq']; [fold g; cbv zeta in R3; lra|apply R4; exact Hq'].
    + apply Qle_bool_false in E.
      destruct (IH g) as [[R H]|(pre & q & post & R1 & R2 & R3 & R4 & R5)].
      * right. exists [], (i, k), pts. split; [reflexivity|]. split; [exact R|]. cbv zeta in *.
        rewrite R. split; [exact E|]. split; [intros ? []|exact H].
      * right. exists ((i, k) :: pre), q, post. split; [simpl; rewrite R1; reflexivity|].
        split; [exact R2|]. cbv zeta in *. split; [lra|]. split; [|exact R5].
        intros q' [<-|Hq']; [exact R3|apply R4; exact Hq'].
Qed.

Lemma in_ims_points n i k : In (i, k) (ims_points n) <-> (1 <= i < n)%nat /\ (0 <= k <= 100)%Z.
Proof.
  unfold ims_points. rewrite in_flat_map. split.
  - intros (j & Hj & Hk). apply in_map_iff in Hk. destruct Hk as (k' & E & Hk).
    injection E as -> ->. apply in_seq in Hj. apply in_zseq in Hk. lia.
  - intros [Hi Hk]. exists i; split; [apply in_seq; lia|]. apply in_map_iff. exists k; split; [reflexivity|].
    apply in_zseq. lia.
Qed.

Lemma lerp_100 x i : lerp x i 100 == nth i x 0.
Proof. unfold lerp. change (inject_Z 100) with (100#1). field. Qed.

Lemma lerp_between x i k lo hi : (0 <= k <= 100)%Z ->
  lo <= nth i x 0 <= hi -> lo <= nth (i - 1) x 0 <= hi -> lo <= lerp x i k <= hi.
Proof.
  intros Hk H1 H2. unfold lerp. set (d := inject_Z k / 100).
  assert (0 <= d <= 1).
  { subst d. split; [apply Qdiv_nonneg; [apply inject_nonneg; lia|lra]|].
    apply Qdiv_le_1; [lra|]. change 100 with (inject_Z 100). apply inject_le; lia. }
  split; nra.
Qed.

Lemma ims_ok th rec prec : th <> [] -> length rec = length th -> length prec = length th ->
  exists b, interpolated_max_scores th rec prec = Ok b.
Proof.
  intros H Hr Hp. destruct th as [|t0 th]; [contradiction|].
  destruct rec as [|r0 rec]; [discriminate|]. destruct prec as [|p0 prec]; [discriminate|].
  unfold interpolated_max_scores. rewrite Hr, Hp, Nat.ltb_irrefl. simpl orb. eauto.
Qed.

Definition lexlt (a b : nat * Z) : Prop := (fst a < fst b)%nat \/ fst a = fst b /\ (snd a < snd b)%Z.
Lemma StronglySorted_app_r {A} (R : A -> A -> Prop) l1 l2 : StronglySorted R (l1 ++ l2) -> StronglySorted R l2.
Proof. induction l1; simpl; intros H; [exact H|]. inversion H; subst; auto. Qed.
Lemma StronglySorted_app_i {A} (R : A -> A -> Prop) l1 l2 :
  StronglySorted R l1 -> StronglySorted R l2 -> (forall x y, In x l1 -> In y l2 -> R x y) ->
  StronglySorted R (l1 ++ l2).
Proof.
  induction l1 as [|a l1 IH]; simpl; intros H1 H2 H; [exact H2|].
  inversion H1; subst. constructor; [apply IH; auto|].
  apply Forall_app; split; [assumption|]. apply Forall_forall; intros; apply H; auto.
Qed.
Lemma zseq_sorted n m : StronglySorted Z.lt (map Z.of_nat (seq m n)).
Proof.
  revert m; induction n as [|n IH]; intros m; simpl; constructor; [apply IH|].
  apply Forall_forall. intros x Hx. apply in_map_iff in Hx. destruct Hx as (y & <- & Hy).
  apply in_seq in Hy. lia.
Qed.
Lemma ims_sorted n : StronglySorted lexlt (ims_points n).
Proof.
  unfold ims_points. generalize (n - 1)%nat as m; intros m.
  assert (G : forall m s, StronglySorted lexlt (flat_map (fun i => map (fun k => (i, k)) (zseq 101)) (seq s m)));
    [|apply G].
  clear. induction m as [|m IH]; intros s; cbn [seq flat_map]; [constructor|].
  apply StronglySorted_app_i; [|apply IH|].
  - pose proof (zseq_sorted 101 0) as S. change (map Z.of_nat (seq 0 101)) with (zseq 101) in S.
    clear IH. induction S as [|a l S IHS F]; simpl; constructor; [exact IHS|].
    apply Forall_forall. intros x Hx. apply in_map_iff in Hx. destruct Hx as (y & <- & Hy).
    rewrite Forall_forall in F. right; simpl; split; [reflexivity|]. apply F; exact Hy.
  - intros [i k] [j k'] Hx Hy. apply in_map_iff in Hx. destruct Hx as (? & E & _). injection E as <- <-.
    apply in_flat_map in Hy. destruct Hy as (j' & Hj & Hy). apply in_map_iff in Hy.
    destruct Hy as (? & E & _). injection E as <- <-. apply in_seq in Hj. left; simpl; lia.
Qed.

Lemma ims_spec th rec prec b : length rec = length th -> length prec = length th ->
  interpolated_max_scores th rec prec = Ok b ->
  (forall j, (j < length th)%nat -> f1 (nth j prec 0) (nth j rec 0) <= sc_f b) /\
  (forall i k, (1 <= i < length th)%nat -> (0 <= k <= 100)%Z ->
     f1 (lerp prec i k) (lerp rec i k) <= sc_f b) /\
  (b = (nth 0 th 0, nth 0 rec 0, nth 0 prec 0, f1 (nth 0 prec 0) (nth 0 rec 0)) \/
   exists i k, (1 <= i < length th)%nat /\ (0 <= k <= 100)%Z /\ b = point th rec prec (i, k) /\
     f1 (nth 0 prec 0) (nth 0 rec 0) < sc_f b /\
     (forall i' k', (1 <= i')%nat -> (0 <= k' <= 100)%Z -> ((i' < i)%nat \/ i' = i /\ (k' < k)%Z) ->
        f1 (lerp prec i' k') (lerp rec i' k') < sc_f b)) /\
  sc_f b = f1 (sc_p b) (sc_r b).
Proof.
  intros Hr Hp E. unfold interpolated_max_scores in E.
  destruct th as [|t0 th]; [discriminate|]. destruct rec as [|r0 rec]; [discriminate|].
  destruct prec as [|p0 prec]; [discriminate|].
  rewrite Hr, Hp, Nat.ltb_irrefl in E. cbn [orb] in E. injection E as E.
  set (TH := t0 :: th) in *. set (RE := r0 :: rec) in *. set (PR := p0 :: prec) in *.
  pose proof (ims_fold TH RE PR (ims_points (length TH)) (t0, r0, p0, f1 p0 r0)) as F.
  cbv zeta in F. change (S (length th)) with (length TH) in E. rewrite E in F. clear E.
  assert (Init : f1 p0 r0 <= sc_f b).
  { destruct F as [[-> _]|(pre & q & post & _ & _ & L & _)]; [apply Qle_refl|apply Qlt_le_weak; exact L]. }
  assert (All : forall i k, (1 <= i < length TH)%nat -> (0 <= k <= 100)%Z -> f1 (lerp PR i k) (lerp RE i k) <= sc_f b).
  { intros i k Hi Hk. assert (Hin : In (i, k) (ims_points (length TH))) by (apply in_ims_points; auto).
    destruct F as [[-> H]|(pre & q & post & Hpts & Hb & _ & H1 & H2)]; [exact (H (i, k) Hin)|].
    rewrite Hpts in Hin. apply in_app_iff in Hin. destruct Hin as [Hin|[E|Hin]].
    - apply Qlt_le_weak. exact (H1 (i, k) Hin).
    - rewrite Hb, E. apply Qle_refl.
    - exact (H2 (i, k) Hin). }
  split; [|split; [exact All|split]].
  - intros [|j] Hj; [exact Init|].
    rewrite <- !lerp_100. apply All; lia.
  - destruct F as [[-> _]|(pre & [i k] & post & Hpts & Hb & L & H1 & H2)]; [left; reflexivity|].
    right. exists i, k.
    assert (Hin : In (i, k) (ims_points (length TH))) by (rewrite Hpts; apply in_app_iff; right; left; reflexivity).
    apply in_ims_points in Hin. destruct Hin as [Hi Hk].
    split; [exact Hi|]. split; [exact Hk|]. split; [exact Hb|]. split; [exact L|].
    intros i' k' Hi' Hk' Hlt.
    assert (Hin' : In (i', k') (ims_points (length TH))) by (apply in_ims_points; split; lia).
    apply (H1 (i', k')). rewrite Hpts in Hin'. apply in_app_iff in Hin'.
    destruct Hin' as [?|[E|Hin']]; [assumption| |].
    + injection E as E1 E2. lia.
    + exfalso. pose proof (ims_sorted (length TH)) as S. rewrite Hpts in S.
      apply StronglySorted_app_r in S. inversion S as [|? ? _ Hall]; subst.
      rewrite Forall_forall in Hall. specialize (Hall _ Hin'). unfold lexlt in Hall; simpl in Hall. lia.
  - destruct F as [[-> _]|(pre & q & post & _ & Hb & _)]; [reflexivity|]. rewrite Hb; reflexivity.
Qed.
