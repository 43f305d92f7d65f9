(** The graph written to [igraph]. *)
From Verif Require Import ModelArrays ProofsImage ProofsKofn ProofsMatch ProofsMatch2 ProofsArrays.
From Coq Require Import Lia ZifyBool ZifyNat.
Open Scope Z_scope.
Open Scope list_scope.

Definition rowval (r : Z * Z * Z) (k : Z) : Z := if k =? 0 then fst (fst r) else if k =? 1 then snd (fst r) else snd r.
Notation r0 := (0, 0, 0).
Definition filled (gc : arr Z * Z) (m : Z) (L : list (Z * Z * Z)) : Prop :=
  snd gc = Z.of_nat (length L) /\ exists f, tbl (fst gc) m 3 f /\
  forall i k, 0 <= i < Z.of_nat (length L) -> 0 <= k < 3 -> f i k = Some (rowval (nth (Z.to_nat i) L r0) k).
Definition az (a : garc) : Z * Z * Z := (Z.of_nat (a_tail a), Z.of_nat (a_head a), a_cost a).

Lemma put_ok gc m L r : filled gc m L -> Z.of_nat (length L) < m -> exists gc', put r gc = Ok gc' /\ filled gc' m (L ++ [r]).
Proof.
  intros (E & f & T & F) H. destruct gc as [g c]. cbn [fst snd] in *. subst c. destruct r as [[a b] c]. unfold put. cbn [fst snd].
  set (n := Z.of_nat (length L)) in *. assert (N : 0 <= n < m) by lia.
  destruct (wr_tbl g m 3 f n 0 a T N ltac:(lia)) as (g1 & E1 & T1). rewrite E1. cbn [bind].
  destruct (wr_tbl g1 m 3 _ n 1 b T1 N ltac:(lia)) as (g2 & E2 & T2). rewrite E2. cbn [bind].
  destruct (wr_tbl g2 m 3 _ n 2 c T2 N ltac:(lia)) as (g3 & E3 & T3). rewrite E3. cbn [bind].
  eexists. split; [reflexivity|]. split; [cbn [snd]; rewrite app_length; cbn [length]; lia|]. eexists. split; [exact T3|].
  intros i k I K. cbn beta. rewrite app_length in I. cbn [length] in I.
  destruct (Z.eqb_spec i n) as [->|Ne].
  - rewrite app_nth2 by lia. replace (Z.to_nat n - length L)%nat with 0%nat by lia. cbn [nth].
    assert (k = 0 \/ k = 1 \/ k = 2) as [-> | [-> | ->]] by lia; reflexivity.
  - cbn [andb]. rewrite app_nth1 by lia. apply F; lia.
Qed.
Lemma put_list {X} (f : X -> arr Z * Z -> res (arr Z * Z)) (r : X -> Z * Z * Z) m l : forall gc L,
  (forall x gc, In x l -> f x gc = put (r x) gc) -> filled gc m L -> Z.of_nat (length L) + Z.of_nat (length l) <= m ->
  exists gc', foldM f l gc = Ok gc' /\ filled gc' m (L ++ map r l).
Proof.
  induction l as [|x l IH]; intros gc L H F N.
  - exists gc. split; [reflexivity|]. rewrite app_nil_r. exact F.
  - cbn [length] in N. destruct (put_ok gc m L (r x) F) as (gc1 & E1 & F1); [lia|]. cbn [foldM]. rewrite H by (left; reflexivity). rewrite E1. cbn [bind].
    destruct (IH gc1 (L ++ [r x])) as (gc2 & E2 & F2); [intros y g Y; apply H; right; exact Y|exact F1|rewrite app_length; cbn [length]; lia|].
    exists gc2. split; [exact E2|]. cbn [map]. rewrite <- app_assoc in F2. exact F2.
Qed.

(** The scratch array. *)
Lemma zseq_S n : zseq (S n) = zseq n ++ [Z.of_nat n].
Proof. unfold zseq. rewrite seq_S, map_app. reflexivity. Qed.
(** kofn.cc *)
Definition over (base : Z) (l : list Z) (f : Z -> Z -> option Z) : Z -> Z -> option Z :=
  fun a b => if (base <=? a) && (a <? base + Z.of_nat (length l)) then Some (nth (Z.to_nat (a - base)) l 0) else f a b.
Lemma over_cons out dm base v l f : tbl out dm 1 (over (base + 1) l (fun i' j' => if (i' =? base) && (j' =? 0) then Some v else f i' j')) ->
  tbl out dm 1 (over base (v :: l) f).
Proof.
  intros T. apply (tbl_ext _ _ _ _ _ T). intros a b A B. assert (b = 0) as -> by lia. unfold over. cbn [length].
  destruct (Z.eqb_spec a base) as [->|N].
  - replace ((base + 1 <=? base) && (base <? base + 1 + Z.of_nat (length l))) with false by lia. cbn [Z.eqb andb].
    replace ((base <=? base) && (base <? base + Z.of_nat (S (length l)))) with true by lia. rewrite Z.sub_diag. reflexivity.
  - cbn [andb]. replace ((base <=? a) && (a <? base + Z.of_nat (S (length l)))) with ((base + 1 <=? a) && (a <? base + 1 + Z.of_nat (length l))) by lia.
    destruct ((base + 1 <=? a) && (a <? base + 1 + Z.of_nat (length l))) eqn:E; [|reflexivity].
    replace (Z.to_nat (a - base)) with (S (Z.to_nat (a - (base + 1)))) by lia. reflexivity.
Qed.
Lemma over_app out dm base l r f : tbl out dm 1 (over (base + Z.of_nat (length l)) r (over base l f)) -> tbl out dm 1 (over base (l ++ r) f).
Proof.
  intros T. apply (tbl_ext _ _ _ _ _ T). intros a b A B. unfold over. rewrite app_length.
  destruct ((base + Z.of_nat (length l) <=? a) && (a <? base + Z.of_nat (length l) + Z.of_nat (length r))) eqn:E.
  - replace ((base <=? a) && (a <? base + Z.of_nat (length l + length r))) with true by lia. rewrite app_nth2 by lia. do 2 f_equal. lia.
  - destruct ((base <=? a) && (a <? base + Z.of_nat (length l))) eqn:E2.
    + replace ((base <=? a) && (a <? base + Z.of_nat (length l + length r))) with true by lia. rewrite app_nth1 by lia. reflexivity.
    + replace ((base <=? a) && (a <? base + Z.of_nat (length l + length r))) with false by lia. reflexivity.
Qed.
Lemma over_nil out dm base f : tbl out dm 1 f -> tbl out dm 1 (over base [] f).
Proof. intros T. apply (tbl_ext _ _ _ _ _ T). intros a b A B. unfold over. cbn [length]. replace ((base <=? a) && (a <? base + Z.of_nat 0)) with false by lia. reflexivity. Qed.
Lemma large_into_ok left : forall i k j base out dm f s, valid_stream s -> 0 <= k - j <= Z.of_nat left -> 0 <= j -> 0 <= base -> base + k <= dm ->
  tbl out dm 1 f ->
  exists out', large_into left i k j base out s = Ok (k, out', snd (large_loop left i k j s)) /\
    tbl out' dm 1 (over (base + j) (fst (large_loop left i k j s)) f).
Proof.
  induction left as [|left IH]; intros i k j base out dm f s V H J B D T; cbn [large_loop large_into].
  - exists out. replace k with j by lia. split; [reflexivity|]. apply over_nil. exact T.
  - assert (X := V O). assert (P := two48_pos). unfold require. replace (k - j <=? Z.of_nat (S left)) with true by lia.
    destruct (Z.ltb_spec (s_hd s * Z.of_nat (S left)) ((k - j) * two48)) as [L|L]; unfold s_hd in L.
    + assert (0 < k - j) by nia. destruct (wr_tbl out dm 1 f (base + j) 0 i T) as (out1 & E1 & T1); [lia|lia|]. rewrite E1. cbn [bind].
      destruct (IH (i + 1) k (j + 1) base out1 dm _ (s_tl s) (valid_tl s V) ltac:(lia) ltac:(lia) B D T1) as (out2 & E2 & T2).
      rewrite E2. destruct (large_loop left (i + 1) k (j + 1) (s_tl s)) as [l s']. cbn [fst snd] in *. exists out2. split; [reflexivity|].
      apply over_cons. rewrite Z.add_assoc in T2. exact T2.
    + assert (k - j <= Z.of_nat left) by nia.
      destruct (IH (i + 1) k j base out dm f (s_tl s) (valid_tl s V) ltac:(lia) J B D T) as (out2 & E2 & T2). rewrite E2.
      destruct (large_loop left (i + 1) k j (s_tl s)) as [l s']. cbn [fst snd] in *. exists out2. split; [reflexivity|exact T2].
Qed.
Lemma add_left_ok c : forall r base out dm f, 0 <= base -> base + Z.of_nat (length r) <= dm -> tbl out dm 1 (over base r f) ->
  exists out', foldM (fun d out => bind (rd out (base + d) 0) (fun v => wr out (base + d) 0 (v + c))) (zseq (length r)) out = Ok out' /\
    tbl out' dm 1 (over base (map (fun v => v + c) r) f).
Proof.
  intros r base out dm f B D T.
  destruct (foldM_inv (fun d out => bind (rd out (base + d) 0) (fun v => wr out (base + d) 0 (v + c)))
    (fun pre o => tbl o dm 1 (fun a b => if (base <=? a) && (a <? base + Z.of_nat (length pre)) then Some (nth (Z.to_nat (a - base)) r 0 + c) else over base r f a b))
    (zseq (length r)) out) as (o & E & To).
  - apply (tbl_ext _ _ _ _ _ T). intros a b A Bb. cbn [length]. replace ((base <=? a) && (a <? base + Z.of_nat 0)) with false by lia. reflexivity.
  - intros pre x post o E To.
    assert (LP : (length pre < length r)%nat).
    { assert (Y := f_equal (@length Z) E). rewrite app_length, zseq_length in Y. cbn [length] in Y. lia. }
    assert (x = Z.of_nat (length pre)) as ->.
    { assert (Y := f_equal (fun l => nth (length pre) l 0) E). cbn beta in Y. rewrite app_nth2, Nat.sub_diag in Y by lia. cbn [nth] in Y.
      unfold zseq in Y. change 0 with (Z.of_nat 0) in Y. rewrite map_nth, seq_nth in Y by exact LP. symmetry. exact Y. }
    assert (R : rd o (base + Z.of_nat (length pre)) 0 = Ok (nth (length pre) r 0)).
    { eapply rd_tbl; [exact To|lia|lia|]. cbn beta. unfold over.
      match goal with |- (if ?c then _ else _) = _ => replace c with false by lia end.
      match goal with |- (if ?c then _ else _) = _ => replace c with true by lia end. do 2 f_equal. lia. }
    rewrite R. cbn [bind]. destruct (wr_tbl o dm 1 _ (base + Z.of_nat (length pre)) 0 (nth (length pre) r 0 + c) To) as (o2 & E2 & T2); [lia|lia|].
    exists o2. split; [exact E2|]. apply (tbl_ext _ _ _ _ _ T2). intros a b A Bb. assert (b = 0) as -> by lia. rewrite app_length. cbn [length].
    destruct (Z.eqb_spec a (base + Z.of_nat (length pre))) as [->|N].
    + cbn [Z.eqb andb]. match goal with |- _ = (if ?c then _ else _) => replace c with true by lia end. do 3 f_equal. lia.
    + cbn [andb]. replace (a <? base + Z.of_nat (length pre + 1)) with (a <? base + Z.of_nat (length pre)) by lia. reflexivity.
  - exists o. split; [exact E|]. apply (tbl_ext _ _ _ _ _ To). intros a b A Bb. unfold over. rewrite map_length, zseq_length.
    destruct ((base <=? a) && (a <? base + Z.of_nat (length r))) eqn:X; [|reflexivity].
    rewrite (nth_indep (map _ r) 0 (0 + c)) by (rewrite map_length; lia). rewrite (map_nth (fun v => v + c)). reflexivity.
Qed.
Lemma small_into_ok fuel : forall k n base out dm f s, valid_stream s -> 0 < k <= n -> n < Z.of_nat fuel -> 0 <= base -> base + k <= dm ->
  tbl out dm 1 f ->
  exists out' l s', kofn_small fuel k n s = Ok (l, s') /\ small_into fuel k n base out s = Ok (out', s') /\ tbl out' dm 1 (over base l f).
Proof.
  induction fuel as [|fuel IH]; intros k n base out dm f s V H F B D T; [lia|]. cbn [kofn_small small_into]. unfold require.
  replace (negb ((0 <? k) && (k <=? n))) with false by lia. replace ((0 <? k) && (k <=? n)) with true by lia.
  destruct (Z.eqb_spec k 1) as [->|K1].
  - destruct (i32 0 (n - 1) s) as [x s1] eqn:E. destruct (wr_tbl out dm 1 f base 0 x T) as (o & E1 & T1); [lia|lia|]. rewrite E1. cbn [bind].
    exists o, [x], s1. split; [reflexivity|]. split; [reflexivity|]. apply over_cons, over_nil. exact T1.
  - assert (N2 : 0 < n / 2 < n) by (split; [apply Z.div_str_pos; lia|apply Z.div_lt; lia]).
    set (leftN := n / 2) in *. assert (S0 := split_k_ok (Z.to_nat k) 0 n leftN 0 s V ltac:(lia) ltac:(lia) ltac:(lia)). cbv zeta.
    destruct (split_k (Z.to_nat k) 0 n leftN 0 s) as [lk s1]. destruct S0 as (V1 & A & A2).
    assert (Left : exists o l s2, (if 0 <? lk then kofn_small fuel lk leftN s1 else Ok ([], s1)) = Ok (l, s2) /\
              (if 0 <? lk then small_into fuel lk leftN base out s1 else Ok (out, s1)) = Ok (o, s2) /\
              tbl o dm 1 (over base l f) /\ valid_stream s2 /\ Z.of_nat (length l) = lk).
    { destruct (Z.ltb_spec 0 lk).
      - destruct (IH lk leftN base out dm f s1 V1 ltac:(lia) ltac:(lia) B ltac:(lia) T) as (o & l & s2 & E1 & E2 & T2).
        destruct (kofn_small_ok fuel lk leftN s1 V1 ltac:(lia) ltac:(lia)) as (l' & s2' & E3 & V2 & (L & _)). rewrite E1 in E3. injection E3 as <- <-.
        exists o, l, s2. repeat (split; [assumption|]). exact L.
      - exists out, [], s1. split; [reflexivity|]. split; [reflexivity|]. split; [apply over_nil, T|]. split; [exact V1|]. cbn. lia. }
    destruct Left as (o1 & l & s2 & -> & -> & T1 & V2 & L1). cbn [bind].
    assert (Right : exists o r s3, (if 0 <? k - lk then kofn_small fuel (k - lk) (n - leftN) s2 else Ok ([], s2)) = Ok (r, s3) /\
              (if 0 <? k - lk then small_into fuel (k - lk) (n - leftN) (base + lk) o1 s2 else Ok (o1, s2)) = Ok (o, s3) /\
              tbl o dm 1 (over (base + lk) r (over base l f)) /\ Z.of_nat (length r) = k - lk).
    { destruct (Z.ltb_spec 0 (k - lk)).
      - destruct (IH (k - lk) (n - leftN) (base + lk) o1 dm (over base l f) s2 V2 ltac:(lia) ltac:(lia) ltac:(lia) ltac:(lia) T1) as (o & r & s3 & E1 & E2 & T2).
        destruct (kofn_small_ok fuel (k - lk) (n - leftN) s2 V2 ltac:(lia) ltac:(lia)) as (r' & s3' & E3 & V3 & (L & _)). rewrite E1 in E3. injection E3 as <- <-.
        exists o, r, s3. repeat (split; [assumption|]). exact L.
      - exists o1, [], s2. split; [reflexivity|]. split; [reflexivity|]. split; [apply over_nil, T1|]. cbn. lia. }
    destruct Right as (o2 & r & s3 & -> & -> & T2 & L2). cbn [bind].
    destruct (add_left_ok leftN r (base + lk) o2 dm (over base l f) ltac:(lia) ltac:(lia) T2) as (o3 & E3 & T3).
    assert (E4 : foldM (fun d out => bind (rd out (base + (lk + d)) 0) (fun v => wr out (base + (lk + d)) 0 (v + leftN))) (zseq (Z.to_nat (k - lk))) o2 = Ok o3).
    { rewrite <- E3. replace (Z.to_nat (k - lk)) with (length r) by lia. clear. generalize (zseq (length r)), o2. induction l as [|d l IH]; intros o; [reflexivity|].
      cbn [foldM]. rewrite !(Z.add_assoc base lk d). destruct (bind (rd o (base + lk + d) 0) _); [apply IH|reflexivity]. }
    rewrite E4. cbn [bind]. exists o3, (l ++ map (fun v => v + leftN) r), s3. split; [reflexivity|]. split; [reflexivity|]. apply over_app. rewrite L1. exact T3.
Qed.
Lemma kofn_into_ok k n out dm f s l s' : valid_stream s -> 0 <= k <= n -> k <= dm -> tbl out dm 1 f -> kofn k n s = Ok (l, s') ->
  exists out' f', kofn_into k n out s = Ok (out', s') /\ tbl out' dm 1 f' /\
  forall a, 0 <= a < Z.of_nat (length l) -> f' a 0 = Some (nth (Z.to_nat a) l 0).
Proof.
  intros V H D T E. assert (Q : exists out', kofn_into k n out s = Ok (out', s') /\ tbl out' dm 1 (over 0 l f)).
  { unfold kofn in E. unfold kofn_into, require. replace ((0 <=? k) && (0 <=? n)) with true in * by lia. cbn [negb] in E.
    destruct (Z.eqb_spec k 0) as [->|K0]; [injection E as <- <-; exists out; split; [reflexivity|apply over_nil, T]|].
    destruct (k ^ k <? 2 ^ (n / 2)).
    - destruct (small_into_ok (S (Z.to_nat n)) k n 0 out dm f s V ltac:(lia) ltac:(lia) ltac:(lia) ltac:(lia) T) as (o & l' & s2 & E1 & E2 & T2).
      rewrite E in E1. injection E1 as <- <-. exists o. split; assumption.
    - unfold kofn_large in E. replace ((0 <? k) && (k <=? n)) with true in * by lia. cbn [negb] in E.
      destruct (large_into_ok (Z.to_nat n) 0 k 0 0 out dm f s V ltac:(lia) ltac:(lia) ltac:(lia) ltac:(lia) T) as (o & E1 & T1).
      destruct (large_loop (Z.to_nat n) 0 k 0 s) as [l' s2]. destruct (_ =? k); [|discriminate]. injection E as <- <-. cbn [fst snd] in *.
      rewrite E1. cbn [bind]. rewrite Z.eqb_refl. exists o. split; [reflexivity|exact T1]. }
  destruct Q as (o & E1 & T1). exists o, (over 0 l f). split; [exact E1|]. split; [exact T1|]. intros a A. unfold over.
  replace ((0 <=? a) && (a <? 0 + Z.of_nat (length l))) with true by lia. rewrite Z.sub_0_r. reflexivity.
Qed.
Lemma map_nth_zseq {A} (l : list A) d : map (fun a => nth (Z.to_nat a) l d) (zseq (length l)) = l.
Proof.
  induction l as [|v l IH] using rev_ind; [reflexivity|]. rewrite app_length. cbn [length]. rewrite Nat.add_1_r, zseq_S, map_app. cbn [map].
  rewrite Nat2Z.id, app_nth2, Nat.sub_diag by lia. cbn [nth]. f_equal. rewrite <- IH at 2. apply map_ext_in. intros a I.
  apply in_zseq in I. apply app_nth1. lia.
Qed.
Definition draws (deg lim : Z) (row : Z -> Z -> option (Z * Z * Z)) (F : nat -> stream -> res (list garc * stream)) (i : nat) : Prop :=
  0 <= deg <= lim /\ forall s, valid_stream s -> exists l s1 a r, F i s = Ok (a, s1) /\ kofn deg lim s = Ok (l, s1) /\ valid_stream s1 /\
    Z.of_nat (length l) = deg /\ map az a = map r l /\ forall j, In j l -> row (Z.of_nat i) j = Some (r j).
Lemma outlier_step deg lim row F i dm f gc out s m L a s1 : draws deg lim row F i -> valid_stream s -> F i s = Ok (a, s1) ->
  tbl out dm 1 f -> deg <= dm -> filled gc m L -> Z.of_nat (length L) + Z.of_nat (length a) <= m ->
  exists gc' out' f', outlier_loop deg lim row (Z.of_nat i) (gc, out, s) = Ok (gc', out', s1) /\ tbl out' dm 1 f' /\
    filled gc' m (L ++ map az a) /\ valid_stream s1.
Proof.
  intros D V E T Hd G N. destruct D as [DL D]. destruct (D s V) as (l & s2 & a2 & r & E1 & E2 & V2 & Len & Ea & Row). rewrite E in E1. injection E1 as <- <-.
  unfold outlier_loop.
  destruct (kofn_into_ok deg lim out dm f s l s1 V DL Hd T E2) as (out' & f' & E3 & T' & F'). rewrite E3. cbn [bind].
  assert (LA : length a = length l) by (rewrite <- (map_length az), Ea, map_length; reflexivity).
  destruct (put_list (fun a gc => bind (rd out' a 0) (fun j => match row (Z.of_nat i) j with Some r => put r gc | None => Err AssertionError end))
    (fun a => r (nth (Z.to_nat a) l 0)) m (zseq (Z.to_nat deg)) gc L) as (gc' & E4 & G').
  - intros x g X. apply in_zseq in X. rewrite (rd_tbl out' dm 1 f' x 0 _ T' ltac:(lia) ltac:(lia) (F' x ltac:(lia))). cbn [bind].
    rewrite Row by (apply nth_In; lia). reflexivity.
  - exact G.
  - unfold zseq. rewrite map_length, seq_length. lia.
  - rewrite E4. cbn [bind]. exists gc', out', f'. split; [reflexivity|]. split; [exact T'|]. split; [|exact V2].
    rewrite Ea. rewrite <- Len, Nat2Z.id in G'. rewrite <- (map_map (fun a => nth (Z.to_nat a) l 0) r), map_nth_zseq in G'. exact G'.
Qed.
Lemma outlier_all deg lim row F dm m : forall is f gc out s L A s',
  (forall i, In i is -> draws deg lim row F i) -> valid_stream s -> sample_loop is F s = Ok (A, s') ->
  tbl out dm 1 f -> deg <= dm -> filled gc m L -> Z.of_nat (length L) + Z.of_nat (length A) <= m ->
  exists gc' out' f', foldM (outlier_loop deg lim row) (map Z.of_nat is) (gc, out, s) = Ok (gc', out', s') /\ tbl out' dm 1 f' /\
    filled gc' m (L ++ map az A) /\ valid_stream s'.
Proof.
  induction is as [|i is IH]; intros f gc out s L A s' D V E T Hd G N.
  - cbn in E. injection E as <- <-. exists gc, out, f. split; [reflexivity|]. split; [exact T|]. cbn. rewrite app_nil_r. split; assumption.
  - cbn [sample_loop] in E. destruct (F i s) as [[a s1]|] eqn:Ei; [|discriminate]. cbn [bind] in E.
    destruct (sample_loop is F s1) as [[A' s2]|] eqn:Er; [|discriminate]. cbn [bind] in E. injection E as <- <-.
    rewrite app_length in N.
    destruct (outlier_step deg lim row F i dm f gc out s m L a s1) as (gc1 & out1 & f1 & E1 & T1 & G1 & V1); try assumption; [apply D; left; reflexivity|lia|].
    cbn [map foldM]. rewrite E1. cbn [bind].
    destruct (IH f1 gc1 out1 s1 (L ++ map az a) A' s2) as (gc2 & out2 & f2 & E2 & T2 & G2 & V2); try assumption.
    + intros j J. apply D. right. exact J.
    + rewrite app_length, map_length. lia.
    + exists gc2, out2, f2. split; [exact E2|]. split; [exact T2|]. rewrite map_app, app_assoc. split; assumption.
Qed.

Section Match.
Variable h w : nat.
Variable b1 b2 : image bool.
Variable md2 oc2 : Q.
Hypothesis W1 : wf b1.
Hypothesis W2 : wf b2.
Hypothesis Eh1 : ht b1 = h.
Hypothesis Ew1 : wd b1 = w.
Hypothesis Eh2 : ht b2 = h.
Hypothesis Ew2 : wd b2 = w.
Hypothesis Hmd : (0 <= md2)%Q.
Hypothesis Hoc : (md2 < oc2)%Q.
Notation n1 := (n1 h w b1 b2 md2).
Notation n2 := (n2 h w b1 b2 md2).
Notation nmin := (nmin h w b1 b2 md2).
Notation nmax := (nmax h w b1 b2 md2).
Notation deg1 := (deg1 h w b1 b2 md2).
Notation deg2 := (deg2 h w b1 b2 md2).
Notation deg3 := (deg3 h w b1 b2 md2).
Notation zn1 := (Z.of_nat n1).
Notation zn2 := (Z.of_nat n2).
Notation m := (n_arcs h w b1 b2 md2).

Lemma draws1 i : (i < n1)%nat -> draws deg1 (zn1 - 1) (row1 zn1 zn2 (ow oc2)) (outliers1 h w b1 b2 md2 oc2) i.
Proof.
  clear. intros Hi. split; [unfold ModelMatch.deg1, degree; lia|]. intros s V. destruct (kofn_ok deg1 (zn1 - 1) s V) as (l & s' & E & V' & K); [unfold ModelMatch.deg1; lia|].
  exists l, s', (map (fun j => mkArc i (n2 + Z.to_nat j) (ow oc2)) (map (shift_diag (Z.of_nat i)) l)), (fun j => (Z.of_nat i, zn2 + shift_diag (Z.of_nat i) j, ow oc2)).
  destruct K as (KL & _ & K). rewrite Forall_forall in K.
  assert (B : forall k, In k l -> shift_diag (Z.of_nat i) k <> Z.of_nat i /\ 0 <= shift_diag (Z.of_nat i) k < zn1).
  { intros k Hk. specialize (K k Hk). destruct (shift_diag_spec (Z.of_nat i) k zn1) as [A B]; lia. }
  unfold outliers1. rewrite E. cbn [bind]. rewrite check_ok.
  - split; [reflexivity|]. split; [reflexivity|]. split; [exact V'|]. split; [exact KL|]. split.
    + rewrite !map_map. apply map_ext_in. intros k Hk. specialize (B k Hk). unfold az. cbn [a_tail a_head a_cost]. f_equal. f_equal. lia.
    + intros k Hk. specialize (B k Hk). unfold row1. rewrite Z.geb_leb. fold (shift_diag (Z.of_nat i) k).
      destruct (negb (Z.of_nat i =? shift_diag (Z.of_nat i) k) && (0 <=? shift_diag (Z.of_nat i) k) && (shift_diag (Z.of_nat i) k <? zn1)) eqn:X; [reflexivity|lia].
  - apply forallb_forall. intros j Hj. apply in_map_iff in Hj. destruct Hj as (k & <- & Hk). specialize (B k Hk). lia.
Qed.
Lemma draws2 i : (i < n2)%nat -> draws deg2 (zn2 - 1) (row2 zn1 zn2 (ow oc2)) (outliers2 h w b1 b2 md2 oc2) i.
Proof.
  clear. intros Hi. split; [unfold ModelMatch.deg2, degree; lia|]. intros s V. destruct (kofn_ok deg2 (zn2 - 1) s V) as (l & s' & E & V' & K); [unfold ModelMatch.deg2; lia|].
  exists l, s', (map (fun k => mkArc (n1 + Z.to_nat k) i (ow oc2)) (map (shift_diag (Z.of_nat i)) l)), (fun k => (zn1 + shift_diag (Z.of_nat i) k, Z.of_nat i, ow oc2)).
  destruct K as (KL & _ & K). rewrite Forall_forall in K.
  assert (B : forall k, In k l -> shift_diag (Z.of_nat i) k <> Z.of_nat i /\ 0 <= shift_diag (Z.of_nat i) k < zn2).
  { intros k Hk. specialize (K k Hk). destruct (shift_diag_spec (Z.of_nat i) k zn2) as [A B]; lia. }
  unfold outliers2. rewrite E. cbn [bind]. rewrite check_ok.
  - split; [reflexivity|]. split; [reflexivity|]. split; [exact V'|]. split; [exact KL|]. split.
    + rewrite !map_map. apply map_ext_in. intros k Hk. specialize (B k Hk). unfold az. cbn [a_tail a_head a_cost]. f_equal. f_equal. lia.
    + intros k Hk. specialize (B k Hk). unfold row2. rewrite Z.geb_leb. fold (shift_diag (Z.of_nat i) k).
      destruct (negb (shift_diag (Z.of_nat i) k =? Z.of_nat i) && (0 <=? shift_diag (Z.of_nat i) k) && (shift_diag (Z.of_nat i) k <? zn2)) eqn:X; [reflexivity|lia].
  - apply forallb_forall. intros j Hj. apply in_map_iff in Hj. destruct Hj as (k & <- & Hk). specialize (B k Hk). lia.
Qed.
Lemma draws3 i : (i < nmax)%nat -> draws deg3 (Z.min zn1 zn2) (row3 zn1 zn2 (ow oc2)) (outliers3 h w b1 b2 md2 oc2) i.
Proof.
  clear. intros Hi. split; [unfold ModelMatch.deg3, ModelMatch.nmin, degree; lia|]. intros s V. destruct (kofn_ok deg3 (Z.of_nat nmin) s V) as (l & s' & E & V' & K); [unfold ModelMatch.deg3, degree; lia|].
  assert (MN : Z.min zn1 zn2 = Z.of_nat nmin) by (unfold ModelMatch.nmin; lia). rewrite MN.
  exists l, s', (map (fun j => if Nat.ltb n1 n2 then mkArc (n1 + i) (n2 + Z.to_nat j) (ow oc2) else mkArc (n1 + Z.to_nat j) (n2 + i) (ow oc2)) l),
    (fun j => if Nat.ltb n1 n2 then (zn1 + Z.of_nat i, zn2 + j, ow oc2) else (zn1 + j, zn2 + Z.of_nat i, ow oc2)).
  destruct K as (KL & _ & K). rewrite Forall_forall in K. unfold outliers3. rewrite E. cbn [bind]. rewrite check_ok.
  - split; [reflexivity|]. split; [reflexivity|]. split; [exact V'|]. split; [exact KL|]. split.
    + rewrite !map_map. apply map_ext_in. intros k Hk. specialize (K k Hk). unfold az. destruct (Nat.ltb n1 n2); cbn [a_tail a_head a_cost]; f_equal; f_equal; lia.
    + intros k Hk. specialize (K k Hk). unfold row3. rewrite MN. unfold ModelMatch.nmin, ModelMatch.nmax in *.
      destruct ((0 <=? k) && (k <? Z.of_nat (Nat.min n1 n2))) eqn:X; [|lia].
      destruct (Nat.ltb_spec n1 n2) as [Y|Y].
      * destruct (zn1 <? zn2) eqn:Y2; [|lia]. destruct ((0 <=? Z.of_nat i) && (Z.of_nat i <? zn2) && ((0 <=? k) && (k <? zn1))) eqn:U; [reflexivity|lia].
      * destruct (zn1 <? zn2) eqn:Y2; [lia|]. destruct ((0 <=? Z.of_nat i) && (Z.of_nat i <? zn1) && ((0 <=? k) && (k <? zn2))) eqn:U; [reflexivity|lia].
  - apply forallb_forall. intros k Hk. specialize (K k Hk). lia.
Qed.

Lemma fill_ok s g s' : m * 3 < 2 ^ 32 -> valid_stream s -> build_graph h w b1 b2 md2 oc2 s = Ok (g, s') ->
  exists gc, fill (map ze (real_edges h w b1 b2 md2)) zn1 zn2 m (ow oc2) s = Ok (gc, s') /\ filled gc m (map az g) /\ Z.of_nat (length g) = m.
Proof.
  intros Hm V E. unfold build_graph in E. unfold check at 1 in E. destruct (_ && forallb _ (real_edges h w b1 b2 md2)); [|discriminate].
  destruct (sample_loop (seq 0 n1) _ s) as [[A1 s1]|] eqn:E1; [|discriminate]. cbn [bind] in E.
  destruct (sample_loop (seq 0 n2) _ s1) as [[A2 s2]|] eqn:E2; [|discriminate]. cbn [bind] in E.
  destruct (sample_loop (seq 0 nmax) _ s2) as [[A3 s3]|] eqn:E3; [|discriminate]. cbn [bind] in E.
  fold (real_arcs h w b1 b2 md2) in E. set (g' := real_arcs h w b1 b2 md2 ++ A1 ++ A2 ++ A3 ++ overlay h w b1 b2 md2 oc2) in E.
  unfold check in E. destruct ((Z.of_nat (length g') =? m) && _) eqn:C; [|discriminate]. injection E as <- <-. apply andb_true_iff in C. destruct C as [C _]. apply Z.eqb_eq in C.
  assert (Len : Z.of_nat (length (real_edges h w b1 b2 md2)) + Z.of_nat (length A1) + Z.of_nat (length A2) + Z.of_nat (length A3) + (zn1 + zn2) = m).
  { rewrite <- C. unfold g', real_arcs, overlay. rewrite !app_length, !map_length, !seq_length. lia. }
  assert (D1 : deg1z zn1 = deg1) by reflexivity. assert (D2 : deg1z zn2 = deg2) by reflexivity.
  assert (D3 : Z.min degree (Z.min zn1 zn2) = deg3) by (unfold ModelMatch.deg3, ModelMatch.nmin; lia).
  unfold fill. cbv zeta. rewrite D1, D2, D3, !Nat2Z.id. 
  destruct (put_list (fun '(i, j, d) gc => require ((0 <=? i) && (i <? zn1) && ((0 <=? j) && (j <? zn2))) (put (i, j, weight d) gc))
    (fun '(i, j, d) => (i, j, weight d)) m (map ze (real_edges h w b1 b2 md2)) (alloc m 3, 0) []) as (gc1 & F1 & G1).
  { intros [[i j] d] gc I. apply in_map_iff in I. destruct I as ([[i' j'] d'] & EQ & I). unfold ze in EQ. cbn [fst snd] in EQ. injection EQ as <- <- <-.
    apply in_real_edges in I; try assumption. destruct I as [(X & Y & _) _]. unfold require. replace (_ && _) with true by (symmetry; lia). reflexivity. }
  { split; [reflexivity|]. exists (fun _ _ => None). cbn [fst]. split; [apply alloc_tbl; lia|]. cbn. lia. }
  { rewrite map_length. cbn [length]. lia. }
  rewrite F1. cbn [bind]. cbn [app] in G1.
  assert (R1 : map (fun '(i, j, d) => (i, j, weight d)) (map ze (real_edges h w b1 b2 md2)) = map az (real_arcs h w b1 b2 md2)).
  { unfold real_arcs. rewrite !map_map. apply map_ext. intros [[i j] d]. reflexivity. }
  rewrite R1 in G1. set (dm := Z.max deg1 (Z.max deg2 deg3)).
  assert (DM : 0 <= dm <= 6) by (unfold dm, ModelMatch.deg1, ModelMatch.deg2, ModelMatch.deg3, degree; lia).
  assert (T0 : tbl (alloc (A := Z) dm 1) dm 1 (fun _ _ => None)) by (apply alloc_tbl; lia).
  assert (RL : length (real_arcs h w b1 b2 md2) = length (real_edges h w b1 b2 md2)) by apply map_length.
  destruct (outlier_all deg1 (zn1 - 1) (row1 zn1 zn2 (ow oc2)) (outliers1 h w b1 b2 md2 oc2) dm m (seq 0 n1) (fun _ _ => None) gc1 (alloc dm 1) s (map az (real_arcs h w b1 b2 md2)) A1 s1) as (gc2 & out2 & f2 & F2 & T2 & G2 & V2);
    [intros i I; apply draws1, in_seq0, I|exact V|exact E1|exact T0|lia|exact G1|rewrite map_length; lia|].
  unfold zseq at 1. rewrite F2. cbn [bind]. replace (zn2 - 1) with (Z.of_nat n2 - 1) by reflexivity.
  destruct (outlier_all deg2 (zn2 - 1) (row2 zn1 zn2 (ow oc2)) (outliers2 h w b1 b2 md2 oc2) dm m (seq 0 n2) f2 gc2 out2 s1 (map az (real_arcs h w b1 b2 md2) ++ map az A1) A2 s2) as (gc3 & out3 & f3 & F3 & T3 & G3 & V3);
    [intros i I; apply draws2, in_seq0, I|exact V2|exact E2|exact T2|lia|exact G2|rewrite app_length, !map_length; lia|].
  unfold zseq at 1. rewrite F3. cbn [bind].
  replace (Z.to_nat (Z.max zn1 zn2)) with nmax by (unfold ModelMatch.nmax; lia).
  destruct (outlier_all deg3 (Z.min zn1 zn2) (row3 zn1 zn2 (ow oc2)) (outliers3 h w b1 b2 md2 oc2) dm m (seq 0 nmax) f3 gc3 out3 s2 ((map az (real_arcs h w b1 b2 md2) ++ map az A1) ++ map az A2) A3 s3) as (gc4 & out4 & f4 & F4 & T4 & G4 & V4);
    [intros i I; apply draws3, in_seq0, I|exact V3|exact E3|exact T3|lia|exact G3|rewrite !app_length, !map_length; lia|].
  unfold zseq at 1. rewrite F4. cbn [bind fst snd].
  destruct (put_list (fun i gc => put (i, zn2 + i, ow oc2 * multiplier) gc) (fun i => (i, zn2 + i, ow oc2 * multiplier)) m (zseq n1) gc4 _ (fun _ _ _ => eq_refl) G4) as (gc5 & F5 & G5).
  { unfold zseq. rewrite !app_length, !map_length, seq_length. lia. }
  rewrite F5. cbn [bind].
  destruct (put_list (fun i gc => put (zn1 + i, i, ow oc2 * multiplier) gc) (fun i => (zn1 + i, i, ow oc2 * multiplier)) m (zseq n2) gc5 _ (fun _ _ _ => eq_refl) G5) as (gc6 & F6 & G6).
  { unfold zseq. rewrite !app_length, !map_length, !seq_length. lia. }
  rewrite F6. cbn [bind]. exists gc6. split; [reflexivity|]. split; [|exact C].
  assert (RO : map az (overlay h w b1 b2 md2 oc2) = map (fun i => (i, zn2 + i, ow oc2 * multiplier)) (zseq n1) ++ map (fun i => (zn1 + i, i, ow oc2 * multiplier)) (zseq n2)).
  { unfold overlay, zseq. rewrite map_app, !map_map. f_equal; apply map_ext; intros i; unfold az; cbn [a_tail a_head a_cost]; rewrite Nat2Z.inj_add; reflexivity. }
  unfold g'. rewrite !map_app, RO. rewrite <- !app_assoc in G6. exact G6.
Qed.
End Match.
