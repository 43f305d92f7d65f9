(** Proofs about the k-of-n sampler (kofn.cc) and the random generator. *)
From Verif Require Export ModelMatch ProofsImage.
From Coq Require Export Lia ZifyBool ZifyNat Sorted.
Open Scope Z_scope.
Open Scope list_scope.

(** Raw values of erand48. *)
Definition valid_stream (s : stream) : Prop := forall n, 0 <= s n < two48.
Lemma valid_tl s : valid_stream s -> valid_stream (s_tl s).
Proof. intros V n. apply V. Qed.
Lemma two48_pos : 0 < two48. Proof. reflexivity. Qed.

(** [k] strictly increasing values in [lo, hi). *)
Definition k_subset (k lo hi : Z) (l : list Z) : Prop :=
  Z.of_nat (length l) = k /\ StronglySorted Z.lt l /\ Forall (fun v => lo <= v < hi) l.

Lemma i32_range a b s : a <= b -> valid_stream s -> a <= fst (i32 a b s) <= b.
Proof.
  intros H V. unfold i32. cbn [fst]. assert (X := V O). assert (P := two48_pos). unfold s_hd.
  assert (0 <= s O * (b - a + 1) / two48) by (apply Z.div_pos; nia).
  assert (s O * (b - a + 1) / two48 < b - a + 1) by (apply Z.div_lt_upper_bound; nia). lia.
Qed.

Lemma large_loop_ok left : forall i k j s, valid_stream s -> 0 <= k - j <= Z.of_nat left ->
  let (l, s') := large_loop left i k j s in valid_stream s' /\ k_subset (k - j) i (i + Z.of_nat left) l.
Proof.
  induction left as [|left IH]; intros i k j s V H; cbn [large_loop].
  - split; [exact V|]. split; [cbn; lia|]. split; constructor.
  - assert (X := V O). unfold s_hd. assert (P := two48_pos).
    destruct (Z.ltb_spec (s O * Z.of_nat (S left)) ((k - j) * two48)) as [L|L].
    + assert (0 < k - j) by nia. specialize (IH (i + 1) k (j + 1) (s_tl s) (valid_tl s V) ltac:(lia)).
      destruct (large_loop left (i + 1) k (j + 1) (s_tl s)) as [l s']. destruct IH as (V' & A & B & C).
      split; [exact V'|]. split; [cbn [length]; lia|]. split.
      * constructor; [exact B|]. eapply Forall_impl; [|exact C]. cbn. lia.
      * constructor; [lia|]. eapply Forall_impl; [|exact C]. cbn. lia.
    + assert (k - j <= Z.of_nat left) by nia. specialize (IH (i + 1) k j (s_tl s) (valid_tl s V) ltac:(lia)).
      destruct (large_loop left (i + 1) k j (s_tl s)) as [l s']. destruct IH as (V' & A & B & C).
      split; [exact V'|]. split; [exact A|]. split; [exact B|]. eapply Forall_impl; [|exact C]. cbn. lia.
Qed.
Lemma kofn_large_ok k n s : valid_stream s -> 0 < k <= n ->
  exists l s', kofn_large k n s = Ok (l, s') /\ valid_stream s' /\ k_subset k 0 n l.
Proof.
  intros V H. unfold kofn_large. replace (negb ((0 <? k) && (k <=? n))) with false by lia.
  assert (L := large_loop_ok (Z.to_nat n) 0 k 0 s V ltac:(lia)).
  destruct (large_loop (Z.to_nat n) 0 k 0 s) as [l s']. destruct L as (V' & A & B & C).
  rewrite Z.sub_0_r in A. replace (Z.of_nat (length l) =? k) with true by lia.
  exists l, s'. split; [reflexivity|]. split; [exact V'|]. split; [exact A|]. split; [exact B|].
  eapply Forall_impl; [|exact C]. cbn. lia.
Qed.

Lemma split_k_ok todo : forall i n leftN leftK s, valid_stream s ->
  0 <= leftK <= leftN -> 0 <= i - leftK <= n - leftN -> i + Z.of_nat todo <= n ->
  let (r, s') := split_k todo i n leftN leftK s in
  valid_stream s' /\ 0 <= r <= leftN /\ 0 <= i + Z.of_nat todo - r <= n - leftN.
Proof.
  induction todo as [|todo IH]; intros i n leftN leftK s V A B T; cbn [split_k].
  - split; [exact V|]. lia.
  - assert (R := i32_range 0 (n - i - 1) s ltac:(lia) V). destruct (i32 0 (n - i - 1) s) as [x s1] eqn:E.
    assert (V1 : valid_stream s1) by (injection E; intros <- _; apply valid_tl; exact V). cbn [fst] in R.
    assert (IHx := IH (i + 1) n leftN (if x <? leftN - leftK then leftK + 1 else leftK) s1 V1).
    destruct (Z.ltb_spec x (leftN - leftK)) as [L|L]; specialize (IHx ltac:(lia) ltac:(lia) ltac:(lia));
      destruct (split_k todo _ _ _ _ _) as [r s']; destruct IHx as (X & Y & Z); (split; [exact X|]); lia.
Qed.

Lemma SSorted_app l r b : StronglySorted Z.lt l -> StronglySorted Z.lt r -> Forall (fun v => v < b) l ->
  Forall (fun v => b <= v) r -> StronglySorted Z.lt (l ++ r).
Proof.
  induction 1 as [|a l L IH F]; intros R A B; [exact R|]. cbn [app]. inversion A as [|? ? A1 A2].
  constructor; [apply IH; assumption|]. apply Forall_app. split; [exact F|].
  eapply Forall_impl; [|exact B]. cbn. lia.
Qed.
Lemma SSorted_shift c l : StronglySorted Z.lt l -> StronglySorted Z.lt (map (fun v => v + c) l).
Proof.
  induction 1 as [|a l L IH F]; [constructor|]. cbn [map]. constructor; [exact IH|]. apply Forall_map.
  eapply Forall_impl; [|exact F]. cbn. lia.
Qed.

Lemma kofn_small_ok fuel : forall k n s, valid_stream s -> 0 < k <= n -> n < Z.of_nat fuel ->
  exists l s', kofn_small fuel k n s = Ok (l, s') /\ valid_stream s' /\ k_subset k 0 n l.
Proof.
  induction fuel as [|fuel IH]; intros k n s V H F; [lia|]. cbn [kofn_small].
  replace (negb ((0 <? k) && (k <=? n))) with false by lia. destruct (Z.eqb_spec k 1) as [->|K1].
  - assert (R := i32_range 0 (n - 1) s ltac:(lia) V). destruct (i32 0 (n - 1) s) as [x s1] eqn:E. cbn [fst] in R.
    exists [x], s1. split; [reflexivity|]. split; [injection E; intros <- _; apply valid_tl; exact V|].
    split; [reflexivity|]. split; [repeat constructor|]. constructor; [lia|constructor].
  - assert (N2 : 0 < n / 2 < n) by (split; [apply Z.div_str_pos; lia|apply Z.div_lt; lia]).
    set (leftN := n / 2) in *. assert (S := split_k_ok (Z.to_nat k) 0 n leftN 0 s V ltac:(lia) ltac:(lia) ltac:(lia)).
    destruct (split_k (Z.to_nat k) 0 n leftN 0 s) as [lk s1]. destruct S as (V1 & A & B).
    assert (Left : exists l s2, (if 0 <? lk then kofn_small fuel lk leftN s1 else Ok ([], s1)) = Ok (l, s2) /\
              valid_stream s2 /\ k_subset lk 0 leftN l).
    { destruct (Z.ltb_spec 0 lk); [apply IH; [exact V1|lia|lia]|]. exists [], s1. split; [reflexivity|].
      split; [exact V1|]. split; [cbn; lia|]. split; constructor. }
    destruct Left as (l & s2 & El & V2 & L1 & L2 & L3). rewrite El. cbn [bind].
    assert (Right : exists r s3, (if 0 <? k - lk then kofn_small fuel (k - lk) (n - leftN) s2 else Ok ([], s2)) = Ok (r, s3) /\
              valid_stream s3 /\ k_subset (k - lk) 0 (n - leftN) r).
    { destruct (Z.ltb_spec 0 (k - lk)); [apply IH; [exact V2|lia|lia]|]. exists [], s2. split; [reflexivity|].
      split; [exact V2|]. split; [cbn; lia|]. split; constructor. }
    destruct Right as (r & s3 & Er & V3 & R1 & R2 & R3). rewrite Er. cbn [bind].
    exists (l ++ map (fun v => v + leftN) r), s3. split; [reflexivity|]. split; [exact V3|].
    split; [rewrite app_length, map_length; lia|]. split.
    + apply (SSorted_app _ _ leftN); [exact L2|apply SSorted_shift; exact R2| |].
      * eapply Forall_impl; [|exact L3]. cbn. lia.
      * apply Forall_map. eapply Forall_impl; [|exact R3]. cbn. lia.
    + apply Forall_app. split; [eapply Forall_impl; [|exact L3]; cbn; lia|]. apply Forall_map.
      eapply Forall_impl; [|exact R3]. cbn. lia.
Qed.

Lemma kofn_ok k n s : valid_stream s -> 0 <= k <= n ->
  exists l s', kofn k n s = Ok (l, s') /\ valid_stream s' /\ k_subset k 0 n l.
Proof.
  intros V H. unfold kofn. replace (negb ((0 <=? k) && (0 <=? n))) with false by lia.
  destruct (Z.eqb_spec k 0) as [->|K0].
  - exists [], s. split; [reflexivity|]. split; [exact V|]. split; [reflexivity|]. split; constructor.
  - destruct (k ^ k <? 2 ^ (n / 2)); [apply kofn_small_ok|apply kofn_large_ok]; first [exact V|lia].
Qed.
(** Drawing zero elements is always possible. *)

Lemma SSorted_NoDup l : StronglySorted Z.lt l -> NoDup l.
Proof.
  induction 1 as [|a l L IH F]; [constructor|]. constructor; [|exact IH]. intros I.
  rewrite Forall_forall in F. specialize (F a I). lia.
Qed.
(** The complete subset is everything. *)
Lemma k_subset_full n l : k_subset n 0 n l -> forall v, 0 <= v < n -> In v l.
Proof.
  intros (A & B & C) v H. apply SSorted_NoDup in B.
  assert (I : incl (zseq (Z.to_nat n)) l).
  { apply NoDup_length_incl; [exact B|rewrite zseq_length; lia|]. intros x X. rewrite Forall_forall in C.
    apply in_zseq. specialize (C x X). lia. }
  apply I, in_zseq. lia.
Qed.

(** The generator. *)
Lemma lcg_range x : 0 <= lcg x < two48. Proof. apply Z.mod_pos_bound. reflexivity. Qed.
Lemma rnd_stream_valid x : valid_stream (rnd_stream x).
Proof. intros n. unfold rnd_stream. cbn [Nat.iter nat_rect]. apply lcg_range. Qed.
