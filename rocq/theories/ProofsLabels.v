From Verif Require Export ModelLabels SpecLabels ProofsImage ProofsDec.
From Coq Require Import ZifyBool ZifyNat Psatz.
Local Open Scope Z_scope.

(** ** bits *)
Fixpoint enc (l : list Z) : Z := match l with [] => 0 | b :: l => b + 2 * enc l end.
Definition bits01 (l : list Z) : Prop := Forall (fun b => b = 0 \/ b = 1) l.

Lemma enc_bound l : bits01 l -> 0 <= enc l < 2 ^ Z.of_nat (length l).
Proof.
  induction 1 as [|b l Hb H IH]; [simpl; lia|]. cbn [enc length].
  rewrite Nat2Z.inj_succ, Z.pow_succ_r by lia. lia.
Qed.
Lemma enc_testbit l j : bits01 l -> Z.testbit (enc l) (Z.of_nat j) = (nth j l 0 =? 1).
Proof.
  intros H; revert j; induction H as [|b l Hb H IH]; intros j.
  - rewrite Z.bits_0. destruct j; reflexivity.
  - cbn [enc]. destruct j as [|j].
    + simpl nth. destruct Hb as [-> | ->].
      * rewrite Z.add_0_l. apply Z.testbit_even_0.
      * replace (1 + 2 * enc l) with (2 * enc l + 1) by lia. apply Z.testbit_odd_0.
    + cbn [nth]. rewrite <- IH. rewrite Nat2Z.inj_succ. destruct Hb as [-> | ->].
      * rewrite Z.add_0_l. apply Z.testbit_even_succ; lia.
      * replace (1 + 2 * enc l) with (2 * enc l + 1) by lia. apply Z.testbit_odd_succ; lia.
Qed.

(** ** stacks *)
Definition column (s : stack) (y x : Z) : list Z := map (fun e => px 0 e y x) (chans s).

Lemma column01 s y x : binary_stack s -> bits01 (column s y x).
Proof.
  intros H. apply Forall_forall. intros b Hb. apply in_map_iff in Hb. destruct Hb as (e & <- & He). apply H; exact He.
Qed.
Lemma nth_column s y x k : nth k (column s y x) 0 = px 0 (nth k (chans s) (tab (s_h s) (s_w s) (fun _ _ => 0))) y x.
Proof.
  unfold column. destruct (Nat.lt_ge_cases k (length (chans s))) as [L|L].
  - rewrite (nth_indep _ 0 (px 0 (tab (s_h s) (s_w s) (fun _ _ => 0)) y x)) by (rewrite map_length; exact L).
    exact (map_nth (fun e => px 0 e y x) _ _ _).
  - rewrite !nth_overflow by (rewrite ?map_length; exact L). rewrite px_tab. destruct (inb _ _ _ _); reflexivity.
Qed.

(** Two stacks of the same shape with equal pixels are equal. *)
Lemma stack_ext a b : wf_stack a -> wf_stack b -> s_h a = s_h b -> s_w a = s_w b ->
  length (chans a) = length (chans b) ->
  (forall k y x, (k < length (chans a))%nat -> inb (s_h a) (s_w a) y x = true ->
     px 0 (nth k (chans a) (tab 0 0 (fun _ _ => 0))) y x = px 0 (nth k (chans b) (tab 0 0 (fun _ _ => 0))) y x) -> a = b.
Proof.
  intros Wa Wb Hh Hw L H. destruct a as [ha wa ca], b as [hb wb cb]; simpl in *; subst hb wb. f_equal.
  apply nth_ext_eq with (d := tab 0 0 (fun _ _ => 0)); [exact L|].
  intros k Hk. destruct (Wa (nth k ca (tab 0 0 (fun _ _ => 0))) ltac:(apply nth_In; exact Hk)) as (A1 & A2 & A3).
  destruct (Wb (nth k cb (tab 0 0 (fun _ _ => 0))) ltac:(apply nth_In; simpl; lia)) as (B1 & B2 & B3). simpl in *.
  apply img_ext with (d := 0); auto.
  - split; congruence.
  - intros y x E. apply H; [exact Hk|]. rewrite A2, A3 in E. exact E.
Qed.

(** ** default encoding *)
Lemma wrap_small b v : 0 <= v < 2 ^ b -> wrap b v = v.
Proof. intros H. apply Z.mod_small; exact H. Qed.

Lemma prod_ok k v : v = 0 \/ v = 1 -> wrapo (prod_bits k) (2 ^ Z.of_nat k * v) = 2 ^ Z.of_nat k * v.
Proof.
  intros H. unfold prod_bits.
  assert (P : 0 < 2 ^ Z.of_nat k) by (apply Z.pow_pos_nonneg; lia).
  assert (M : forall b, Z.of_nat k < b -> wrapo (Some b) (2 ^ Z.of_nat k * v) = 2 ^ Z.of_nat k * v).
  { intros b Hb. apply wrap_small. pose proof (Z.pow_lt_mono_r 2 (Z.of_nat k) b ltac:(lia) ltac:(lia) Hb). nia. }
  destruct (Nat.ltb_spec k 8); [apply M; lia|]. destruct (Nat.ltb_spec k 16); [apply M; lia|].
  destruct (Nat.ltb_spec k 32); [apply M; lia|]. destruct (Nat.ltb_spec k 64); [apply M; lia|]. reflexivity.
Qed.
Lemma acc_ok k v : 0 <= v < 2 ^ Z.of_nat (S k) -> wrapo (acc_bits k) v = v.
Proof.
  intros H. unfold acc_bits.
  assert (M : forall b, Z.of_nat (S k) <= b -> wrapo (Some b) v = v).
  { intros b Hb. apply wrap_small. pose proof (Z.pow_le_mono_r 2 (Z.of_nat (S k)) b ltac:(lia) Hb). lia. }
  destruct (Nat.ltb_spec k 32); [apply M; lia|]. destruct (Nat.ltb_spec k 64); [apply M; lia|]. reflexivity.
Qed.

Lemma default_loop_px h w y x l : inb h w y x = true -> forall k acc,
  (forall e, In e l -> px 0 e y x = 0 \/ px 0 e y x = 1) ->
  0 <= px 0 acc y x < 2 ^ Z.of_nat k ->
  px 0 (default_loop h w k l acc) y x = px 0 acc y x + 2 ^ Z.of_nat k * enc (map (fun e => px 0 e y x) l).
Proof.
  intros I. induction l as [|e l IH]; intros k acc H B; cbn [default_loop map enc]; [lia|].
  assert (E : px 0 (add_scaled h w (prod_bits k) (acc_bits k) k acc e) y x = px 0 acc y x + 2 ^ Z.of_nat k * px 0 e y x).
  { unfold add_scaled. rewrite px_tab, I.
    rewrite prod_ok by (apply H; left; reflexivity). apply acc_ok.
    rewrite Nat2Z.inj_succ, Z.pow_succ_r by lia. destruct (H e (or_introl eq_refl)) as [->| ->]; lia. }
  rewrite IH.
  - rewrite E. rewrite Nat2Z.inj_succ, Z.pow_succ_r by lia. lia.
  - intros e' He'; apply H; right; exact He'.
  - rewrite E, Nat2Z.inj_succ, Z.pow_succ_r by lia. destruct (H e (or_introl eq_refl)) as [->| ->]; lia.
Qed.
Lemma default_loop_wf h w l : forall k acc, wf acc -> ht acc = h -> wd acc = w ->
  wf (default_loop h w k l acc) /\ ht (default_loop h w k l acc) = h /\ wd (default_loop h w k l acc) = w.
Proof.
  induction l as [|e l IH]; intros k acc H1 H2 H3; cbn [default_loop]; [auto|].
  apply IH; [apply wf_tab|reflexivity|reflexivity].
Qed.
Lemma default_encoding_px s y x : binary_stack s -> inb (s_h s) (s_w s) y x = true ->
  px 0 (default_multilabel_encoding s) y x = enc (column s y x).
Proof.
  intros H I. unfold default_multilabel_encoding. rewrite default_loop_px; try exact I.
  - rewrite px_tab, I. unfold column. change (2 ^ Z.of_nat 0) with 1. lia.
  - intros e He. apply H; exact He.
  - rewrite px_tab, I. simpl. lia.
Qed.
Lemma default_encoding_wf s : wf (default_multilabel_encoding s) /\
  ht (default_multilabel_encoding s) = s_h s /\ wd (default_multilabel_encoding s) = s_w s.
Proof. apply default_loop_wf; [apply wf_tab|reflexivity|reflexivity]. Qed.


Lemma resized_same s : resized (length (chans s)) s = s.
Proof. destruct s as [h w c]. unfold resized; simpl. f_equal. apply map_nth_seq. Qed.
Lemma map_seq_nth {A} (f : nat -> A) n k d : (k < n)%nat -> nth k (map f (seq 0 n)) d = f k.
Proof.
  intros H. rewrite (nth_indep _ d (f 0%nat)) by (rewrite map_length, seq_length; exact H).
  rewrite map_nth, seq_nth by exact H. reflexivity.
Qed.
Lemma map_zseq_nth {A} (f : Z -> A) n k d : (k < n)%nat -> nth k (map f (zseq n)) d = f (Z.of_nat k).
Proof.
  intros H. unfold zseq. rewrite map_map. apply (map_seq_nth (fun k => f (Z.of_nat k))); exact H.
Qed.
Lemma wf_resized n s : wf_stack s -> wf_stack (resized n s).
Proof.
  intros W e He. apply in_map_iff in He. destruct He as (k & <- & Hk). simpl.
  destruct (Nat.lt_ge_cases k (length (chans s))) as [L|L].
  - apply W, nth_In, L.
  - rewrite nth_overflow by exact L. split; [apply wf_tab|]. auto.
Qed.

Lemma z01 v : v = 0 \/ v = 1 -> b2z (v =? 1) = v.
Proof. intros [->| ->]; reflexivity. Qed.

Lemma decode_tif_default s n : wf_stack s -> binary_stack s -> 0 <= n ->
  exists r, decode_tif (default_multilabel_encoding s) n = Ok r /\ wf_stack r /\ s_h r = s_h s /\ s_w r = s_w s /\
    length (chans r) = Z.to_nat n /\
    forall k y x, (k < Z.to_nat n)%nat -> inb (s_h s) (s_w s) y x = true ->
      px 0 (nth k (chans r) (tab 0 0 (fun _ _ => 0))) y x =
      if Nat.ltb k 32 then nth k (column s y x) 0 else 0.
Proof.
  intros W H Hn. unfold decode_tif. replace (0 <=? n) with true by lia. replace (n <? 0) with false by lia.
  destruct (default_encoding_wf s) as (W0 & Hh & Hw). rewrite Hh, Hw.
  eexists; split; [reflexivity|]. cbn [s_h s_w chans].
  split; [|split; [reflexivity|split; [reflexivity|split; [rewrite map_length, zseq_length; reflexivity|]]]].
  - intros e He. apply in_map_iff in He. destruct He as (k & <- & _). split; [apply wf_tab|split; reflexivity].
  - intros k y x Hk I. rewrite map_zseq_nth by exact Hk. rewrite px_tab, I.
    destruct (Nat.ltb_spec k 32) as [L|L].
    + replace (Z.of_nat k <? 32) with true by lia. rewrite default_encoding_px by assumption.
      unfold wrap. rewrite Z.mod_pow2_bits_low by lia.
      rewrite enc_testbit by (apply column01; exact H). apply z01.
      destruct (Nat.lt_ge_cases k (length (column s y x))) as [L'|L'].
      * pose proof (column01 s y x H) as F. unfold bits01 in F. rewrite Forall_forall in F. apply F, nth_In, L'.
      * left. apply nth_overflow; exact L'.
    + replace (Z.of_nat k <? 32) with false by lia. reflexivity.
Qed.

(** ** RGB encoding *)
Lemma rgb_loop_px h w l : forall k b g r, (k + length l <= 24)%nat ->
  exists b' g' r', rgb_loop h w k l b g r = Ok (b', g', r') /\
  forall y x, inb h w y x = true -> (forall e, In e l -> px 0 e y x = 0 \/ px 0 e y x = 1) ->
    0 <= px 0 b y x < 2 ^ Z.of_nat (Nat.min k 8) ->
    0 <= px 0 g y x < 2 ^ Z.of_nat (Nat.min k 16 - 8) ->
    0 <= px 0 r y x < 2 ^ Z.of_nat (Nat.min k 24 - 16) ->
    (0 <= px 0 b' y x < 256 /\ 0 <= px 0 g' y x < 256 /\ 0 <= px 0 r' y x < 256) /\
    px 0 b' y x + 256 * px 0 g' y x + 65536 * px 0 r' y x =
    px 0 b y x + 256 * px 0 g y x + 65536 * px 0 r y x + 2 ^ Z.of_nat k * enc (map (fun e => px 0 e y x) l).
Proof.
  induction l as [|e l IH]; intros k b g r Hk.
  - exists b, g, r. split; [reflexivity|]. intros y x I _ B G R. cbn [map enc]. split; [|lia].
    assert (M : forall m, (m <= 8)%nat -> 2 ^ Z.of_nat m <= 256)
      by (intros m Hm; change 256 with (2 ^ 8); apply Z.pow_le_mono_r; lia).
    pose proof (M (Nat.min k 8) ltac:(lia)). pose proof (M (Nat.min k 16 - 8)%nat ltac:(lia)).
    pose proof (M (Nat.min k 24 - 16)%nat ltac:(simpl in Hk; lia)). lia.
  - assert (S1 : forall m acc y x, (m < 8)%nat -> inb h w y x = true -> (px 0 e y x = 0 \/ px 0 e y x = 1) ->
      0 <= px 0 acc y x < 2 ^ Z.of_nat m ->
      px 0 (add_scaled h w (Some 8) (Some 8) m acc e) y x = px 0 acc y x + 2 ^ Z.of_nat m * px 0 e y x /\
      0 <= px 0 acc y x + 2 ^ Z.of_nat m * px 0 e y x < 2 ^ Z.of_nat (S m)).
    { intros m acc y x Hm I He Ha. unfold add_scaled. rewrite px_tab, I. cbn [wrapo].
      assert (P : 0 < 2 ^ Z.of_nat m) by (apply Z.pow_pos_nonneg; lia).
      assert (Q : 2 * 2 ^ Z.of_nat m <= 256)
        by (rewrite <- Z.pow_succ_r by lia; change 256 with (2 ^ 8); apply Z.pow_le_mono_r; lia).
      rewrite Nat2Z.inj_succ, Z.pow_succ_r by lia. change (2 ^ 8) with 256 in *.
      rewrite (wrap_small 8 (2 ^ Z.of_nat m * px 0 e y x)) by (change (2 ^ 8) with 256; destruct He as [->| ->]; lia).
      rewrite wrap_small by (change (2 ^ 8) with 256; destruct He as [->| ->]; lia).
      split; [reflexivity|]. destruct He as [->| ->]; lia. }
    cbn [length] in Hk. cbn [rgb_loop].
    destruct (Nat.ltb_spec k 8) as [L1|L1]; [|destruct (Nat.ltb_spec k 16) as [L2|L2]; [|destruct (Nat.ltb_spec k 24) as [L3|L3]; [|lia]]].
    + destruct (IH (S k) (add_scaled h w (Some 8) (Some 8) k b e) g r ltac:(lia)) as (b' & g' & r' & E & P).
      exists b', g', r'. split; [exact E|]. intros y x I He B G R.
      replace (Nat.min k 8) with k in B by lia.
      destruct (S1 k b y x L1 I (He e (or_introl eq_refl)) B) as [V1 V2].
      destruct (P y x I ltac:(intros; apply He; right; assumption)) as [P1 P2].
      * rewrite V1. replace (Nat.min (S k) 8) with (S k) by lia. exact V2.
      * replace (Nat.min (S k) 16 - 8)%nat with (Nat.min k 16 - 8)%nat by lia. exact G.
      * replace (Nat.min (S k) 24 - 16)%nat with (Nat.min k 24 - 16)%nat by lia. exact R.
      * split; [exact P1|]. rewrite P2, V1. cbn [map enc]. rewrite Nat2Z.inj_succ, Z.pow_succ_r by lia. lia.
    + destruct (IH (S k) b (add_scaled h w (Some 8) (Some 8) (k - 8) g e) r ltac:(lia)) as (b' & g' & r' & E & P).
      exists b', g', r'. split; [exact E|]. intros y x I He B G R.
      replace (Nat.min k 16 - 8)%nat with (k - 8)%nat in G by lia.
      destruct (S1 (k - 8)%nat g y x ltac:(lia) I (He e (or_introl eq_refl)) G) as [V1 V2].
      destruct (P y x I ltac:(intros; apply He; right; assumption)) as [P1 P2].
      * replace (Nat.min (S k) 8) with (Nat.min k 8) by lia. exact B.
      * rewrite V1. replace (Nat.min (S k) 16 - 8)%nat with (S (k - 8)) by lia. exact V2.
      * replace (Nat.min (S k) 24 - 16)%nat with (Nat.min k 24 - 16)%nat by lia. exact R.
      * split; [exact P1|]. rewrite P2, V1. cbn [map enc]. rewrite Nat2Z.inj_succ, Z.pow_succ_r by lia.
        replace (2 ^ Z.of_nat k) with (256 * 2 ^ Z.of_nat (k - 8))
          by (change 256 with (2 ^ 8); rewrite <- Z.pow_add_r by lia; f_equal; lia). lia.
    + destruct (IH (S k) b g (add_scaled h w (Some 8) (Some 8) (k - 16) r e) ltac:(lia)) as (b' & g' & r' & E & P).
      exists b', g', r'. split; [exact E|]. intros y x I He B G R.
      replace (Nat.min k 24 - 16)%nat with (k - 16)%nat in R by lia.
      destruct (S1 (k - 16)%nat r y x ltac:(lia) I (He e (or_introl eq_refl)) R) as [V1 V2].
      destruct (P y x I ltac:(intros; apply He; right; assumption)) as [P1 P2].
      * replace (Nat.min (S k) 8) with (Nat.min k 8) by lia. exact B.
      * replace (Nat.min (S k) 16 - 8)%nat with (Nat.min k 16 - 8)%nat by lia. exact G.
      * rewrite V1. replace (Nat.min (S k) 24 - 16)%nat with (S (k - 16)) by lia. exact V2.
      * split; [exact P1|]. rewrite P2, V1. cbn [map enc]. rewrite Nat2Z.inj_succ, Z.pow_succ_r by lia.
        replace (2 ^ Z.of_nat k) with (65536 * 2 ^ Z.of_nat (k - 16))
          by (change 65536 with (2 ^ 16); rewrite <- Z.pow_add_r by lia; f_equal; lia). lia.
Qed.
Lemma rgb_loop_err h w l : forall k b g r, (k <= 24)%nat -> (24 < k + length l)%nat -> rgb_loop h w k l b g r = Err ValueError.
Proof.
  induction l as [|e l IH]; intros k b g r H1 H2; simpl in H2; [lia|]. cbn [rgb_loop].
  destruct (Nat.ltb_spec k 8); [apply IH; lia|]. destruct (Nat.ltb_spec k 16); [apply IH; lia|].
  destruct (Nat.ltb_spec k 24); [apply IH; lia|]. reflexivity.
Qed.

Lemma rgb_ok s : (length (chans s) <= 24)%nat -> exists im, rgb_multilabel_encoding s = Ok im /\
  g_h im = s_h s /\ g_w im = s_w s /\
  (binary_stack s -> forall y x, inb (s_h s) (s_w s) y x = true ->
    (0 <= px 0 (ch_b im) y x < 256 /\ 0 <= px 0 (ch_g im) y x < 256 /\ 0 <= px 0 (ch_r im) y x < 256) /\
    px 0 (ch_b im) y x + 256 * px 0 (ch_g im) y x + 65536 * px 0 (ch_r im) y x = enc (column s y x)).
Proof.
  intros L. unfold rgb_multilabel_encoding. set (z := tab _ _ _).
  destruct (rgb_loop_px (s_h s) (s_w s) (chans s) 0 z z z ltac:(lia)) as (b & g & r & E & P).
  rewrite E. cbn [bind]. eexists; split; [reflexivity|]. cbn [g_h g_w ch_b ch_g ch_r].
  split; [reflexivity|]. split; [reflexivity|]. intros H y x I.
  assert (Z0 : px 0 z y x = 0) by (unfold z; rewrite px_tab, I; reflexivity).
  destruct (P y x I) as [P1 P2]; rewrite ?Z0; try (simpl; lia).
  - intros e He. apply H; exact He.
  - split; [exact P1|]. rewrite P2, Z0. unfold column. change (2 ^ Z.of_nat 0) with 1. lia.
Qed.

Lemma slice_rev_png n : 0 <= n -> slice_rev 24 (- (n + 1)) = map (fun j => 23 - j) (zseq (Nat.min (Z.to_nat n) 24)).
Proof.
  intros H. unfold slice_rev. replace (- (n + 1) <? 0) with true by lia.
  replace (Z.to_nat (24 - 1 - Z.max (- (n + 1) + 24) (-1))) with (Nat.min (Z.to_nat n) 24) by lia.
  reflexivity.
Qed.

Lemma testbit_low a b n j : 0 <= j < n -> 0 <= a < 2 ^ n -> Z.testbit (a + 2 ^ n * b) j = Z.testbit a j.
Proof.
  intros Hj Ha. rewrite <- (Z.mod_pow2_bits_low (a + 2 ^ n * b) n j) by lia.
  rewrite Z.mul_comm, Z.mod_add, Z.mod_small by lia. reflexivity.
Qed.
Lemma testbit_high a b n j : 0 <= j -> 0 <= n -> 0 <= a < 2 ^ n -> Z.testbit (a + 2 ^ n * b) (n + j) = Z.testbit b j.
Proof.
  intros Hj Hn Ha. rewrite (Z.add_comm n j). rewrite <- Z.div_pow2_bits by lia.
  rewrite (Z.mul_comm (2 ^ n) b), Z.div_add, Z.div_small by lia. reflexivity.
Qed.

Lemma png_bit_column s im k y x : rgb_multilabel_encoding s = Ok im -> binary_stack s ->
  inb (s_h s) (s_w s) y x = true -> (k < 24)%nat ->
  png_bit im (23 - Z.of_nat k) y x = nth k (column s y x) 0.
Proof.
  intros E H I Hk.
  assert (L : (length (chans s) <= 24)%nat).
  { destruct (Nat.le_gt_cases (length (chans s)) 24); [assumption|].
    unfold rgb_multilabel_encoding in E. rewrite rgb_loop_err in E by lia. discriminate. }
  destruct (rgb_ok s L) as (im' & E' & _ & _ & P). rewrite E in E'. injection E' as <-.
  destruct (P H y x I) as [(B & G & R) V].
  assert (T : nth k (column s y x) 0 = b2z (Z.testbit (enc (column s y x)) (Z.of_nat k))).
  { rewrite enc_testbit by (apply column01; exact H). symmetry; apply z01.
    destruct (Nat.lt_ge_cases k (length (column s y x))) as [L'|L'].
    * pose proof (column01 s y x H) as F. unfold bits01 in F. rewrite Forall_forall in F. apply F, nth_In, L'.
    * left. apply nth_overflow; exact L'. }
  rewrite T, <- V. unfold png_bit. f_equal.
  replace (px 0 (ch_b im) y x + 256 * px 0 (ch_g im) y x + 65536 * px 0 (ch_r im) y x)
    with (px 0 (ch_b im) y x + 2 ^ 8 * (px 0 (ch_g im) y x + 2 ^ 8 * px 0 (ch_r im) y x)) by (change (2 ^ 8) with 256; lia).
  change 256 with (2 ^ 8) in B, G, R.
  destruct (Nat.lt_ge_cases k 8) as [L1|L1]; [|destruct (Nat.lt_ge_cases k 16) as [L2|L2]].
  - replace (23 - Z.of_nat k <? 8) with false by lia. replace (23 - Z.of_nat k <? 16) with false by lia.
    replace ((23 - Z.of_nat k) mod 8) with (7 - Z.of_nat k) by (apply Z.mod_unique with 2; lia).
    rewrite testbit_low by lia. f_equal. lia.
  - replace (23 - Z.of_nat k <? 8) with false by lia. replace (23 - Z.of_nat k <? 16) with true by lia.
    replace ((23 - Z.of_nat k) mod 8) with (15 - Z.of_nat k) by (apply Z.mod_unique with 1; lia).
    replace (Z.of_nat k) with (8 + (Z.of_nat k - 8)) at 2 by lia.
    rewrite testbit_high by lia. rewrite testbit_low by lia. f_equal. lia.
  - replace (23 - Z.of_nat k <? 8) with true by lia.
    replace ((23 - Z.of_nat k) mod 8) with (23 - Z.of_nat k) by (apply Z.mod_unique with 0; lia).
    replace (Z.of_nat k) with (8 + (8 + (Z.of_nat k - 16))) at 2 by lia.
    rewrite testbit_high by lia. rewrite testbit_high by lia. f_equal. lia.
Qed.

Lemma decode_png_spec s im n : wf_stack s -> binary_stack s -> rgb_multilabel_encoding s = Ok im -> 0 <= n ->
  decode_png im n = resized (Nat.min (Z.to_nat n) 24) s.
Proof.
  intros W H E Hn. pose proof E as E0.
  assert (S : g_h im = s_h s /\ g_w im = s_w s).
  { unfold rgb_multilabel_encoding in E. destruct (rgb_loop _ _ _ _ _ _ _) as [[[b g] r]|]; [|discriminate].
    injection E as <-. auto. }
  destruct S as [Sh Sw].
  apply stack_ext; unfold decode_png; rewrite ?Sh, ?Sw; cbn [s_h s_w chans resized].
  - intros e He. cbn [chans s_h s_w] in *. apply in_map_iff in He. destruct He as (k & <- & _).
    split; [apply wf_tab|split; reflexivity].
  - apply wf_resized; exact W.
  - reflexivity.
  - reflexivity.
  - rewrite slice_rev_png by exact Hn. rewrite !map_length, zseq_length, seq_length. reflexivity.
  - intros k y x Hk I. rewrite slice_rev_png in * by exact Hn. rewrite map_map in *.
    rewrite !map_length, zseq_length in Hk.
    rewrite map_zseq_nth by exact Hk. rewrite map_seq_nth by exact Hk. rewrite px_tab, I.
    rewrite <- nth_column. apply png_bit_column; auto. lia.
Qed.

Lemma decode_tif_spec s n : wf_stack s -> binary_stack s -> 0 <= n -> (length (chans s) <= 32)%nat ->
  decode_tif (imap view_int32 (default_multilabel_encoding s)) n = Ok (resized (Z.to_nat n) s) /\
  decode_tif (default_multilabel_encoding s) n = Ok (resized (Z.to_nat n) s).
Proof.
  intros W H Hn L.
  assert (X : decode_tif (default_multilabel_encoding s) n = Ok (resized (Z.to_nat n) s)).
  { destruct (decode_tif_default s n W H Hn) as (r & -> & Wr & Hh & Hw & Lr & P). f_equal.
    apply stack_ext; auto.
    - apply wf_resized; exact W.
    - simpl. rewrite map_length, seq_length. exact Lr.
    - intros k y x Hk I. rewrite Lr in Hk. rewrite Hh, Hw in I. rewrite P by assumption.
      simpl. rewrite map_seq_nth by exact Hk. rewrite <- nth_column.
      destruct (Nat.ltb_spec k 32); [reflexivity|]. symmetry; apply nth_overflow.
      unfold column; rewrite map_length; lia. }
  split; [|exact X]. rewrite <- X. unfold decode_tif. destruct (_ <? 0); [reflexivity|]. do 2 f_equal.
  apply map_ext_in. intros k _. apply tab_ext. intros y x I. destruct (k <? 32); [|reflexivity].
  f_equal. f_equal. change 0 with (view_int32 0) at 1. rewrite px_imap. unfold wrap, view_int32.
  destruct (_ <? 2 ^ 31); [reflexivity|].
  replace (px 0 (default_multilabel_encoding s) y x - 2 ^ 32) with (px 0 (default_multilabel_encoding s) y x + (-1) * 2 ^ 32) by lia.
  apply Z.mod_add. lia.
Qed.

(** ** label maps *)
Lemma dict_fold_px h w (d : dict) (key : Z -> Z -> Z) (val : Z -> Z) y x : inb h w y x = true ->
  forall acc,
  px 0 (fold_left (fun acc kv => tab h w (fun y x => if key y x =? fst kv then val (snd kv) else px 0 acc y x)) d acc) y x
  = fold_left (fun a kv => if key y x =? fst kv then val (snd kv) else a) d (px 0 acc y x).
Proof.
  intros I. induction d as [|kv d IH]; intros acc; cbn [fold_left]; [reflexivity|].
  rewrite IH, px_tab, I. reflexivity.
Qed.
Lemma fold_last {V} (k : Z) (val : Z -> V) (d : dict) : NoDup (map fst d) -> forall a,
  (forall v, In (k, v) d -> fold_left (fun a kv => if k =? fst kv then val (snd kv) else a) d a = val v) /\
  (~ In k (map fst d) -> fold_left (fun a kv => if k =? fst kv then val (snd kv) else a) d a = a).
Proof.
  induction d as [|[k' v'] d IH]; intros N a; cbn [fold_left map fst snd].
  - split; [intros v []|reflexivity].
  - inversion N as [|? ? N1 N2]; subst. simpl in N1. split.
    + intros v [E|Hv].
      * injection E as -> ->. rewrite Z.eqb_refl. apply IH; assumption.
      * destruct (Z.eqb_spec k k') as [->|_].
        -- exfalso. apply N1. apply in_map_iff. exists (k', v); auto.
        -- apply IH; assumption.
    + intros Hk. destruct (Z.eqb_spec k k') as [->|_]; [exfalso; apply Hk; left; reflexivity|].
      apply IH; [exact N2|]. intros C; apply Hk; right; exact C.
Qed.

Lemma mask_label2trainId_px mask d y x : NoDup (map fst d) -> inb (ht mask) (wd mask) y x = true ->
  (forall t, In (px 0 mask y x, t) d -> px 0 (mask_label2trainId mask d) y x = t mod 256) /\
  (~ In (px 0 mask y x) (map fst d) -> px 0 (mask_label2trainId mask d) y x = 255).
Proof.
  intros N I. unfold mask_label2trainId.
  rewrite (dict_fold_px _ _ d (fun y x => px 0 mask y x) (wrap 8) y x I). rewrite px_tab, I.
  apply (fold_last (px 0 mask y x) (wrap 8) d N 255).
Qed.
Lemma mask_label2trainId_shape mask d : wf (mask_label2trainId mask d) /\
  ht (mask_label2trainId mask d) = ht mask /\ wd (mask_label2trainId mask d) = wd mask.
Proof.
  unfold mask_label2trainId. set (f := fun acc kv => _).
  assert (G : forall d acc, wf acc /\ ht acc = ht mask /\ wd acc = wd mask ->
    wf (fold_left f d acc) /\ ht (fold_left f d acc) = ht mask /\ wd (fold_left f d acc) = wd mask).
  { clear. induction d as [|kv d IH]; intros acc H; cbn [fold_left]; [exact H|]. apply IH.
    unfold f. split; [apply wf_tab|split; reflexivity]. }
  apply G. split; [apply wf_tab|split; reflexivity].
Qed.

(** ** edge_label2trainId *)
Lemma set_nth_length {A} (l : list A) i a : length (set_nth l i a) = length l.
Proof.
  unfold set_nth. rewrite app_length, firstn_length. pose proof (skipn_length i l) as E.
  destruct (skipn i l); simpl in *; lia.
Qed.
Lemma nth_set_nth {A} (l : list A) i a d j : (i < length l)%nat -> nth j (set_nth l i a) d = if Nat.eqb j i then a else nth j l d.
Proof.
  revert i j; induction l as [|b l IH]; intros i j H; [simpl in H; lia|].
  destruct i as [|i].
  - unfold set_nth; simpl. destruct j; reflexivity.
  - unfold set_nth. cbn [firstn skipn app]. destruct j as [|j]; [reflexivity|]. cbn [nth].
    fold (set_nth l i a). simpl in H. rewrite IH by lia. reflexivity.
Qed.

Lemma pyidx_pos n i : 0 <= i < Z.of_nat n -> pyidx n i = Some (Z.to_nat i).
Proof. intros H. unfold pyidx. replace ((0 <=? i) && (i <? Z.of_nat n)) with true by lia. reflexivity. Qed.
Lemma pyidx_range n i k : pyidx n i = Some k -> (k < n)%nat.
Proof.
  unfold pyidx. destruct ((0 <=? i) && (i <? Z.of_nat n)) eqn:E; [intros H; injection H as <-; lia|].
  destruct ((i <? 0) && (- Z.of_nat n <=? i)) eqn:E2; [intros H; injection H as <-; lia|discriminate].
Qed.

Lemma l2t_loop_ok edge d n : (forall l t, In (l, t) d -> 0 <= l < Z.of_nat (length (chans edge)) /\ 0 <= t < Z.of_nat n) ->
  NoDup (map snd d) -> forall acc, length acc = n ->
  exists out, l2t_loop edge d acc = Ok out /\ length out = n /\
   let z := tab (s_h edge) (s_w edge) (fun _ _ => 0) in
   (forall l t, In (l, t) d -> nth (Z.to_nat t) out z = nth (Z.to_nat l) (chans edge) z) /\
   (forall k, (forall l t, In (l, t) d -> Z.to_nat t <> k) -> nth k out z = nth k acc z).
Proof.
  induction d as [|[l t] d IH]; intros R N acc La.
  - exists acc. split; [reflexivity|]. split; [exact La|]. split; [intros ? ? []|auto].
  - cbn [l2t_loop]. destruct (R l t (or_introl eq_refl)) as [Rl Rt].
    rewrite pyidx_pos by exact Rl. rewrite pyidx_pos by (rewrite La; exact Rt).
    cbn [map snd] in N. inversion N as [|? ? N1 N2]; subst.
    set (z := tab (s_h edge) (s_w edge) (fun _ _ => 0)).
    set (acc' := set_nth acc (Z.to_nat t) (nth (Z.to_nat l) (chans edge) z)).
    destruct (IH ltac:(intros; apply R; right; assumption) N2 acc') as (out & E & Lo & P1 & P2).
    { unfold acc'. rewrite set_nth_length. reflexivity. }
    exists out. split; [exact E|]. split; [exact Lo|]. cbv zeta in *. fold z in P1, P2. split.
    + intros l0 t0 [E0|Hin]; [|apply P1; exact Hin]. injection E0 as <- <-.
      rewrite P2.
      * unfold acc'. rewrite nth_set_nth by lia. rewrite Nat.eqb_refl. reflexivity.
      * intros l1 t1 H1 C. apply N1. apply in_map_iff. exists (l1, t1). split; [|exact H1]. simpl.
        destruct (R l1 t1 (or_intror H1)) as [_ R1]. lia.
    + intros k Hk. rewrite P2 by (intros; eapply Hk; right; eassumption).
      unfold acc'. rewrite nth_set_nth by lia.
      destruct (Nat.eqb_spec k (Z.to_nat t)) as [->|]; [|reflexivity]. exfalso. apply (Hk l t (or_introl eq_refl)). reflexivity.
Qed.

(** ** instance packing *)
Lemma pack_id_value c k : 0 <= c -> 0 <= k -> pack_id c k = c * 10 ^ Z.of_nat (Nat.max 3 (length (digits k))) + k.
Proof.
  intros Hc Hk. unfold pack_id. rewrite undigits_app, zfill_length, !undigits_zfill, !undigits_digits by assumption.
  reflexivity.
Qed.
Lemma pack_id_small c k : 0 <= c -> 0 <= k < 1000 -> pack_id c k = c * 1000 + k.
Proof.
  intros Hc Hk. rewrite pack_id_value by lia.
  pose proof (digits_length_upper 3 k ltac:(simpl; lia) ltac:(lia)).
  replace (Nat.max 3 (length (digits k))) with 3%nat by lia. reflexivity.
Qed.


Lemma inst_inner_px seg cat y x cats : inb (ht seg) (wd seg) y x = true -> forall i num out,
  let v := px 0 seg y x in
  px 0 (inst_inner seg cat i num cats out) y x =
  if (i + 1 <=? v) && (v <=? i + Z.of_nat (length cats)) && (nth (Z.to_nat (v - i - 1)) cats (cat + 1) =? cat)
  then pack_id cat (num + rank cat cats (Z.to_nat (v - i - 1))) else px 0 out y x.
Proof.
  intros I. induction cats as [|c cats IH]; intros i num out v; cbn [inst_inner].
  - simpl length. replace ((i + 1 <=? v) && (v <=? i + Z.of_nat 0)) with false by lia. reflexivity.
  - cbn [length]. destruct (Z.eqb_spec cat c) as [<-|Hc].
    + rewrite IH. fold v. destruct (Z.eq_dec v (i + 1)) as [E|E].
      * replace (i + 1 + 1 <=? v) with false by lia. cbn [andb]. rewrite px_tab, I. fold v.
        replace (v =? i + 1) with true by lia. replace (Z.to_nat (v - i - 1)) with 0%nat by lia. cbn [nth].
        rewrite Z.eqb_refl. replace ((i + 1 <=? v) && (v <=? i + Z.of_nat (S (length cats)))) with true by lia.
        cbn [andb]. unfold rank; simpl. f_equal. lia.
      * rewrite px_tab, I. fold v. replace (v =? i + 1) with false by lia.
        destruct (Z.le_gt_cases (i + 1 + 1) v) as [L|L].
        -- replace (i + 1 + 1 <=? v) with true by lia. replace (i + 1 <=? v) with true by lia.
           replace (v <=? i + 1 + Z.of_nat (length cats)) with (v <=? i + Z.of_nat (S (length cats))) by lia.
           replace (Z.to_nat (v - i - 1)) with (S (Z.to_nat (v - (i + 1) - 1))) by lia. cbn [nth].
           destruct (_ && _ && _); [|reflexivity]. f_equal. unfold rank. cbn [firstn filter].
           rewrite Z.eqb_refl. cbn [length]. lia.
        -- replace (i + 1 + 1 <=? v) with false by lia. replace (i + 1 <=? v) with false by lia. reflexivity.
    + rewrite IH. fold v. destruct (Z.eq_dec v (i + 1)) as [E|E].
      * replace (i + 1 + 1 <=? v) with false by lia. cbn [andb].
        replace (Z.to_nat (v - i - 1)) with 0%nat by lia. cbn [nth]. replace (c =? cat) with false by lia.
        rewrite andb_false_r. reflexivity.
      * destruct (Z.le_gt_cases (i + 1 + 1) v) as [L|L].
        -- replace (i + 1 + 1 <=? v) with true by lia. replace (i + 1 <=? v) with true by lia.
           replace (v <=? i + 1 + Z.of_nat (length cats)) with (v <=? i + Z.of_nat (S (length cats))) by lia.
           replace (Z.to_nat (v - i - 1)) with (S (Z.to_nat (v - (i + 1) - 1))) by lia. cbn [nth].
           destruct (_ && _ && _); [|reflexivity]. f_equal. unfold rank. cbn [firstn filter].
           replace (cat =? c) with false by lia. reflexivity.
        -- replace (i + 1 + 1 <=? v) with false by lia. replace (i + 1 <=? v) with false by lia. reflexivity.
Qed.

Lemma convert_inst_px seg inst_cats present y x : inb (ht seg) (wd seg) y x = true -> 
  (forall i, 1 <= px 0 seg y x <= Z.of_nat (length inst_cats) -> i = Z.to_nat (px 0 seg y x - 1) ->
     In (nth i inst_cats 0) present ->
     px 0 (convert_inst_seg seg inst_cats present) y x = pack_id (nth i inst_cats 0) (rank (nth i inst_cats 0) inst_cats i)) /\
  (~ (1 <= px 0 seg y x <= Z.of_nat (length inst_cats) /\ In (nth (Z.to_nat (px 0 seg y x - 1)) inst_cats 0) present) ->
     px 0 (convert_inst_seg seg inst_cats present) y x = 0).
Proof.
  intros I. unfold convert_inst_seg. set (v := px 0 seg y x).
  assert (G : forall present acc,
    let r := px 0 (fold_left (fun out cat => inst_inner seg cat 0 0 inst_cats out) present acc) y x in
    (1 <= v <= Z.of_nat (length inst_cats) /\ In (nth (Z.to_nat (v - 1)) inst_cats 0) present /\
      r = pack_id (nth (Z.to_nat (v - 1)) inst_cats 0) (rank (nth (Z.to_nat (v - 1)) inst_cats 0) inst_cats (Z.to_nat (v - 1)))) \/
    (~ (1 <= v <= Z.of_nat (length inst_cats) /\ In (nth (Z.to_nat (v - 1)) inst_cats 0) present) /\ r = px 0 acc y x)).
  { induction present0 as [|cat present0 IH]; intros acc; cbn [fold_left].
    - right. split; [intros [_ []]|reflexivity].
    - destruct (IH (inst_inner seg cat 0 0 inst_cats acc)) as [(H1 & H2 & H3)|(H1 & H2)].
      + left. split; [exact H1|]. split; [right; exact H2|exact H3].
      + cbv zeta in *. rewrite H2. rewrite inst_inner_px by exact I. fold v. rewrite Z.sub_0_r, !Z.add_0_l.
        destruct ((1 <=? v) && (v <=? Z.of_nat (length inst_cats))) eqn:Ev; cbn [andb].
        * assert (Hn : nth (Z.to_nat (v - 1)) inst_cats (cat + 1) = nth (Z.to_nat (v - 1)) inst_cats 0)
            by (apply nth_indep; lia).
          rewrite Hn. destruct (Z.eqb_spec (nth (Z.to_nat (v - 1)) inst_cats 0) cat) as [E|E].
          -- left. split; [lia|]. split; [left; auto|]. rewrite E. reflexivity.
          -- right. split; [|reflexivity]. intros [C1 [C2|C2]]; [congruence|]. apply H1; auto.
        * right. split; [|reflexivity]. intros [C1 _]. lia. }
  destruct (G present (tab (ht seg) (wd seg) (fun _ _ => 0))) as [(H1 & H2 & H3)|(H1 & H2)]; cbv zeta in *.
  - split.
    + intros i _ -> _. exact H3.
    + intros C. exfalso; apply C; auto.
  - split.
    + intros i C1 -> C2. exfalso; apply H1; auto.
    + intros _. rewrite H2, px_tab, I. reflexivity.
Qed.

(** ** add_ignore_pixel *)
Lemma in_slice_border n b y : 0 <= b -> 0 <= y < n ->
  in_slice n 0 b y || in_slice n (n - b) n y = negb ((b <=? y) && (y <? n - b)).
Proof.
  intros Hb Hy. unfold in_slice, slice_bound. change (0 <? 0) with false. cbv iota.
  replace (b <? 0) with false by lia. replace (n <? 0) with false by lia.
  destruct (Z.ltb_spec (n - b) 0); lia.
Qed.
Lemma add_ignore_px seg b id y x : 0 <= b -> inb (ht seg) (wd seg) y x = true ->
  px 0 (add_ignore_pixel seg b id) y x =
  if (b <=? y) && (y <? Z.of_nat (ht seg) - b) && (b <=? x) && (x <? Z.of_nat (wd seg) - b)
  then px 0 seg y x else id.
Proof.
  intros Hb I. unfold add_ignore_pixel. rewrite px_tab, I. apply inb_spec in I.
  rewrite <- orb_assoc, !in_slice_border by lia.
  destruct ((b <=? y) && (y <? Z.of_nat (ht seg) - b)); cbn [negb orb andb]; [|reflexivity].
  destruct ((b <=? x) && (x <? Z.of_nat (wd seg) - b)); reflexivity.
Qed.
