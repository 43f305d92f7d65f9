(** The per-image routines from the file contents to the counts, at any scale. *)
From Verif Require Export SpecSingle PropertiesEval2 PropertiesNMS2 PropertiesEdges2.
From Verif Require Import ProofsLabels ProofsEdges2.
From Coq Require Import Lia ZifyBool ZifyNat Lqa.
Open Scope Z_scope.
Open Scope list_scope.

(** ** The helpers *)
Theorem scaled_is_rounding : forall n scale, (0 <= scale)%Q -> scaled_size n scale (scaled n scale) /\ forall m, scaled_size n scale m -> m = scaled n scale.
Proof.
  intros n scale Hs. assert (Hn : (0 <= inject_Z (Z.of_nat n))%Q) by (change 0%Q with (inject_Z 0); rewrite <- Zle_Qle; lia).
  assert (Hp : (0 <= inject_Z (Z.of_nat n) * scale)%Q) by (apply Qmult_le_0_compat; assumption).
  unfold scaled_size, scaled, trunc. set (v := (inject_Z (Z.of_nat n) * scale + (1 # 2))%Q) in *.
  assert (Pv : (0 <= v)%Q) by (unfold v; lra).
  destruct (qlt v 0) eqn:A; [apply qlt_spec in A; lra|]. assert (L := Qfloor_le v). assert (U := Qlt_floor v). rewrite inject_Z_plus in U. change (inject_Z 1) with 1%Q in U.
  assert (F : 0 <= Qfloor v).
  { assert (X : (inject_Z 0 < inject_Z (Qfloor v + 1))%Q) by (rewrite inject_Z_plus; change (inject_Z 1) with 1%Q; change (inject_Z 0) with 0%Q; lra).
    rewrite <- Zlt_Qlt in X. lia. }
  rewrite Z2Nat.id by exact F. split; [split; assumption|].
  intros m [A1 A2].
  assert (X : (inject_Z (Z.of_nat m) < inject_Z (Qfloor v + 1))%Q) by (rewrite inject_Z_plus; change (inject_Z 1) with 1%Q; lra).
  assert (Y : (inject_Z (Qfloor v) < inject_Z (Z.of_nat m + 1))%Q) by (rewrite inject_Z_plus; change (inject_Z 1) with 1%Q; lra).
  rewrite <- Zlt_Qlt in X, Y. lia.
Qed.
Print Assumptions scaled_is_rounding.

Theorem resize_resamples : forall (im : image Z) h w, (0 < ht im)%nat -> (0 < wd im)%nat -> resampled 0 im h w (resize 0 h w im).
Proof.
  intros im h w Hh Hw. split; [apply wf_tab|]. split; [reflexivity|]. split; [reflexivity|]. intros y x I.
  exists (nearest (ht im) h y), (nearest (wd im) w x). assert (I' := I). apply inb_spec in I'.
  destruct (nearest_samples_the_input (ht im) h y Hh ltac:(lia)) as (A & _ & _ & A2).
  destruct (nearest_samples_the_input (wd im) w x Hw ltac:(lia)) as (B & _ & _ & B2).
  split; [apply inb_spec; lia|]. split; [exact A2|]. split; [exact B2|]. unfold resize. rewrite px_tab, I. reflexivity.
Qed.
Lemma sampled_unique n_in n_out i j j' : (0 < n_out)%nat -> sampled n_in n_out i j -> sampled n_in n_out i j' -> j = j'.
Proof. unfold sampled. intros. nia. Qed.
Theorem resampling_is_unique : forall (im : image Z) h w a b, resampled 0 im h w a -> resampled 0 im h w b -> a = b.
Proof.
  intros im h w a b (Wa & Ha & Va & Ea) (Wb & Hb & Vb & Eb). apply (img_ext 0); [exact Wa|exact Wb|split; congruence|].
  intros y x I. rewrite Ha, Va in I. destruct (Ea y x I) as (y1 & x1 & _ & S1 & S2 & ->). destruct (Eb y x I) as (y2 & x2 & _ & T1 & T2 & ->).
  apply inb_spec in I. f_equal; [apply (sampled_unique (ht im) h y)|apply (sampled_unique (wd im) w x)]; (assumption || lia).
Qed.
Print Assumptions resampling_is_unique.

Lemma unit_range_map im : wf im -> strength_map false im (unit_range im).
Proof.
  intros W. split; [apply wf_imap, W|]. split; [split; reflexivity|]. intros y x I. cbn [andb]. unfold unit_range.
  rewrite (px_imap_in (fun v => inject_Z v / inject_Z 255)%Q 0 0%Q im y x W I). reflexivity.
Qed.
Lemma blank_border_map im : wf im -> strength_map true im (blank_border (unit_range im)).
Proof.
  intros W. assert (U := unit_range_map im W). destruct U as (Wu & _ & U). split; [apply wf_tab|]. split; [split; reflexivity|]. intros y x I.
  specialize (U y x I). cbn [andb] in U. unfold blank_border. rewrite px_tab. cbn [unit_range imap ht wd] in *. rewrite I. cbn [andb].
  apply inb_spec in I. unfold in_slice, slice_bound.
  set (h := Z.of_nat (ht im)) in *. set (w := Z.of_nat (wd im)) in *.
  match goal with |- ((if ?a then _ else _) == (if ?b then _ else _))%Q => replace a with b; [destruct b; [reflexivity|exact U]|] end.
  destruct (0 <? 0) eqn:C1; [lia|]. repeat match goal with |- context [if ?c then _ else _] => destruct c eqn:? end; lia.
Qed.
Lemma maybe_nms_strengths lib border nms im p : wf im -> strength_map border im p -> (nms = true -> (2 <= ht im)%nat /\ (2 <= wd im)%nat) ->
  exists q, maybe_nms lib nms p = Ok q /\ wf q /\ same_shape q im /\ strengths (l_orient lib) (l_cos lib) (l_sin lib) border nms im q.
Proof.
  intros W M H. assert (M' := M). destruct M' as (Wp & [S1 S2] & _). destruct nms.
  - destruct (H eq_refl) as [H1 H2]. destruct (fast_nms_exact (l_orient lib) (l_cos lib) (l_sin lib) (l_f32 lib) (F64 p) p 1 5 (101 # 100) false eq_refl ltac:(lia) ltac:(lia))
      as (sm & bl & out & T1 & T2 & E & Wo & [O1 O2] & K).
    exists out. split; [exact E|]. split; [exact Wo|]. split; [split; congruence|]. exists p. split; [exact M|]. exists sm, bl.
    split; [exact T1|]. split; [exact T2|]. split; [exact Wo|]. split; [split; assumption|exact K].
  - exists p. split; [reflexivity|]. split; [exact Wp|]. split; [split; congruence|]. exists p. split; [exact M|reflexivity].
Qed.

(** Evaluation of one class, in the vocabulary of SpecSingle. *)
Lemma any_true_nonzero gt : wf gt -> any_true (nonzero gt) = any_nonzero gt.
Proof.
  intros W. destruct (any_true (nonzero gt)) eqn:A.
  - apply any_true_spec in A; [|apply wf_imap, W]. destruct A as (y & x & A). destruct (any_nonzero gt) eqn:B; [reflexivity|].
    apply (edge_pixels_nonzero gt W) in A. rewrite (proj1 (any_nonzero_spec gt W) B y x) in A. lia.
  - destruct (any_nonzero gt) eqn:B; [|reflexivity]. symmetry. rewrite <- B. apply any_nonzero_spec; [exact W|]. intros y x.
    destruct (Z.eq_dec (px 0 gt y x) 0) as [|N]; [assumption|]. exfalso. assert (Y : any_true (nonzero gt) = true); [|congruence].
    apply any_true_spec; [apply wf_imap, W|]. exists y, x. apply (edge_pixels_nonzero gt W). exact N.
Qed.
Lemma class_delivers lib ths p q gt g seg max_dist thin (kill : bool) skip nms s :
  maybe_nms lib nms p = Ok q -> wf q -> wf gt -> wf seg -> same_shape q gt -> same_shape gt seg -> binary gt -> edge_pixels gt g ->
  (0 < max_dist)%Q -> ((0 < ht q)%nat \/ (0 < wd q)%nat) -> raw_values s ->
  delivers (fun F P => evaluate_multi_label F P lib ths p gt (if kill then Some (SegBool seg) else None) max_dist thin kill skip nms) s
    (fun c => per_threshold ths c (class_counts thin kill skip q g seg (tolerance2 max_dist g))).
Proof.
  intros En Wq Wg Ws Sq Sg Bg Hg Pd Ne V. assert (Eg := edge_pixels_unique gt g Wg Hg).
  destruct (skip && negb (any_true g)) eqn:K.
  - apply andb_true_iff in K. destruct K as [-> K]. assert (A : any_nonzero gt = false) by (rewrite <- any_true_nonzero, <- Eg by exact Wg; destruct (any_true g); [discriminate|reflexivity]).
    assert (Z0 := proj1 (any_nonzero_spec gt Wg) A). unfold evaluate_multi_label. rewrite A. cbn [andb negb].
    apply (delivers_ext (fun _ _ => ret (to_counts (map (fun _ => mkR4 0 0 0 0) ths)))); [reflexivity|].
    apply delivers_ret; [exact V|]. apply per_threshold_intro. clear -K. induction ths as [|t l IH]; constructor; [|exact IH].
    unfold class_counts. cbn [andb]. rewrite K. cbn [cr sr cp sp]. auto.
  - assert (D : delivers (fun F P => evaluate_multi_label F P lib ths p gt (Some (SegBool seg)) max_dist thin kill false nms) s
      (fun c => per_threshold ths c (class_counts thin kill skip q g seg (tolerance2 max_dist g)))).
    { eapply delivers_weaken; [apply (multi_label_counts lib ths p q gt g seg); assumption|]. intros c (L1 & L2 & L3 & L4 & H).
      split; [exact L1|]. split; [exact L2|]. split; [exact L3|]. split; [exact L4|]. intros i t Et. unfold class_counts. rewrite K. exact (H i t Et). }
    assert (X : forall F P, evaluate_multi_label F P lib ths p gt (if kill then Some (SegBool seg) else None) max_dist thin kill skip nms s =
                            evaluate_multi_label F P lib ths p gt (Some (SegBool seg)) max_dist thin kill false nms s).
    { intros F P. destruct kill; unfold evaluate_multi_label.
      - destruct skip; [|reflexivity]. cbn [andb] in *. rewrite <- any_true_nonzero, <- Eg by exact Wg. destruct (any_true g); [reflexivity|discriminate].
      - destruct skip; [|reflexivity]. cbn [andb] in *. rewrite <- any_true_nonzero, <- Eg by exact Wg. destruct (any_true g); [reflexivity|discriminate]. }
    destruct D as [D1 D2]. split.
    + intros F P. rewrite X. apply D1.
    + destruct D2 as (F & P & a & s' & D2). exists F, P, a, s'. intros f p' Hf Hp. rewrite X. apply D2; assumption.
Qed.

Definition bytes (im : image Z) : Prop := forall y x, 0 <= px 0 im y x < 256.
Lemma png_bit_testbit im k y x : bytes (ch_r im) -> bytes (ch_g im) -> bytes (ch_b im) -> 0 <= k < 24 ->
  png_bit im (23 - k) y x = b2z (Z.testbit (px 0 (ch_b im) y x + 256 * px 0 (ch_g im) y x + 65536 * px 0 (ch_r im) y x) k).
Proof.
  intros R G B Hk. specialize (R y x). specialize (G y x). specialize (B y x). unfold png_bit. f_equal.
  replace (px 0 (ch_b im) y x + 256 * px 0 (ch_g im) y x + 65536 * px 0 (ch_r im) y x)
    with (px 0 (ch_b im) y x + 2 ^ 8 * (px 0 (ch_g im) y x + 2 ^ 8 * px 0 (ch_r im) y x)) by (change (2 ^ 8) with 256; lia).
  change 256 with (2 ^ 8) in B, G, R.
  destruct (Z.lt_ge_cases k 8) as [L1|L1]; [|destruct (Z.lt_ge_cases k 16) as [L2|L2]].
  - replace (23 - k <? 8) with false by lia. replace (23 - k <? 16) with false by lia.
    replace ((23 - k) mod 8) with (7 - k) by (apply Z.mod_unique with 2; lia).
    rewrite testbit_low by lia. f_equal. lia.
  - replace (23 - k <? 8) with false by lia. replace (23 - k <? 16) with true by lia.
    replace ((23 - k) mod 8) with (15 - k) by (apply Z.mod_unique with 1; lia).
    replace k with (8 + (k - 8)) at 2 by lia.
    rewrite testbit_high by lia. rewrite testbit_low by lia. f_equal. lia.
  - replace (23 - k <? 8) with true by lia.
    replace ((23 - k) mod 8) with (23 - k) by (apply Z.mod_unique with 0; lia).
    replace k with (8 + (8 + (k - 16))) at 2 by lia.
    rewrite testbit_high by lia. rewrite testbit_high by lia. f_equal. lia.
Qed.
Lemma resampled_bytes im h w im' : bytes im -> resampled 0 im h w im' -> bytes im'.
Proof.
  intros B (W & H1 & H2 & E) y x. destruct (inb h w y x) eqn:I.
  - destruct (E y x I) as (y' & x' & _ & _ & _ & ->). apply B.
  - rewrite px_out by (rewrite ?H1, ?H2; assumption). lia.
Qed.

(** Stored ground truth (Cityscapes without, SBD with the 5-pixel border), at any scale: the PNG,
    the segmentation and the prediction are resampled to the rounded size; the class is the bit of
    the PNG, the strengths are the bytes over 255, and the counts are those of SpecEval. *)
Theorem stored_evaluation_counts : forall lib border edge seg pred category scale max_dist thr th thin nms kill skip n h w r g b seg' pred' e m s,
  check_thresholds thr = Ok th ->
  rgb_shape edge -> bytes (ch_r edge) -> bytes (ch_g edge) -> bytes (ch_b edge) -> wf seg -> wf pred ->
  (0 < g_h edge)%nat -> (0 < g_w edge)%nat -> (0 < ht seg)%nat -> (0 < wd seg)%nat -> (0 < ht pred)%nat -> (0 < wd pred)%nat ->
  (0 <= scale)%Q -> scaled_size (g_h edge) scale h -> scaled_size (g_w edge) scale w ->
  ((0 < h)%nat \/ (0 < w)%nat) -> (nms = true -> (2 <= h)%nat /\ (2 <= w)%nat) ->
  resampled 0 (ch_r edge) h w r -> resampled 0 (ch_g edge) h w g -> resampled 0 (ch_b edge) h w b ->
  resampled 0 seg h w seg' -> resampled 0 pred h w pred' ->
  1 <= category <= n -> n <= 24 -> class_edges r g b category e -> label_mask seg' (category - 1) m ->
  (0 < max_dist)%Q -> raw_values s ->
  exists q, strengths (l_orient lib) (l_cos lib) (l_sin lib) border nms pred' q /\
  delivers (fun F P => evaluate_single_png F P lib border edge seg pred category scale max_dist thr thin nms kill skip n) s
    (fun c => per_threshold th c (class_counts thin kill skip q e m (tolerance2 max_dist e))).
Proof.
  intros lib border edge seg pred category scale md thr th thin nms kill skip n h w r g b seg' pred' e m s Eth Re Br Bg Bb Ws Wp
    He We Hs Vs Hp Vp Ps Sh Sw Nz Hn Rr Rg Rb Rs Rp Hc H24 Ce Lm Pd V.
  destruct Re as ((R1 & R2) & (G1 & G2) & (B1 & B2)).
  assert (Eh := proj2 (scaled_is_rounding (g_h edge) scale Ps) h Sh). assert (Ew := proj2 (scaled_is_rounding (g_w edge) scale Ps) w Sw).
  assert (Er := resampling_is_unique _ h w r _ Rr (resize_resamples (ch_r edge) h w ltac:(lia) ltac:(lia))).
  assert (Eg := resampling_is_unique _ h w g _ Rg (resize_resamples (ch_g edge) h w ltac:(lia) ltac:(lia))).
  assert (Eb := resampling_is_unique _ h w b _ Rb (resize_resamples (ch_b edge) h w ltac:(lia) ltac:(lia))).
  assert (Es := resampling_is_unique _ h w seg' _ Rs (resize_resamples seg h w ltac:(lia) ltac:(lia))).
  assert (Ep := resampling_is_unique _ h w pred' _ Rp (resize_resamples pred h w ltac:(lia) ltac:(lia))).
  assert (Wp' : wf pred') by apply Rp. assert (Ws' : wf seg') by apply Rs.
  assert (M : strength_map border pred' (if border then blank_border (unit_range pred') else unit_range pred')).
  { destruct border; [apply blank_border_map|apply unit_range_map]; exact Wp'. }
  assert (Hp' : ht pred' = h /\ wd pred' = w) by (split; apply Rp). destruct Hp' as [Hp1 Hp2].
  destruct (maybe_nms_strengths lib border nms pred' _ Wp' M ltac:(rewrite Hp1, Hp2; exact Hn)) as (q & En & Wq & [Q1 Q2] & Sq).
  exists q. split; [exact Sq|].
  set (gt := channel (decode_png (resize_rgb h w edge) n) (category - 1)).
  assert (Lc : length (chans (decode_png (resize_rgb h w edge) n)) = Z.to_nat n).
  { unfold decode_png. cbn [chans]. rewrite slice_rev_png by lia. rewrite !map_length, zseq_length. lia. }
  assert (Egt : category_edge (resize_rgb h w edge) n category = Ok gt) by (unfold category_edge; rewrite chan_at_ok by lia; reflexivity).
  assert (Tgt : gt = tab h w (png_bit (resize_rgb h w edge) (23 - (category - 1)))).
  { unfold gt, channel, decode_png. cbn [chans]. rewrite slice_rev_png by lia. rewrite map_map.
    rewrite map_zseq_nth by lia. cbn [resize_rgb g_h g_w].
    replace (Z.of_nat (Z.to_nat (category - 1))) with (category - 1) by lia. reflexivity. }
  assert (Cr : ch_r (resize_rgb h w edge) = r) by (cbn [resize_rgb ch_r]; congruence).
  assert (Cg : ch_g (resize_rgb h w edge) = g) by (cbn [resize_rgb ch_g]; congruence).
  assert (Cb : ch_b (resize_rgb h w edge) = b) by (cbn [resize_rgb ch_b]; congruence).
  assert (Pgt : forall y x, inb h w y x = true -> px 0 gt y x = b2z (Z.testbit (px 0 b y x + 256 * px 0 g y x + 65536 * px 0 r y x) (category - 1))).
  { intros y x I. rewrite Tgt, px_tab, I. rewrite png_bit_testbit; rewrite ?Cr, ?Cg, ?Cb; [reflexivity| | | |lia].
    - exact (resampled_bytes _ _ _ _ Br Rr).
    - exact (resampled_bytes _ _ _ _ Bg Rg).
    - exact (resampled_bytes _ _ _ _ Bb Rb). }
  assert (Hr : ht r = h /\ wd r = w) by (split; apply Rr). destruct Hr as [Hr1 Hr2].
  assert (Wgt : wf gt) by (rewrite Tgt; apply wf_tab).
  assert (Sgt : ht gt = h /\ wd gt = w) by (rewrite Tgt; split; reflexivity). destruct Sgt as [Sg1 Sg2].
  assert (Bgt : binary gt).
  { intros y x. destruct (inb h w y x) eqn:I.
    - rewrite (Pgt y x I). destruct (Z.testbit _ _); cbn; auto.
    - rewrite px_out by (rewrite ?Sg1, ?Sg2; assumption). auto. }
  assert (Hg : edge_pixels gt e).
  { destruct Ce as (We' & [E1 E2] & Ce). split; [exact We'|]. split; [split; congruence|]. intros y x. rewrite Ce, Hr1, Hr2. destruct (inb h w y x) eqn:I.
    - rewrite (Pgt y x I). destruct (Z.testbit _ _); cbn; split; [lia| auto|intros [_ C]; discriminate|lia].
    - rewrite (px_out 0 gt) by (rewrite ?Sg1, ?Sg2; assumption). split; [intros [C _]; discriminate|lia]. }
  assert (Em : category_seg seg' category = m) by (apply (class_mask_unique seg' (category - 1)); [apply category_seg_mask, Ws'|exact Lm]).
  assert (Hs' : ht seg' = h /\ wd seg' = w) by (split; apply Rs). destruct Hs' as [Hs1 Hs2].
  assert (Wm : wf m /\ ht m = h /\ wd m = w) by (destruct Lm as (Wm & [M1 M2] & _); split; [exact Wm|]; split; congruence).
  destruct Wm as (Wm & M1 & M2).
  eapply (delivers_ext (fun F P => evaluate_multi_label F P lib th (if border then blank_border (unit_range pred') else unit_range pred') gt
    (if kill then Some (SegBool m) else None) md thin kill skip nms)).
  - intros F P. unfold evaluate_single_png. rewrite Eth. cbn [bind]. rewrite <- Eh, <- Ew, Egt. cbn [bind]. rewrite <- Ep, <- Es, Em. reflexivity.
  - apply class_delivers; try assumption; try (split; congruence). rewrite Q1, Q2, Hp1, Hp2. exact Nz.
Qed.
Print Assumptions stored_evaluation_counts.
(** Which data set does what: SBD ignores predictions in the 5 outermost pixels, Cityscapes does not. *)
Theorem sbd_evaluation_counts : forall lib edge seg pred category scale max_dist thr th thin nms kill skip n h w r g b seg' pred' e m s,
  check_thresholds thr = Ok th ->
  rgb_shape edge -> bytes (ch_r edge) -> bytes (ch_g edge) -> bytes (ch_b edge) -> wf seg -> wf pred ->
  (0 < g_h edge)%nat -> (0 < g_w edge)%nat -> (0 < ht seg)%nat -> (0 < wd seg)%nat -> (0 < ht pred)%nat -> (0 < wd pred)%nat ->
  (0 <= scale)%Q -> scaled_size (g_h edge) scale h -> scaled_size (g_w edge) scale w ->
  ((0 < h)%nat \/ (0 < w)%nat) -> (nms = true -> (2 <= h)%nat /\ (2 <= w)%nat) ->
  resampled 0 (ch_r edge) h w r -> resampled 0 (ch_g edge) h w g -> resampled 0 (ch_b edge) h w b ->
  resampled 0 seg h w seg' -> resampled 0 pred h w pred' ->
  1 <= category <= n -> n <= 24 -> class_edges r g b category e -> label_mask seg' (category - 1) m ->
  (0 < max_dist)%Q -> raw_values s ->
  (exists q, strengths (l_orient lib) (l_cos lib) (l_sin lib) true nms pred' q /\
    delivers (fun F P => sbd_eval_single F P lib edge seg pred category scale max_dist thr thin nms kill skip n) s
      (fun c => per_threshold th c (class_counts thin kill skip q e m (tolerance2 max_dist e)))) /\
  (exists q, strengths (l_orient lib) (l_cos lib) (l_sin lib) false nms pred' q /\
    delivers (fun F P => cityscapes_eval_single F P lib edge seg pred category scale max_dist thr thin nms kill skip n) s
      (fun c => per_threshold th c (class_counts thin kill skip q e m (tolerance2 max_dist e)))).
Proof.
  intros. split; unfold sbd_eval_single, cityscapes_eval_single; eapply stored_evaluation_counts; eassumption.
Qed.
Print Assumptions sbd_evaluation_counts.

(** BSDS: several annotators, no rescaling; the strengths are the bytes over 255. *)
Theorem bsds_evaluation_counts : forall lib gts gs pred max_dist thr th thin nms s,
  check_thresholds thr = Ok th -> wf pred -> Forall (fun gt => wf gt /\ binary gt /\ same_shape pred gt) gts -> Forall2 edge_pixels gts gs ->
  ((0 < ht pred)%nat \/ (0 < wd pred)%nat) -> (nms = true -> (2 <= ht pred)%nat /\ (2 <= wd pred)%nat) ->
  (0 < max_dist)%Q -> raw_values s ->
  exists q, strengths (l_orient lib) (l_cos lib) (l_sin lib) false nms pred q /\
  delivers (fun F P => bsds_eval_single F P lib gts pred max_dist thr thin nms) s
    (fun c => per_threshold th c (fun t cr sr cp sp => exists p, predicted thin q t p /\ counted_all p gs (tolerance2 max_dist p) cr sr cp sp)).
Proof.
  intros lib gts gs pred md thr th thin nms s Eth W Hg Hgs Nz Hn Pd V.
  destruct (maybe_nms_strengths lib false nms pred _ W (unit_range_map pred W) Hn) as (q & En & Wq & [Q1 Q2] & Sq).
  exists q. split; [exact Sq|].
  eapply (delivers_ext (fun F P => evaluate_multiple_gts F P lib th (unit_range pred) gts md thin nms)).
  - intros F P. unfold bsds_eval_single. rewrite Eth. reflexivity.
  - apply (multiple_gts_counts lib th (unit_range pred) q gts gs md thin nms s En Wq); try assumption.
    + eapply Forall_impl; [|exact Hg]. intros gt (A & B & [C1 C2]). split; [exact A|]. split; [exact B|]. split; congruence.
    + rewrite Q1, Q2. exact Nz.
Qed.
Print Assumptions bsds_evaluation_counts.

(** The edges of one class of a Cityscapes label image (see cityscapes_semantic_pixels and
    cityscapes_instance_pixels). *)
Definition cityscapes_class_edges (img : image Z) (inst : option (image Z)) (label radius : Z) (e : image bool) : Prop :=
  wf e /\ same_shape e img /\ forall y x, px false e y x = true <-> inb (ht img) (wd img) y x = true /\
    match inst with
    | None => boundary_spec (region img label) (cityscapes_ignored img) radius y x
    | Some i => has_id img label /\
        (boundary_spec (region img label) (cityscapes_ignored img) radius y x \/
         24 <= label /\ exists id, has_id i id /\ id / 1000 = label /\ boundary_spec (region i id) (cityscapes_ignored img) radius y x)
    end.
Lemma otf_edge_shape category inst radius img e : (match inst with None => True | Some i => ht i = ht img /\ wd i = wd img end) ->
  otf_edge category inst radius img = Ok e -> wf e /\ ht e = ht img /\ wd e = wd img.
Proof.
  intros Hi E. unfold otf_edge in E. destruct (trainId2label (category - 1)) as [label|]; [|discriminate]. cbn [bind] in E.
  destruct (mask2onehot img CITYSCAPES_labelIds) as [m|] eqn:Em; [|discriminate]. cbn [bind] in E.
  destruct (onehot_parts _ _ _ Em) as (Wm & _ & Mh & Mw & _).
  assert (C : forall c, chan_at m label = Ok c -> ht c = ht img /\ wd c = wd img).
  { intros c Ec. unfold chan_at in Ec. destruct (pyidx _ label) as [k|] eqn:Ek; [|discriminate]. injection Ec as <-. apply pyidx_range in Ek.
    destruct (Wm _ (nth_In _ (zeros (s_h m) (s_w m)) Ek)) as (_ & A & B). split; congruence. }
  assert (Z0 : forall c : image Z, ht c = ht img /\ wd c = wd img -> wf (zeros (ht c) (wd c)) /\ ht (zeros (ht c) (wd c)) = ht img /\ wd (zeros (ht c) (wd c)) = wd img)
    by (intros c [A B]; split; [apply wf_tab|split; [exact A|exact B]]).
  destruct inst as [i|]; unfold one_label_instance_mask2edge, one_label_mask2edge in E.
  - destruct (negb _); [discriminate|]. destruct (ignore_of m [2; 3]) as [ign|]; [|discriminate]. cbn [bind] in E.
    destruct (match unique i with [] => Ok 0 | _ => sorted_head CITYSCAPES_inst_labelIds end) as [l0|]; [|discriminate]. cbn [bind] in E.
    destruct (build_insts _ _ _) as [insts|]; [|discriminate]. cbn [bind] in E. destruct (chan_at m label) as [c|] eqn:Ec; [|discriminate]. cbn [bind] in E.
    specialize (C c eq_refl). destruct (memZ _ _); [injection E as <-; apply Z0, C|]. destruct (any_nonzero c); [|injection E as <-; apply Z0, C].
    injection E as <-. destruct C as [C1 C2]. destruct Hi as [H1 H2]. destruct (inst_edge_shape i insts ign radius false label c) as (A1 & A2 & A3); [split; congruence|].
    split; [exact A1|split; congruence].
  - destruct (negb _); [discriminate|]. destruct (ignore_of m [2; 3]) as [ign|]; [|discriminate]. cbn [bind] in E.
    destruct (chan_at m label) as [c|] eqn:Ec; [|discriminate]. cbn [bind] in E.
    specialize (C c eq_refl). destruct (memZ _ _); [injection E as <-; apply Z0, C|]. destruct (any_nonzero c); [|injection E as <-; apply Z0, C].
    injection E as <-. destruct C as [C1 C2]. destruct (mask2bdry_shape c ign radius false) as (A1 & A2 & A3). cbn [mask2bdry] in A1, A2, A3. split; [exact A1|split; congruence].
Qed.
Lemma otf_edge_class img inst radius category label e : wf img -> (34 <= ht img)%nat -> 1 <= category -> In (label, category - 1) CITYSCAPES_label2trainId ->
  match inst with None => True | Some i => wf i /\ ht i = ht img /\ wd i = wd img /\ (forall id, has_id i id -> 0 <= id < 100000) end ->
  cityscapes_class_edges img inst label radius e ->
  exists gt, otf_edge category inst radius img = Ok gt /\ wf gt /\ same_shape gt img /\ binary gt /\ edge_pixels gt e.
Proof.
  intros W H Hc Hin Hi (We & [S1 S2] & K).
  assert (X : exists gt, otf_edge category inst radius img = Ok gt /\ forall y x, inb (ht img) (wd img) y x = true ->
     (px 0 gt y x = 0 \/ px 0 gt y x = 1) /\ (px 0 gt y x = 1 <-> px false e y x = true)).
  { destruct inst as [i|].
    - destruct Hi as (Wi & H1 & H2 & R). destruct (cityscapes_instance_pixels img i radius category label W Wi H H1 H2 R Hc Hin) as (png & gt & E & _ & _ & P).
      exists gt. split; [exact E|]. intros y x I. destruct (P y x I) as [A B]. split; [exact A|]. rewrite B, K. tauto.
    - destruct (cityscapes_semantic_pixels img radius category label W H Hc Hin) as (png & gt & E & _ & _ & P).
      exists gt. split; [exact E|]. intros y x I. destruct (P y x I) as [A B]. split; [exact A|]. rewrite B, K. tauto. }
  destruct X as (gt & E & P). exists gt. split; [exact E|].
  destruct (otf_edge_shape category inst radius img gt) as (Wg & G1 & G2); [destruct inst; [destruct Hi as (_ & H1 & H2 & _); auto|exact I]|exact E|].
  assert (O : forall y x, inb (ht img) (wd img) y x = false -> px 0 gt y x = 0) by (intros y x I; apply px_out; [exact Wg|rewrite G1, G2; exact I]).
  split; [exact Wg|]. split; [split; congruence|]. split.
  - intros y x. destruct (inb (ht img) (wd img) y x) eqn:I; [apply (P y x I)|left; apply O, I].
  - split; [exact We|]. split; [split; congruence|]. intros y x. destruct (inb (ht img) (wd img) y x) eqn:I.
    + destruct (P y x I) as [A B]. rewrite <- B. lia.
    + rewrite K, (O y x I), I. split; [intros [C _]; discriminate|lia].
Qed.

(** On the fly, at any scale: the label image (and the instance image) are resampled first, the
    edges are computed on the resampled images. *)
Theorem on_the_fly_evaluation_counts : forall lib img inst pred category label scale max_dist thr th thin nms kill skip radius h w img' inst' pred' e m s,
  check_thresholds thr = Ok th -> wf img -> wf pred ->
  (0 < ht img)%nat -> (0 < wd img)%nat -> (0 < ht pred)%nat -> (0 < wd pred)%nat ->
  (0 <= scale)%Q -> scaled_size (ht img) scale h -> scaled_size (wd img) scale w -> (34 <= h)%nat -> (nms = true -> (2 <= w)%nat) ->
  resampled 0 img h w img' -> resampled 0 pred h w pred' ->
  match inst, inst' with
  | None, None => True
  | Some i, Some i' => (0 < ht i)%nat /\ (0 < wd i)%nat /\ resampled 0 i h w i' /\ (forall id, has_id i id -> 0 <= id < 100000)
  | _, _ => False
  end ->
  1 <= category -> In (label, category - 1) CITYSCAPES_label2trainId ->
  cityscapes_class_edges img' inst' label radius e -> label_mask img' label m ->
  (0 < max_dist)%Q -> raw_values s ->
  exists q, strengths (l_orient lib) (l_cos lib) (l_sin lib) false nms pred' q /\
  delivers (fun F P => otf_eval_single F P lib img inst pred category scale max_dist thr thin nms kill skip radius) s
    (fun c => per_threshold th c (class_counts thin kill skip q e m (tolerance2 max_dist e))).
Proof.
  intros lib img inst pred category label scale md thr th thin nms kill skip radius h w img' inst' pred' e m s Eth Wi Wp
    Hi Vi Hp Vp Ps Sh Sw Hh Hn Ri Rp Rinst Hc Hin Ce Lm Pd V.
  assert (Eh := proj2 (scaled_is_rounding (ht img) scale Ps) h Sh). assert (Ew := proj2 (scaled_is_rounding (wd img) scale Ps) w Sw).
  assert (Ei := resampling_is_unique _ h w img' _ Ri (resize_resamples img h w ltac:(lia) ltac:(lia))).
  assert (Ep := resampling_is_unique _ h w pred' _ Rp (resize_resamples pred h w ltac:(lia) ltac:(lia))).
  assert (Einst : option_map (resize 0 h w) inst = inst').
  { destruct inst as [i|], inst' as [i'|]; try contradiction; [|reflexivity]. destruct Rinst as (A & B & C & _). cbn [option_map]. f_equal.
    symmetry. exact (resampling_is_unique _ h w i' _ C (resize_resamples i h w A B)). }
  assert (Wp' : wf pred') by apply Rp. assert (Wi' : wf img') by apply Ri.
  assert (Hp' : ht pred' = h /\ wd pred' = w) by (split; apply Rp). destruct Hp' as [Hp1 Hp2].
  assert (Hi' : ht img' = h /\ wd img' = w) by (split; apply Ri). destruct Hi' as [Hi1 Hi2].
  destruct (maybe_nms_strengths lib false nms pred' _ Wp' (unit_range_map pred' Wp') ltac:(rewrite Hp1, Hp2; intros N; specialize (Hn N); lia)) as (q & En & Wq & [Q1 Q2] & Sq).
  exists q. split; [exact Sq|].
  destruct (otf_edge_class img' inst' radius category label e Wi' ltac:(lia) Hc Hin) as (gt & Egt & Wgt & [Sg1 Sg2] & Bgt & Hg).
  { destruct inst as [i|], inst' as [i'|]; try contradiction; [|exact I]. destruct Rinst as (A & B & (R1 & R2 & R3 & R4) & D).
    split; [exact R1|]. split; [congruence|]. split; [congruence|]. intros id (y & x & Iid & E).
    rewrite R2, R3 in Iid. destruct (R4 y x Iid) as (y' & x' & I' & _ & _ & Ev). apply D. exists y', x'. split; [exact I'|congruence]. }
  { exact Ce. }
  assert (Em : category_seg (mask_label2trainId img' CITYSCAPES_label2trainId) category = m).
  { assert (Wl : wf (mask_label2trainId img' CITYSCAPES_label2trainId) ) by (unfold mask_label2trainId; apply wf_tab || (apply wf_imap; exact Wi')).
    apply (class_mask_unique (mask_label2trainId img' CITYSCAPES_label2trainId) (category - 1)); [apply category_seg_mask, Wl|].
    apply (cityscapes_mask_is_the_class img' category label m Wi' Hin). exact Lm. }
  assert (Wm : wf m /\ ht m = h /\ wd m = w) by (destruct Lm as (Wm & [M1 M2] & _); split; [exact Wm|]; split; congruence).
  destruct Wm as (Wm & M1 & M2).
  eapply (delivers_ext (fun F P => evaluate_multi_label F P lib th (unit_range pred') gt
    (if kill then Some (SegBool m) else None) md thin kill skip nms)).
  - intros F P. unfold otf_eval_single. rewrite Eth. cbn [bind]. rewrite <- Eh, <- Ew, <- Ei, Einst, Egt. cbn [bind]. rewrite <- Ep, Em. reflexivity.
  - apply class_delivers; try assumption; try (split; congruence). rewrite Q1, Q2, Hp1, Hp2. left. lia.
Qed.
Print Assumptions on_the_fly_evaluation_counts.

(** Concrete inputs: 12 x 12 files evaluated at scale 1/2 (6 x 6), class 2 = bit 1. *)
Definition ex_half_edge : rgb := mkRGB 12 12 (zeros 12 12) (zeros 12 12) (tab 12 12 (fun y x => if (x =? 5) || (x =? 6) then 2 else 0)).
Definition ex_half_pred : image Z := tab 12 12 (fun y x => if x =? 7 then 204 else 0).
Definition ex_half_seg : image Z := tab 12 12 (fun y x => if x <? 6 then 1 else 0).
Lemma bytes_tab h w f : (forall y x, 0 <= f y x < 256) -> bytes (tab h w f).
Proof. intros H y x. rewrite px_tab. destruct (inb h w y x); [apply H|lia]. Qed.
Lemma ex_edges_exist h w r g b c : ht r = h -> wd r = w -> exists e, class_edges r g b c e.
Proof.
  intros <- <-. exists (tab (ht r) (wd r) (fun y x => Z.testbit (px 0 b y x + 256 * px 0 g y x + 65536 * px 0 r y x) (c - 1))).
  split; [apply wf_tab|]. split; [split; reflexivity|]. intros y x. rewrite px_tab. destruct (inb _ _ y x); [tauto|]. split; [discriminate|intros [C _]; discriminate].
Qed.
Lemma strength_map_predicts b im q q' t p : strength_map b im q -> strength_map b im q' -> predicted false q t p -> predicted false q' t p.
Proof.
  intros (W & [S1 S2] & E) (W' & [S1' S2'] & E') (Wp & [P1 P2] & P). split; [exact Wp|]. split; [split; congruence|].
  intros y x. rewrite P, S1, S2, S1', S2'. split; intros [A B]; (split; [exact A|]); specialize (E y x A); specialize (E' y x A).
  - eapply Qle_trans; [exact B|]. rewrite E, E'. apply Qle_refl.
  - eapply Qle_trans; [exact B|]. rewrite E, E'. apply Qle_refl.
Qed.
Example ex_stored_evaluation : exists q e m, forall s, raw_values s ->
  delivers (fun F P => evaluate_single_png F P no_libm false ex_half_edge ex_half_seg ex_half_pred 2 (1 # 2) (1 # 2) (AFloat (1 # 2)) false false true true 19) s
    (fun c => per_threshold [1 # 2]%Q c (class_counts false true true q e m (tolerance2 (1 # 2) e))).
Proof.
  destruct (ex_edges_exist 6 6 (resize 0 6 6 (ch_r ex_half_edge)) (resize 0 6 6 (ch_g ex_half_edge)) (resize 0 6 6 (ch_b ex_half_edge)) 2 eq_refl eq_refl) as (e & He).
  set (m := category_seg (resize 0 6 6 ex_half_seg) 2). exists (unit_range (resize 0 6 6 ex_half_pred)), e, m. intros s V.
  assert (T := stored_evaluation_counts no_libm false ex_half_edge ex_half_seg ex_half_pred 2 (1 # 2) (1 # 2) (AFloat (1 # 2)) [1 # 2]%Q false false true true 19
    6 6 (resize 0 6 6 (ch_r ex_half_edge)) (resize 0 6 6 (ch_g ex_half_edge)) (resize 0 6 6 (ch_b ex_half_edge)) (resize 0 6 6 ex_half_seg) (resize 0 6 6 ex_half_pred) e m s).
  destruct T as (q & (p & M & ->) & D); try (apply resize_resamples; cbn; lia); try (cbn; lia); try assumption; try reflexivity; try discriminate; try (apply wf_tab).
  - split; [split; reflexivity|]. split; split; reflexivity.
  - apply bytes_tab. intros; lia.
  - apply bytes_tab. intros; lia.
  - apply bytes_tab. intros y x. destruct (_ || _); lia.
  - split; [discriminate|reflexivity].
  - split; [discriminate|reflexivity].
  - apply category_seg_mask, wf_tab.
  - eapply delivers_weaken; [exact D|]. intros c (L1 & L2 & L3 & L4 & H). split; [exact L1|]. split; [exact L2|]. split; [exact L3|]. split; [exact L4|].
    intros i t Et. specialize (H i t Et). unfold class_counts in *. destruct (true && negb (any_true e)); [exact H|].
    destruct H as (p' & (p0 & Hp & K) & C). exists p'. split; [|exact C]. exists p0. split; [|exact K].
    exact (strength_map_predicts _ _ _ _ _ _ M (unit_range_map _ (wf_tab _ _ _)) Hp).
Qed.
(** The computed result for class 3, which has no edges: the 6 predicted pixels (column 3 after
    resampling) are false positives. *)
Example ex_half_result : forall s,
  evaluate_single_png 0 0 no_libm false ex_half_edge ex_half_seg ex_half_pred 3 (1 # 2) (1 # 10) (AFloat (1 # 2)) false false true false 19 s
  = Ok (Some (mkCounts [0] [0] [0] [6], s)).
Proof. intros s. vm_compute. reflexivity. Qed.
