(** Proofs about the evaluation in doubles: the data sets. *)
From Verif Require Import PropertiesEval3 SpecEvalF ModelEvalF ProofsFloat ProofsMatchF2 PropertiesThreshF ProofsEvalF ProofsEvalF2 ProofsLabels ProofsEdges2.
From Coq Require Import Lia Lra Psatz Qreals ZifyBool ZifyNat.
Open Scope Z_scope.
Open Scope list_scope.

(** ** The 5-pixel border *)
Definition bordered (im : image Z) : image Z :=
  let h := Z.of_nat (ht im) in let w := Z.of_nat (wd im) in
  tab (ht im) (wd im) (fun y x =>
    if in_slice h 0 5 y || in_slice h (h - 5) h y || in_slice w 0 5 x || in_slice w (w - 5) w x then 0 else px 0 im y x).
Lemma px_fprediction l im y x : wf im -> inb (ht im) (wd im) y x = true -> px 0%R (fprediction l im) y x = fload l (px 0 im y x).
Proof. intros W I. unfold fprediction. exact (px_imap_in (fload l) 0 0%R im y x W I). Qed.
Lemma fblank_eq im : wf im -> fblank_border (fprediction Divide im) = fprediction Divide (bordered im).
Proof.
  intros W. apply (img_ext 0%R); [apply wf_tab|apply wf_imap, wf_tab|split; reflexivity|]. intros y x I. cbn [fblank_border ht wd tab] in I.
  rewrite px_fprediction by (solve [apply wf_tab|exact I]). unfold fblank_border, bordered. rewrite !px_tab. cbn [fprediction imap ht wd] in *. rewrite I.
  destruct (_ || _ || _ || _); [|apply px_fprediction; assumption]. cbn [fload]. unfold fdiv, Rdiv. rewrite Rmult_0_l. symmetry. apply rnd_0.
Qed.
Lemma blank_thresholded im t : wf im -> thresholded (unit_range (bordered im)) t = thresholded (blank_border (unit_range im)) t.
Proof.
  intros W. apply (img_ext false); [apply wf_imap, wf_imap, wf_tab|apply wf_imap, wf_tab|split; reflexivity|]. intros y x I. cbn [thresholded unit_range bordered imap ht wd tab] in I.
  assert (X : forall p : image Q, wf p -> inb (ht p) (wd p) y x = true -> px false (thresholded p t) y x = Qle_bool t (px 0%Q p y x)) by (intros p Wp Ip; exact (px_imap_in (fun v => Qle_bool t v) 0%Q false p y x Wp Ip)).
  rewrite !X by (solve [apply wf_imap, wf_tab|apply wf_tab|exact I]). 
  assert (Y : forall i, wf i -> inb (ht i) (wd i) y x = true -> px 0%Q (unit_range i) y x = (inject_Z (px 0%Z i y x) / inject_Z 255)%Q) by (intros i Wi Ii; exact (px_imap_in (fun v => inject_Z v / inject_Z 255)%Q 0 0%Q i y x Wi Ii)).
  rewrite Y by (solve [apply wf_tab|exact I]). unfold blank_border, bordered. rewrite !px_tab. cbn [unit_range imap ht wd]. rewrite I.
  destruct (_ || _ || _ || _); [apply Bool.eq_iff_eq_true; rewrite !Qle_bool_iff; change (inject_Z 0 / inject_Z 255)%Q with (0 # 255)%Q; assert (Z0 : (0 # 255 == 0)%Q) by reflexivity; rewrite Z0; reflexivity|]. rewrite <- Y by assumption. reflexivity.
Qed.
Lemma bordered_clear n im : clear_thresholds n im -> clear_thresholds n (bordered im).
Proof.
  intros (H & B & C). split; [exact H|]. split.
  - intros y x. unfold bordered. rewrite px_tab. destruct (inb _ _ y x); [|lia]. destruct (_ || _ || _ || _); [lia|apply B].
  - destruct C as [->|C]; [left; reflexivity|right]. intros y x k I K. cbn [bordered tab ht wd] in I. unfold bordered. rewrite px_tab, I. destruct (_ || _ || _ || _); [lia|apply C; assumption].
Qed.
Lemma bordered_count im : wf im -> (edge_count (bordered im) <= edge_count im)%nat.
Proof.
  intros W. unfold edge_count. apply count_true_le; [apply wf_imap, wf_tab|apply wf_imap, W|split; reflexivity|]. intros y x.
  destruct (inb (ht im) (wd im) y x) eqn:I; [|rewrite px_out by (solve [apply wf_imap, wf_tab|exact I]); discriminate].
  rewrite (px_imap_in (fun v => negb (v =? 0)) 0 false im y x W I), (px_imap_in (fun v => negb (v =? 0)) 0 false (bordered im) y x (wf_tab _ _ _) I). unfold bordered. rewrite px_tab, I.
  destruct (_ || _ || _ || _); [discriminate|exact (fun H => H)].
Qed.
Lemma border_agree (border : bool) n im : wf im -> clear_thresholds n im ->
  exists th fth, check_thresholds (AInt n) = Ok th /\ fthresholds_of_int n = Ok fth /\
    Forall2 (agree (edge_count im) (if border then fblank_border (fprediction Divide im) else fprediction Divide im) (if border then blank_border (unit_range im) else unit_range im)) th fth.
Proof.
  intros W C. destruct border; [|apply thresholds_agree; assumption]. destruct (thresholds_agree Divide n (bordered im) (wf_tab _ _ _) (bordered_clear _ _ C)) as (th & fth & E & F & A).
  exists th, fth. split; [exact E|]. split; [exact F|]. clear - A W. induction A as [|t ft th fth H _ IH]; constructor; [|exact IH]. destruct H as [H Hc]. unfold agree. rewrite fblank_eq, H, <- blank_thresholded by exact W. split; [reflexivity|]. eapply Nat.le_trans; [exact Hc|]. apply bordered_count, W.
Qed.

(** ** Scales *)
Lemma fscaled_dyadic n scale : dyadic scale -> Z.of_nat n <= 2 ^ 16 -> fscaled n (Q2R scale) = scaled n scale.
Proof.
  intros (m & j & Hm & Hj & E) Hn. assert (P : (0 <= scale)%Q).
  { rewrite E. apply Qle_shift_div_l; [change 0%Q with (inject_Z 0); rewrite <- Zlt_Qlt; apply Z.pow_pos_nonneg; lia|]. rewrite Qmult_0_l. change 0%Q with (inject_Z 0). rewrite <- Zle_Qle. lia. }
  apply (proj2 (scaled_is_rounding n scale P)).
  assert (J : 0 < 2 ^ j) by (apply Z.pow_pos_nonneg; lia). assert (J2 : 2 ^ j <= 2 ^ 30) by (apply Z.pow_le_mono_r; lia).
  assert (Ej : bpow radix2 (- j) = (/ IZR (2 ^ j))%R) by (rewrite bpow_opp, IZR_pow2 by lia; reflexivity).
  assert (Er : Q2R scale = (IZR m * bpow radix2 (- j))%R) by (rewrite (Qeq_eqR _ _ E), Q2R_div, !Q2R_IZR, Ej; [reflexivity|]; unfold Qeq; cbn; lia).
  set (a := (Z.of_nat n * m)%Z). assert (Ha : 0 <= a <= 2 ^ 46) by (unfold a; nia).
  assert (E1 : fmul (IZR (Z.of_nat n)) (Q2R scale) = (IZR a * bpow radix2 (- j))%R).
  { unfold fmul. rewrite Er, <- Rmult_assoc, <- mult_IZR. fold a. apply rnd_id, fmt_scaled; lia. }
  set (b := 2 * a + 2 ^ j). assert (Hb : 0 < b <= 2 ^ 48) by (unfold b; lia).
  assert (E3 : (IZR a * bpow radix2 (- j) + / 2 = IZR b * bpow radix2 (- j - 1))%R).
  { replace (- j - 1) with (- j + -1) by lia. rewrite bpow_plus. unfold b. rewrite plus_IZR, mult_IZR. change (bpow radix2 (-1)) with (/ 2)%R. rewrite Ej. field. assert (0 < IZR (2 ^ j))%R by (apply IZR_lt; exact J). lra. }
  assert (E2 : fadd (fmul (IZR (Z.of_nat n)) (Q2R scale)) (/ 2) = (IZR b * bpow radix2 (- j - 1))%R).
  { unfold fadd. rewrite E1, E3. apply rnd_id, fmt_scaled; lia. }
  unfold fscaled. rewrite E2. rewrite Ztrunc_floor by (apply Rmult_le_pos; [apply IZR_le; lia|apply bpow_ge_0]).
  assert (Fl := Zfloor_lb (IZR b * bpow radix2 (- j - 1))). assert (Fu := Zfloor_ub (IZR b * bpow radix2 (- j - 1))). set (z := Zfloor _) in *.
  assert (Z0 : 0 <= z) by (apply Zfloor_lub; apply Rmult_le_pos; [apply IZR_le; lia|apply bpow_ge_0]).
  unfold scaled_size. rewrite Z2Nat.id by exact Z0.
  assert (V : (IZR b * bpow radix2 (- j - 1) = Q2R (inject_Z (Z.of_nat n) * scale + (1 # 2)))%R).
  { rewrite <- E3, Q2R_plus, Q2R_mult, Q2R_IZR, Er. unfold a. rewrite mult_IZR. replace (Q2R (1 # 2)) with (/ 2)%R by (unfold Q2R; cbn; lra). ring. }
  rewrite V in Fl, Fu. split.
  - apply Rle_Qle. rewrite Q2R_IZR. exact Fl.
  - apply Rlt_Qlt. rewrite (Q2R_plus (inject_Z z) 1), Q2R_IZR. change (Q2R 1) with (1 * / 1)%R. lra.
Qed.

(** ** The ground truth of a class in a PNG *)
Lemma stored_class edge seg category n h w r g b seg' e m :
  rgb_shape edge -> bytes (ch_r edge) -> bytes (ch_g edge) -> bytes (ch_b edge) -> wf seg ->
  (0 < g_h edge)%nat -> (0 < g_w edge)%nat -> (0 < ht seg)%nat -> (0 < wd seg)%nat ->
  resampled 0 (ch_r edge) h w r -> resampled 0 (ch_g edge) h w g -> resampled 0 (ch_b edge) h w b -> resampled 0 seg h w seg' ->
  1 <= category <= n -> n <= 24 -> class_edges r g b category e -> label_mask seg' (category - 1) m ->
  exists gt, category_edge (resize_rgb h w edge) n category = Ok gt /\ wf gt /\ ht gt = h /\ wd gt = w /\ binary gt /\ edge_pixels gt e /\
    category_seg (resize 0 h w seg) category = m /\ wf m /\ ht m = h /\ wd m = w.
Proof.
  intros Re Br Bg Bb Ws He We Hs Vs Rr Rg Rb Rs Hc H24 Ce Lm.
  destruct Re as ((R1 & R2) & (G1 & G2) & (B1 & B2)).
  assert (Er := resampling_is_unique _ h w r _ Rr (resize_resamples (ch_r edge) h w ltac:(lia) ltac:(lia))).
  assert (Eg := resampling_is_unique _ h w g _ Rg (resize_resamples (ch_g edge) h w ltac:(lia) ltac:(lia))).
  assert (Eb := resampling_is_unique _ h w b _ Rb (resize_resamples (ch_b edge) h w ltac:(lia) ltac:(lia))).
  assert (Es := resampling_is_unique _ h w seg' _ Rs (resize_resamples seg h w ltac:(lia) ltac:(lia))).
  assert (Ws' : wf seg') by apply Rs.
  set (gt := channel (decode_png (resize_rgb h w edge) n) (category - 1)).
  assert (Lc : List.length (chans (decode_png (resize_rgb h w edge) n)) = Z.to_nat n).
  { unfold decode_png. cbn [chans]. rewrite slice_rev_png by lia. rewrite !map_length, zseq_length. lia. }
  assert (Egt : category_edge (resize_rgb h w edge) n category = Ok gt) by (unfold category_edge; rewrite chan_at_ok by lia; reflexivity).
  assert (Tgt : gt = tab h w (png_bit (resize_rgb h w edge) (23 - (category - 1)))).
  { unfold gt, channel, decode_png. cbn [chans]. rewrite slice_rev_png by lia. rewrite map_map.
    rewrite map_zseq_nth by lia. cbn [resize_rgb g_h g_w].
    replace (Z.of_nat (Z.to_nat (category - 1))) with (category - 1) by lia. reflexivity. }
  assert (Cr : ch_r (resize_rgb h w edge) = r) by (cbn [resize_rgb ch_r]; congruence).
  assert (Cg : ch_g (resize_rgb h w edge) = g) by (cbn [resize_rgb ch_g]; congruence).
  assert (Cb : ch_b (resize_rgb h w edge) = b) by (cbn [resize_rgb ch_b]; congruence).
  assert (Pgt : forall y x, inb h w y x = true -> px 0 gt y x = b2z (Z.testbit (px 0 b y x + 256 * px 0 g y x + 65536 * px 0 r y x) (category - 1))).
  { intros y x I. rewrite Tgt, px_tab, I. rewrite png_bit_testbit; rewrite ?Cr, ?Cg, ?Cb; [reflexivity| | | |lia].
    - exact (resampled_bytes _ _ _ _ Br Rr).
    - exact (resampled_bytes _ _ _ _ Bg Rg).
    - exact (resampled_bytes _ _ _ _ Bb Rb). }
  assert (Hr : ht r = h /\ wd r = w) by (split; apply Rr). destruct Hr as [Hr1 Hr2].
  assert (Wgt : wf gt) by (rewrite Tgt; apply wf_tab).
  assert (Sgt : ht gt = h /\ wd gt = w) by (rewrite Tgt; split; reflexivity). destruct Sgt as [Sg1 Sg2].
  exists gt. split; [exact Egt|]. split; [exact Wgt|]. split; [exact Sg1|]. split; [exact Sg2|]. split; [|split; [|split]].
  - intros y x. destruct (inb h w y x) eqn:I.
    + rewrite (Pgt y x I). destruct (Z.testbit _ _); cbn; auto.
    + rewrite px_out by (rewrite ?Sg1, ?Sg2; assumption). auto.
  - destruct Ce as (We' & [E1 E2] & Ce). split; [exact We'|]. split; [split; congruence|]. intros y x. rewrite Ce, Hr1, Hr2. destruct (inb h w y x) eqn:I.
    + rewrite (Pgt y x I). destruct (Z.testbit _ _); cbn; split; [lia| auto|intros [_ C]; discriminate|lia].
    + rewrite (px_out 0 gt) by (rewrite ?Sg1, ?Sg2; assumption). split; [intros [C _]; discriminate|lia].
  - rewrite <- Es. apply (class_mask_unique seg' (category - 1)); [apply category_seg_mask, Ws'|exact Lm].
  - assert (Hs' : ht seg' = h /\ wd seg' = w) by (split; apply Rs). destruct Hs' as [Hs1 Hs2].
    destruct Lm as (Wm & [M1 M2] & _); split; [exact Wm|]; split; congruence.
Qed.
