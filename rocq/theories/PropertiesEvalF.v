(** C60: a whole evaluation with every floating point number a double. *)
From Verif Require Import PropertiesEval3 SpecEvalF ModelEvalF ProofsFloat ProofsMatchF2 PropertiesThreshF ProofsEvalF ProofsEvalF2 ProofsEvalF3 ProofsLabels ProofsEdges2 ProofsMetrics2.
From Verif Require PropertiesRounding.
From Coq Require Import Lia Lra Psatz Qreals ZifyBool ZifyNat.
Open Scope Z_scope.
Open Scope list_scope.

(** *** Theorem 1: one ground truth.  With double precision tolerance, thresholds and strengths nothing fails, with few
    edge pixels the evaluation ends, and the counts are those of a one-to-one correspondence at the tolerance k/N and the thresholds i/(n+1) meant. *)
Theorem double_single_gt_counts : forall l k N n th fth gt g pred thin s,
  let max_dist := rnd (IZR (Zpos k) / IZR (Zpos N)) in
  check_thresholds (AInt n) = Ok th -> fthresholds_of_int n = Ok fth ->
  wf pred -> wf gt -> same_shape pred gt -> binary gt -> edge_pixels gt g ->
  usable k N (ht pred) (wd pred) -> clear_thresholds n pred -> raw_values s ->
  exists q, strength_map false pred q /\
  evaluates (few k N (ht pred) (wd pred) (edge_count pred + edge_count gt)) (fun F P => fevaluate_binary F P fth (fprediction l pred) gt max_dist thin) s
    (fun c => per_threshold th c (fun t cr sr cp sp =>
       exists p, predicted thin q t p /\ counted p g (tolerance2 (Zpos k # N) g) cr sr cp sp)).
Proof.
  intros l k N n th fth gt g pred thin s D Eth Ef Wp Wg Sh Bg Hg Us Cl V. exists (unit_range pred). split; [apply unit_range_map, Wp|].
  destruct (thresholds_agree l n pred Wp Cl) as (th' & fth' & E1 & E2 & Ag). rewrite Eth in E1. injection E1 as <-. rewrite Ef in E2. injection E2 as <-.
  apply (fbinary_safe k N _ (edge_count pred) th fth _ (unit_range pred) gt g thin s Ag); try assumption; [exact (fun H => H)|apply wf_imap, Wp].
Qed.
Print Assumptions double_single_gt_counts.

(** *** Theorem 2: BSDS, several annotators. *)
Theorem double_bsds_counts : forall k N n th gts gs pred thin s,
  let max_dist := rnd (IZR (Zpos k) / IZR (Zpos N)) in
  check_thresholds (AInt n) = Ok th -> wf pred -> Forall (fun gt => wf gt /\ binary gt /\ same_shape pred gt) gts -> Forall2 edge_pixels gts gs ->
  usable k N (ht pred) (wd pred) -> clear_thresholds n pred -> raw_values s ->
  exists q, strength_map false pred q /\
  evaluates (Forall (fun gt => few k N (ht pred) (wd pred) (edge_count pred + edge_count gt)) gts) (fun F P => fbsds_eval_single F P gts pred max_dist n thin) s
    (fun c => per_threshold th c (fun t cr sr cp sp =>
       exists p, predicted thin q t p /\ counted_all p gs (tolerance2 (Zpos k # N) p) cr sr cp sp)).
Proof.
  intros k N n th gts gs pred thin s D Eth Wp G Hg Us Cl V. exists (unit_range pred). split; [apply unit_range_map, Wp|].
  destruct (thresholds_agree Rescale n pred Wp Cl) as (th' & fth & E1 & E2 & Ag). rewrite Eth in E1. injection E1 as <-.
  eapply (safe_ext _ (fun F P => fevaluate_multiple_gts F P fth (fprediction Rescale pred) gts D thin)).
  - intros F P. unfold fbsds_eval_single. rewrite E2. reflexivity.
  - apply (fmultiple_safe k N _ (edge_count pred) th fth _ (unit_range pred) gts gs thin s Ag); try assumption; [exact (fun H => H)|apply wf_imap, Wp].
Qed.
Print Assumptions double_bsds_counts.

(** *** Theorem 3: Cityscapes and SBD with stored ground truth, at a dyadic scale. *)
Theorem double_stored_counts : forall border edge seg pred category scale k N n th thin kill skip num_classes h w r g b seg' pred' e m s,
  let max_dist := rnd (IZR (Zpos k) / IZR (Zpos N)) in
  check_thresholds (AInt n) = Ok th ->
  rgb_shape edge -> bytes (ch_r edge) -> bytes (ch_g edge) -> bytes (ch_b edge) -> wf seg -> wf pred ->
  0 < Z.of_nat (g_h edge) <= 2 ^ 16 -> 0 < Z.of_nat (g_w edge) <= 2 ^ 16 -> (0 < ht seg)%nat -> (0 < wd seg)%nat -> (0 < ht pred)%nat -> (0 < wd pred)%nat ->
  dyadic scale -> scaled_size (g_h edge) scale h -> scaled_size (g_w edge) scale w ->
  resampled 0 (ch_r edge) h w r -> resampled 0 (ch_g edge) h w g -> resampled 0 (ch_b edge) h w b ->
  resampled 0 seg h w seg' -> resampled 0 pred h w pred' ->
  1 <= category <= num_classes -> num_classes <= 24 -> class_edges r g b category e -> label_mask seg' (category - 1) m ->
  usable k N h w -> clear_thresholds n pred' -> raw_values s ->
  exists q, strength_map border pred' q /\
  evaluates (few k N h w (edge_count pred' + count_true e)) (fun F P => fevaluate_single_png F P border edge seg pred category (Q2R scale) max_dist n thin kill skip num_classes) s
    (fun c => per_threshold th c (class_counts thin kill skip q e m (tolerance2 (Zpos k # N) e))).
Proof.
  intros border edge seg pred category scale k N n th thin kill skip nc h w r g b seg' pred' e m s D Eth Re Br Bg Bb Ws Wp
    He We Hs Vs Hp Vp Dy Sh Sw Rr Rg Rb Rs Rp Hc H24 Ce Lm Us Cl V.
  assert (Ps : (0 <= scale)%Q).
  { destruct Dy as (mm & j & Hm & Hj & E). rewrite E. apply Qle_shift_div_l; [change 0%Q with (inject_Z 0); rewrite <- Zlt_Qlt; apply Z.pow_pos_nonneg; lia|]. rewrite Qmult_0_l. change 0%Q with (inject_Z 0). rewrite <- Zle_Qle. lia. }
  assert (Eh := proj2 (scaled_is_rounding (g_h edge) scale Ps) h Sh). assert (Ew := proj2 (scaled_is_rounding (g_w edge) scale Ps) w Sw).
  rewrite <- fscaled_dyadic in Eh, Ew by (assumption || lia).
  assert (Ep := resampling_is_unique _ h w pred' _ Rp (resize_resamples pred h w ltac:(lia) ltac:(lia))).
  assert (Wp' : wf pred') by apply Rp. assert (Hp' : ht pred' = h /\ wd pred' = w) by (split; apply Rp). destruct Hp' as [Hp1 Hp2].
  destruct (stored_class edge seg category nc h w r g b seg' e m Re Br Bg Bb Ws ltac:(lia) ltac:(lia) Hs Vs Rr Rg Rb Rs Hc H24 Ce Lm) as (gt & Egt & Wgt & G1 & G2 & Bgt & Hg & Em & Wm & M1 & M2).
  destruct (border_agree border n pred' Wp' Cl) as (th' & fth & E1 & E2 & Ag). rewrite Eth in E1. injection E1 as <-.
  set (q := if border then blank_border (unit_range pred') else unit_range pred') in *.
  assert (Sq : strength_map border pred' q) by (unfold q; destruct border; [apply blank_border_map|apply unit_range_map]; exact Wp').
  exists q. split; [exact Sq|]. destruct Sq as (Wq & [Q1 Q2] & _).
  eapply (safe_ext _ (fun F P => fevaluate_multi_label F P fth (if border then fblank_border (fprediction Divide pred') else fprediction Divide pred') gt (if kill then Some (SegBool m) else None) D thin kill skip)).
  - intros F P. unfold fevaluate_single_png. rewrite E2. cbn [bind]. rewrite <- Eh, <- Ew, Egt. cbn [bind]. rewrite <- Ep, Em. reflexivity.
  - apply (fclass_safe k N _ (edge_count pred')); try assumption; try (split; congruence); [|rewrite Q1, Q2, Hp1, Hp2; exact Us].
    rewrite Q1, Q2, Hp1, Hp2, <- (edge_pixels_unique gt e Wgt Hg). exact (fun H => H).
Qed.
Print Assumptions double_stored_counts.

(** *** Theorem 4: Cityscapes with ground truth computed on the fly. *)
Theorem double_on_the_fly_counts : forall img inst pred category label scale k N n th thin kill skip radius h w img' inst' pred' e m s,
  let max_dist := rnd (IZR (Zpos k) / IZR (Zpos N)) in
  check_thresholds (AInt n) = Ok th -> wf img -> wf pred ->
  0 < Z.of_nat (ht img) <= 2 ^ 16 -> 0 < Z.of_nat (wd img) <= 2 ^ 16 -> (0 < ht pred)%nat -> (0 < wd pred)%nat ->
  dyadic scale -> scaled_size (ht img) scale h -> scaled_size (wd img) scale w -> (34 <= h)%nat ->
  resampled 0 img h w img' -> resampled 0 pred h w pred' ->
  match inst, inst' with
  | None, None => True
  | Some i, Some i' => (0 < ht i)%nat /\ (0 < wd i)%nat /\ resampled 0 i h w i' /\ (forall id, has_id i id -> 0 <= id < 100000)
  | _, _ => False
  end ->
  1 <= category -> In (label, category - 1) CITYSCAPES_label2trainId ->
  cityscapes_class_edges img' inst' label radius e -> label_mask img' label m ->
  usable k N h w -> clear_thresholds n pred' -> raw_values s ->
  exists q, strength_map false pred' q /\
  evaluates (few k N h w (edge_count pred' + count_true e)) (fun F P => fotf_eval_single F P img inst pred category (Q2R scale) max_dist n thin kill skip radius) s
    (fun c => per_threshold th c (class_counts thin kill skip q e m (tolerance2 (Zpos k # N) e))).
Proof.
  intros img inst pred category label scale k N n th thin kill skip radius h w img' inst' pred' e m s D Eth Wi Wp
    Hi Vi Hp Vp Dy Sh Sw Hh Ri Rp Rinst Hc Hin Ce Lm Us Cl V.
  assert (Ps : (0 <= scale)%Q).
  { destruct Dy as (mm & j & Hm & Hj & E). rewrite E. apply Qle_shift_div_l; [change 0%Q with (inject_Z 0); rewrite <- Zlt_Qlt; apply Z.pow_pos_nonneg; lia|]. rewrite Qmult_0_l. change 0%Q with (inject_Z 0). rewrite <- Zle_Qle. lia. }
  assert (Eh := proj2 (scaled_is_rounding (ht img) scale Ps) h Sh). assert (Ew := proj2 (scaled_is_rounding (wd img) scale Ps) w Sw).
  rewrite <- fscaled_dyadic in Eh, Ew by (assumption || lia).
  assert (Ei := resampling_is_unique _ h w img' _ Ri (resize_resamples img h w ltac:(lia) ltac:(lia))).
  assert (Ep := resampling_is_unique _ h w pred' _ Rp (resize_resamples pred h w ltac:(lia) ltac:(lia))).
  assert (Einst : option_map (resize 0 h w) inst = inst').
  { destruct inst as [i|], inst' as [i'|]; try contradiction; [|reflexivity]. destruct Rinst as (A & B & C & _). cbn [option_map]. f_equal.
    symmetry. exact (resampling_is_unique _ h w i' _ C (resize_resamples i h w A B)). }
  assert (Wp' : wf pred') by apply Rp. assert (Wi' : wf img') by apply Ri.
  assert (Hp' : ht pred' = h /\ wd pred' = w) by (split; apply Rp). destruct Hp' as [Hp1 Hp2].
  assert (Hi' : ht img' = h /\ wd img' = w) by (split; apply Ri). destruct Hi' as [Hi1 Hi2].
  destruct (otf_edge_class img' inst' radius category label e Wi' ltac:(lia) Hc Hin) as (gt & Egt & Wgt & [Sg1 Sg2] & Bgt & Hg).
  { destruct inst as [i|], inst' as [i'|]; try contradiction; [|exact I]. destruct Rinst as (A & B & (R1 & R2 & R3 & R4) & C).
    split; [exact R1|]. split; [congruence|]. split; [congruence|]. intros id (y & x & Iid & E).
    rewrite R2, R3 in Iid. destruct (R4 y x Iid) as (y' & x' & I' & _ & _ & Ev). apply C. exists y', x'. split; [exact I'|congruence]. }
  { exact Ce. }
  assert (Em : category_seg (mask_label2trainId img' CITYSCAPES_label2trainId) category = m).
  { assert (Wl : wf (mask_label2trainId img' CITYSCAPES_label2trainId) ) by (unfold mask_label2trainId; apply wf_tab || (apply wf_imap; exact Wi')).
    apply (class_mask_unique (mask_label2trainId img' CITYSCAPES_label2trainId) (category - 1)); [apply category_seg_mask, Wl|].
    apply (cityscapes_mask_is_the_class img' category label m Wi' Hin). exact Lm. }
  assert (Wm : wf m /\ ht m = h /\ wd m = w) by (destruct Lm as (Wm & [M1 M2] & _); split; [exact Wm|]; split; congruence).
  destruct Wm as (Wm & M1 & M2).
  destruct (thresholds_agree Divide n pred' Wp' Cl) as (th' & fth & E1 & E2 & Ag). rewrite Eth in E1. injection E1 as <-.
  exists (unit_range pred'). split; [apply unit_range_map, Wp'|].
  eapply (safe_ext _ (fun F P => fevaluate_multi_label F P fth (fprediction Divide pred') gt (if kill then Some (SegBool m) else None) D thin kill skip)).
  - intros F P. unfold fotf_eval_single. rewrite E2. cbn [bind]. rewrite <- Eh, <- Ew, <- Ei, Einst, Egt. cbn [bind]. rewrite <- Ep, Em. reflexivity.
  - apply (fclass_safe k N _ (edge_count pred')); try assumption; try (split; cbn [unit_range imap ht wd]; congruence); [|apply wf_imap, Wp'|cbn [unit_range imap ht wd]; rewrite Hp1, Hp2; exact Us].
    cbn [unit_range imap ht wd]. rewrite Hp1, Hp2, <- (edge_pixels_unique gt e Wgt Hg). exact (fun H => H).
Qed.
Print Assumptions double_on_the_fly_counts.

(** ** The benchmark: all images, then the scores *)
Lemma forM_map {A B C} (f : B -> run C) (g : A -> B) l : forall s, forM (fun a => f (g a)) l s = forM f (map g l) s.
Proof.
  induction l as [|a l IH]; intros s; [reflexivity|]. cbn [map forM]. unfold then_. destruct (f (g a) s) as [[[c s1]|]|]; try reflexivity. cbn [bind]. rewrite IH. reflexivity.
Qed.
Lemma chosen_bound {A} (M : A -> Z) (f : counts -> list Z) : forall (samples : list (string * A)) cs, Forall2 (fun smp c => forall i, nth i (f c) 0 <= M (snd smp)) samples cs ->
  forall choice, List.length choice = List.length (combine (map fst samples) cs) -> chosen f (combine (map fst samples) cs) choice <= zsum (map (fun smp => M (snd smp)) samples).
Proof.
  induction 1 as [|smp c samples cs H _ IH]; intros choice L; [destruct choice; cbn; lia|]. destruct choice as [|i choice]; [discriminate|]. cbn [map fst combine chosen snd]. change (zsum (M (snd smp) :: map (fun s => M (snd s)) samples)) with (M (snd smp) + zsum (map (fun s => M (snd s)) samples)).
  cbn [map fst combine List.length] in L. specialize (IH choice ltac:(lia)). specialize (H i). lia.
Qed.
Lemma metrics_safe {A} (small : Prop) (eval : nat -> nat -> A -> run counts) n th fth (Good : A -> counts -> Prop) (M : A -> Z) (samples : list (string * A)) s :
  1 <= n -> check_thresholds (AInt n) = Ok th -> fthresholds_of_int n = Ok fth -> List.length fth = List.length th -> raw_values s ->
  (forall smp s', In smp samples -> raw_values s' -> evaluates small (fun F P => eval F P (snd smp)) s' (Good (snd smp))) ->
  (forall smp c, In smp samples -> Good (snd smp) c -> shaped (List.length th) c /\ SpecMetrics.sane c /\ forall i, nth i (sum_r c) 0 <= M (snd smp) /\ nth i (sum_p c) 0 <= M (snd smp)) ->
  zsum (map (fun smp => M (snd smp)) samples) <= 2 ^ 53 ->
  evaluates small (fun F P => fcalculate_metrics (eval F P) n samples) s
    (fun '(frows, ftrs, fov) => exists cs rows trs ov, Forall2 (fun smp c => Good (snd smp) c) samples cs /\
       summarise (AInt n) (combine (map fst samples) cs) = Ok (rows, trs, ov) /\
       scores_agree fth (combine (map fst samples) cs) rows trs ov frows ftrs fov).
Proof.
  intros Hn Eth Ef Lf V Safe Ok_ Cn. unfold fcalculate_metrics.
  apply (safe_then _ (fun F P => forM (fun smp => eval F P (snd smp)) samples) (fun F P cs => fun s => bind (fthresholds_of_int n) (fun th => bind (fsummarise th (combine (map fst samples) cs)) (fun r => Ok (Some (r, s))))) s
    (fun cs => Forall2 (fun smp c => Good (snd smp) c) samples cs)).
  - apply (safe_forM _ (fun F P smp => eval F P (snd smp)) (fun a b : string * A => a = b /\ In a samples) (fun smp c => Good (snd smp) c) samples samples); [|exact V|].
    + assert (H : forall l, incl l samples -> Forall2 (fun a b : string * A => a = b /\ In a samples) l l) by (induction l as [|a l IH]; intros I; constructor; [split; [reflexivity|apply I; left; reflexivity]|apply IH; intros x Hx; apply I; right; exact Hx]). apply H. intros x Hx. exact Hx.
    + intros a a' s' [<- I] V'. exact (Safe a s' I V').
  - intros cs s' V' G. rewrite Ef. cbn [bind]. set (sm := combine (map fst samples) cs).
    assert (G' : Forall2 (fun smp c => shaped (List.length th) c /\ SpecMetrics.sane c /\ forall i, nth i (sum_r c) 0 <= M (snd smp) /\ nth i (sum_p c) 0 <= M (snd smp)) samples cs).
    { assert (H : forall l cs, incl l samples -> Forall2 (fun smp c => Good (snd smp) c) l cs -> Forall2 (fun smp c => shaped (List.length th) c /\ SpecMetrics.sane c /\ forall i, nth i (sum_r c) 0 <= M (snd smp) /\ nth i (sum_p c) 0 <= M (snd smp)) l cs).
      { intros l cs0 I H. induction H as [|a c l cs0 Ha _ IH]; constructor; [apply Ok_; [apply I; left; reflexivity|exact Ha]|apply IH; intros x Hx; apply I; right; exact Hx]. }
      apply (H samples cs); [intros x Hx; exact Hx|exact G]. }
    assert (Hth : th <> []) by (destruct (ProofsMetrics2.thresholds_int n ltac:(lia)) as (th0 & E0 & L0 & _); rewrite Eth in E0; injection E0 as <-; intros ->; cbn in L0; lia).
    assert (Pt : forall l cs (P : counts -> Prop), Forall2 (fun (smp : string * A) c => P c) l cs -> Forall (fun s => P (snd s)) (combine (map fst l) cs)).
    { intros l cs0 P H. induction H as [|a c l cs0 Ha _ IH]; [constructor|]. cbn [map combine]. constructor; [exact Ha|exact IH]. }
    assert (Shp : all_shaped (List.length th) sm) by (apply (Pt samples cs (shaped (List.length th))); clear - G'; induction G' as [|a c l cs (X & _) _ IH]; constructor; assumption).
    assert (Sane : forall x, In x sm -> SpecMetrics.sane (snd x)) by (apply Forall_forall; apply (Pt samples cs SpecMetrics.sane); clear - G'; induction G' as [|a c l cs (_ & X & _) _ IH]; constructor; assumption).
    destruct (summarise_outcome (AInt n) sm th Eth Hth) as [(_ & ods & _ & Es)|(X & _)]; [|contradiction].
    destruct (finish th (totals (List.length th) sm) _ _ ods) as [[rows trs] ov] eqn:Efin.
    assert (Cb : countable sm).
    { intros choice L. assert (X : forall f, Forall2 (fun smp c => forall i, nth i (f c) 0 <= M (snd smp)) samples cs -> chosen f sm choice <= 2 ^ 53) by (intros f H; eapply Z.le_trans; [apply (chosen_bound M f samples cs H choice L)|exact Cn]).
      split; apply X; clear - G'; induction G' as [|a c l cs (_ & _ & Y) _ IH]; constructor; (exact IH || (intros i; apply (Y i))). }
    destruct (PropertiesRounding.rounding_is_harmless (AInt n) th fth sm rows trs ov Eth Lf Es Sane Cb) as (frows & ftrs & fov & choice & E & R1 & R2 & R3 & R4 & R5 & R6 & R7 & R8 & R9 & R10 & R11 & R12 & R13 & R14 & R15).
    apply (safe_ext small (fun _ _ => ret (frows, ftrs, fov))); [intros F P; rewrite E; reflexivity|]. apply safe_ret; [exact V'|].
    exists cs, rows, trs, ov. split; [exact G|]. split; [exact Es|]. exists choice. rewrite Lf.
    split; [exact R1|]. split; [exact R2|]. split; [exact R3|]. split; [exact R4|]. split; [exact R10|]. split; [exact R5|]. split; [exact R13|]. split; [exact R14|exact R15].
Qed.
Lemma usable_count k N b : wf b -> usable k N (ht b) (wd b) -> Z.of_nat (count_true b) <= 2 ^ 28.
Proof. intros W U. exact (tol_count k N _ _ U b W eq_refl eq_refl). Qed.
Lemma per_threshold_sane th c M (post : Q -> Z -> Z -> Z -> Z -> Prop) : 0 <= M -> per_threshold th c post -> (forall t cr sr cp sp, post t cr sr cp sp -> 0 <= cr <= sr /\ 0 <= cp <= sp /\ sr <= M /\ sp <= M) ->
  shaped (List.length th) c /\ SpecMetrics.sane c /\ forall i, nth i (sum_r c) 0 <= M /\ nth i (sum_p c) 0 <= M.
Proof.
  intros HM (L1 & L2 & L3 & L4 & H) K. split; [split; [exact L1|split; [exact L2|split; [exact L3|exact L4]]]|].
  assert (X : forall i, (0 <= nth i (count_r c) 0 <= nth i (sum_r c) 0) /\ (0 <= nth i (count_p c) 0 <= nth i (sum_p c) 0) /\ nth i (sum_r c) 0 <= M /\ nth i (sum_p c) 0 <= M).
  { intros i. destruct (nth_error th i) as [t|] eqn:E; [assert (Y := K _ _ _ _ _ (H i t E)); lia|]. apply nth_error_None in E. rewrite !nth_overflow by lia. lia. }
  split; [intros i; destruct (X i) as (A & B & _); split; assumption|intros i; apply X].
Qed.

(** *** Theorem 5: the BSDS benchmark, from the 8-bit predictions and the annotations to the reported scores: nothing
    fails, every image's counts are those of correspondences at the tolerance and thresholds meant, and the
    scores are the exact scores of these counts up to rounding. *)
Theorem double_bsds_benchmark : forall k N n th fth thin (samples : list (string * (list (image Z) * image Z))) s,
  let max_dist := rnd (IZR (Zpos k) / IZR (Zpos N)) in
  1 <= n <= 2 ^ 40 -> check_thresholds (AInt n) = Ok th -> fthresholds_of_int n = Ok fth ->
  (forall name gts pred, In (name, (gts, pred)) samples ->
     wf pred /\ Forall (fun gt => wf gt /\ binary gt /\ same_shape pred gt) gts /\ usable k N (ht pred) (wd pred) /\ clear_thresholds n pred) ->
  zsum (map (fun smp => Z.of_nat (List.length (fst (snd smp))) + 1) samples) <= 2 ^ 25 -> raw_values s ->
  evaluates (forall name gts pred, In (name, (gts, pred)) samples -> Forall (fun gt => few k N (ht pred) (wd pred) (edge_count pred + edge_count gt)) gts)
    (fun F P => fcalculate_metrics (fun '(gts, pred) => fbsds_eval_single F P gts pred max_dist n thin) n samples) s
    (fun '(frows, ftrs, fov) => exists cs rows trs ov,
       Forall2 (fun '(_, (gts, pred)) c => forall gs, Forall2 edge_pixels gts gs ->
          exists q, strength_map false pred q /\ per_threshold th c (fun t cr sr cp sp =>
            exists p, predicted thin q t p /\ counted_all p gs (tolerance2 (Zpos k # N) p) cr sr cp sp)) samples cs /\
       summarise (AInt n) (combine (map fst samples) cs) = Ok (rows, trs, ov) /\
       scores_agree fth (combine (map fst samples) cs) rows trs ov frows ftrs fov).
Proof.
  intros k N n th fth thin samples s D Hn Eth Ef H Cn V.
  set (Good := fun (a : list (image Z) * image Z) c => per_threshold th c (fun t cr sr cp sp => exists p, predicted thin (unit_range (snd a)) t p /\ counted_all p (map ModelThin.nonzero (fst a)) (tolerance2 (Zpos k # N) p) cr sr cp sp)).
  assert (Eg : forall gts, Forall (fun gt => wf gt) gts -> forall gs, Forall2 edge_pixels gts gs -> gs = map ModelThin.nonzero gts).
  { intros gts Wg gs Hg. induction Hg as [|gt g gts gs X Hg IH]; [reflexivity|]. inversion Wg. subst. cbn [map]. f_equal; [apply edge_pixels_unique; assumption|apply IH; assumption]. }
  assert (Gp : forall gts, Forall (fun gt => wf gt) gts -> Forall2 edge_pixels gts (map ModelThin.nonzero gts)).
  { intros gts Wg. induction Wg as [|gt gts X _ IH]; constructor; [apply edge_pixels_nonzero, X|exact IH]. }
  assert (Lf : List.length fth = List.length th).
  { destruct (ProofsMetrics2.thresholds_int n ltac:(lia)) as (th0 & E0 & L0 & _). rewrite Eth in E0. injection E0 as <-. destruct (fthr_values n Hn) as (fth0 & E1 & L1 & _). rewrite Ef in E1. injection E1 as <-. congruence. }
  eapply safe_weaken.
  - apply (metrics_safe _ (fun F P '(gts, pred) => fbsds_eval_single F P gts pred D n thin) n th fth Good (fun a => 2 ^ 28 * (Z.of_nat (List.length (fst a)) + 1)) samples s); try assumption; [lia| | |].
    + intros [name [gts pred]] s' I V'. destruct (H name gts pred I) as (Wp & G & Us & Cl). cbn [snd]. unfold Good. cbn [fst snd].
      destruct (thresholds_agree Rescale n pred Wp Cl) as (th' & fth' & E1 & E2 & Ag). rewrite Eth in E1. injection E1 as <-.
      eapply (safe_ext _ (fun F P => fevaluate_multiple_gts F P fth' (fprediction Rescale pred) gts D thin)).
      * intros F P. unfold fbsds_eval_single. rewrite E2. reflexivity.
      * apply (fmultiple_safe k N _ (edge_count pred) th fth' _ (unit_range pred) gts _ thin s' Ag); try assumption; [intros Sm; exact (Sm name gts pred I)|apply wf_imap, Wp|]. apply Gp. eapply Forall_impl; [|exact G]. intros gt X. apply X.
    + intros [name [gts pred]] c I Gc. destruct (H name gts pred I) as (Wp & G & Us & Cl). unfold Good in Gc. cbn [fst snd] in Gc |- *. eapply per_threshold_sane; [|exact Gc|]; [lia|].
      intros t a b c0 d (p & Hp & K). destruct (predicted_wf _ _ _ _ Hp) as [Wq [Q1 Q2]]. cbn [unit_range imap ht wd] in Q1, Q2.
      destruct (annotator_counts_are_consistent p (map ModelThin.nonzero gts) (tolerance2 (Zpos k # N) p) a b c0 d Wq) as (A1 & A2 & A3 & _ & A5 & A6 & _); [|exact K|].
      { apply Forall_map. eapply Forall_impl; [|exact G]. intros gt (X1 & _ & [X2 X3]). split; [apply wf_imap, X1|]. split; cbn [ModelThin.nonzero imap ht wd]; congruence. }
      assert (Up : usable k N (ht p) (wd p)) by (rewrite Q1, Q2; exact Us). assert (Pc := usable_count k N p Wq Up).
      assert (Gs : zsum (map (fun g => Z.of_nat (count_true g)) (map ModelThin.nonzero gts)) <= 2 ^ 28 * Z.of_nat (List.length gts)).
      { clear - G Us. induction G as [|gt gts (W & _ & [S1 S2]) _ IH]; [cbn; lia|]. cbn [map]. cbn [List.length].
        match goal with |- zsum (?a :: ?l) <= _ => change (zsum (a :: l)) with (a + zsum l) end.
        assert (Wn : wf (ModelThin.nonzero gt)) by apply wf_imap, W. assert (X := usable_count k N (ModelThin.nonzero gt) Wn). cbn [ModelThin.nonzero imap ht wd] in X. rewrite <- S1, <- S2 in X. specialize (X Us). lia. }
      lia.
    + clear - Cn. assert (X : zsum (map (fun smp : string * (list (image Z) * image Z) => 2 ^ 28 * (Z.of_nat (List.length (fst (snd smp))) + 1)) samples) = 2 ^ 28 * zsum (map (fun smp => Z.of_nat (List.length (fst (snd smp))) + 1) samples)).
      { clear Cn. induction samples as [|a l IH]; [reflexivity|]. cbn [map]. match goal with |- zsum (?a :: ?l) = _ * zsum (?b :: ?l') => change (zsum (a :: l)) with (a + zsum l); change (zsum (b :: l')) with (b + zsum l') end. rewrite IH. lia. }
      rewrite X. lia.
  - intros [[frows ftrs] fov] (cs & rows & trs & ov & G & Es & Sc). exists cs, rows, trs, ov. split; [|split; [exact Es|exact Sc]].
    clear - G H Eg. assert (X : forall l cs, incl l samples -> Forall2 (fun smp c => Good (snd smp) c) l cs -> Forall2 (fun '(_, (gts, pred)) c => forall gs, Forall2 edge_pixels gts gs ->
          exists q, strength_map false pred q /\ per_threshold th c (fun t cr sr cp sp => exists p, predicted thin q t p /\ counted_all p gs (tolerance2 (Zpos k # N) p) cr sr cp sp)) l cs).
    { intros l cs0 I F. induction F as [|[name [gts pred]] c l cs0 Ga _ IH]; constructor; [|apply IH; intros x Hx; apply I; right; exact Hx]. destruct (H name gts pred (I _ (or_introl eq_refl))) as (Wp & Hg & _).
      intros gs Egs. rewrite (Eg gts ltac:(eapply Forall_impl; [|exact Hg]; intros gt X; apply X) gs Egs). exists (unit_range pred). split; [apply unit_range_map, Wp|exact Ga]. }
    apply (X samples cs); [intros x Hx; exact Hx|exact G].
Qed.
Print Assumptions double_bsds_benchmark.

(** *** Theorem 6: the benchmark of one class of Cityscapes or SBD with stored ground truth. *)
(** The files of one image of a data set with stored ground truth ([edge]: the class bits, [seg]: the labels, [pred]:
    the prediction of the class), and what is compared: at [scale], [h] x [w] pixels, the prediction [pred'], the
    edges [e] and the mask [m] of the class. *)
Definition stored_sample (k N : positive) (n : Z) (scale : Q) (category num_classes : Z) (sample : rgb * image Z * image Z)
    (h w : nat) (pred' : image Z) (e m : image bool) : Prop :=
  let '(edge, seg, pred) := sample in
  (rgb_shape edge /\ bytes (ch_r edge) /\ bytes (ch_g edge) /\ bytes (ch_b edge) /\ wf seg /\ wf pred) /\
  (0 < Z.of_nat (g_h edge) <= 2 ^ 16 /\ 0 < Z.of_nat (g_w edge) <= 2 ^ 16 /\ (0 < ht seg)%nat /\ (0 < wd seg)%nat /\ (0 < ht pred)%nat /\ (0 < wd pred)%nat) /\
  (scaled_size (g_h edge) scale h /\ scaled_size (g_w edge) scale w) /\
  (exists r g b seg', resampled 0 (ch_r edge) h w r /\ resampled 0 (ch_g edge) h w g /\ resampled 0 (ch_b edge) h w b /\
    resampled 0 seg h w seg' /\ resampled 0 pred h w pred' /\ class_edges r g b category e /\ label_mask seg' (category - 1) m) /\
  usable k N h w /\ clear_thresholds n pred'.
Lemma class_counts_bounded k N h w thin kill skip q e m t cr sr cp sp : wf q -> wf e -> same_shape q e -> ht e = h -> wd e = w -> usable k N h w ->
  class_counts thin kill skip q e m (tolerance2 (Zpos k # N) e) t cr sr cp sp -> 0 <= cr <= sr /\ 0 <= cp <= sp /\ sr <= 2 ^ 28 /\ sp <= 2 ^ 28.
Proof.
  intros Wq We [S1 S2] Eh Ew Us H. unfold class_counts in H. destruct (skip && negb (any_true e)); [lia|]. destruct H as (p' & (p & Hp & K) & C). destruct (predicted_wf _ _ _ _ Hp) as [Wp [P1 P2]].
  assert (W' : wf p' /\ same_shape p' e).
  { destruct kill; [destruct K as [(_ & Wk & [K1 K2] & _)|(_ & ->)]|subst p']; split; try assumption; split; congruence. }
  destruct W' as [W' S']. destruct (counts_are_consistent p' e _ _ _ _ _ W' We S' C) as (A & B & _ & E1 & E2). destruct S' as [S1' S2'].
  assert (X1 := usable_count k N e We). rewrite Eh, Ew in X1. specialize (X1 Us). assert (X2 := usable_count k N p' W'). rewrite S1', S2', Eh, Ew in X2. specialize (X2 Us). lia.
Qed.
Theorem double_stored_benchmark : forall border k N n th fth scale category num_classes thin kill skip (samples : list (string * (rgb * image Z * image Z))) s,
  let max_dist := rnd (IZR (Zpos k) / IZR (Zpos N)) in
  1 <= n <= 2 ^ 40 -> check_thresholds (AInt n) = Ok th -> fthresholds_of_int n = Ok fth ->
  dyadic scale -> 1 <= category <= num_classes -> num_classes <= 24 ->
  (forall name a, In (name, a) samples -> exists h w pred' e m, stored_sample k N n scale category num_classes a h w pred' e m) ->
  Z.of_nat (List.length samples) <= 2 ^ 25 -> raw_values s ->
  evaluates (forall name a h w pred' e m, In (name, a) samples -> stored_sample k N n scale category num_classes a h w pred' e m -> few k N h w (edge_count pred' + count_true e))
    (fun F P => fcalculate_metrics (fun '(edge, seg, pred) => fevaluate_single_png F P border edge seg pred category (Q2R scale) max_dist n thin kill skip num_classes) n samples) s
    (fun '(frows, ftrs, fov) => exists cs rows trs ov,
       Forall2 (fun '(_, a) c => exists h w pred' e m q, stored_sample k N n scale category num_classes a h w pred' e m /\ strength_map border pred' q /\
          per_threshold th c (class_counts thin kill skip q e m (tolerance2 (Zpos k # N) e))) samples cs /\
       summarise (AInt n) (combine (map fst samples) cs) = Ok (rows, trs, ov) /\
       scores_agree fth (combine (map fst samples) cs) rows trs ov frows ftrs fov).
Proof.
  intros border k N n th fth scale category nc thin kill skip samples s D Hn Eth Ef Dy Hc H24 H Cn V.
  set (Good := fun a c => exists h w pred' e m q, stored_sample k N n scale category nc a h w pred' e m /\ strength_map border pred' q /\
          per_threshold th c (class_counts thin kill skip q e m (tolerance2 (Zpos k # N) e))).
  assert (Lf : List.length fth = List.length th).
  { destruct (ProofsMetrics2.thresholds_int n ltac:(lia)) as (th0 & E0 & L0 & _). rewrite Eth in E0. injection E0 as <-. destruct (fthr_values n Hn) as (fth0 & E1 & L1 & _). rewrite Ef in E1. injection E1 as <-. congruence. }
  eapply safe_weaken.
  - apply (metrics_safe _ (fun F P '(edge, seg, pred) => fevaluate_single_png F P border edge seg pred category (Q2R scale) D n thin kill skip nc) n th fth Good (fun _ => 2 ^ 28) samples s); try assumption; [lia| | |].
    + intros [name [[edge seg] pred]] s' I V'. cbn [snd]. destruct (H name _ I) as (h & w & pred' & e & m & St). assert (St' := St). destruct St' as ((A1 & A2 & A3 & A4 & A5 & A6) & (B1 & B2 & B3 & B4 & B5 & B6) & (C1 & C2) & (r & g & b & seg' & E1 & E2 & E3 & E4 & E5 & E6 & E7) & Us & Cl).
      destruct (double_stored_counts border edge seg pred category scale k N n th thin kill skip nc h w r g b seg' pred' e m s' Eth A1 A2 A3 A4 A5 A6 B1 B2 B3 B4 B5 B6 Dy C1 C2 E1 E2 E3 E4 E5 Hc H24 E6 E7 Us Cl V') as (q & Sq & X).
      destruct X as [X Y]. eapply (safe_weaken _ _ _ (fun c => per_threshold th c (class_counts thin kill skip q e m (tolerance2 (Zpos k # N) e)))).
      * split; [exact X|]. intros Sm. apply Y. exact (Sm name _ h w pred' e m I St).
      * intros c Hcc. exists h, w, pred', e, m, q. split; [exact St|]. split; [exact Sq|exact Hcc].
    + intros [name a] c I (h & w & pred' & e & m & q & St & Sq & Hcc). eapply per_threshold_sane; [|exact Hcc|]; [lia|].
      destruct a as [[edge seg] pred]. destruct St as (_ & _ & _ & (r & g & b & seg' & E1 & _ & _ & _ & E5 & E6 & _) & Us & _).
      destruct E1 as (_ & R1 & R2 & _). destruct E5 as (_ & P1 & P2 & _). destruct E6 as (We & [F1 F2] & _). destruct Sq as (Wq & [G1 G2] & _).
      intros t cr sr cp sp X. apply (class_counts_bounded k N h w thin kill skip q e m t); try assumption; try congruence. split; congruence.
    + clear - Cn. assert (X : zsum (map (fun _ : string * (rgb * image Z * image Z) => 2 ^ 28) samples) = 2 ^ 28 * Z.of_nat (List.length samples)).
      { clear Cn. induction samples as [|a l IH]; [reflexivity|]. cbn [map List.length]. match goal with |- zsum (?a :: ?l) = _ => change (zsum (a :: l)) with (a + zsum l) end. rewrite IH. lia. }
      rewrite X. lia.
  - intros [[frows ftrs] fov] (cs & rows & trs & ov & G & Es & Sc). exists cs, rows, trs, ov. split; [|split; [exact Es|exact Sc]].
    clear - G. induction G as [|[name a] c l cs X _ IH]; constructor; [exact X|exact IH].
Qed.
Print Assumptions double_stored_benchmark.

(** *** The hypotheses can be met *)
(** BSDS images with max_dist = 0.0075, Cityscapes images with 0.0035 (and at half size with 0.0035), SBD with 0.02. *)
Example ex_usable : usable 3 400 321 481 /\ usable 7 2000 1024 2048 /\ usable 7 2000 512 1024 /\ usable 1 50 375 500.
Proof. unfold usable. cbn [Z.of_nat]. repeat split; try lia; intros m; cbn zeta; lia. Qed.
Example ex_few : few 3 400 321 481 711 /\ few 1 50 375 500 418.
Proof. split; [exists 43373|exists 125001]; cbn zeta; repeat split; try lia; vm_compute; discriminate. Qed.
Example ex_scales : dyadic 1 /\ dyadic (1 # 2) /\ dyadic (3 # 4).
Proof. repeat split; [exists 1, 0|exists 1, 1|exists 3, 2]; (split; [lia|split; [lia|reflexivity]]). Qed.
(** Four images of two annotators each; the 8 x 8 prediction has strengths 0, 31, ..., 217. *)
Definition ex_pred8 : image Z := tab 8 8 (fun y x => if y =? 3 then 31 * x else 0).
Definition ex_gt8 (c : Z) : image Z := tab 8 8 (fun y x => if (y =? c) && (x <? 6) then 1 else 0).
Definition ex_samples : list (string * (list (image Z) * image Z)) :=
  [("a"%string, ([ex_gt8 3; ex_gt8 4], ex_pred8)); ("b"%string, ([ex_gt8 2; ex_gt8 3], ex_pred8));
   ("c"%string, ([ex_gt8 0; ex_gt8 9], ex_pred8)); ("d"%string, ([ex_gt8 3; ex_gt8 3], ex_pred8))].
Lemma ex_tab_binary c : binary (ex_gt8 c).
Proof. intros y x. unfold ex_gt8. rewrite px_tab. destruct (inb 8 8 y x); [|left; reflexivity]. destruct (_ && _); auto. Qed.
Example ex_benchmark_hypotheses :
  (forall name gts pred, In (name, (gts, pred)) ex_samples ->
     wf pred /\ Forall (fun gt => wf gt /\ binary gt /\ same_shape pred gt) gts /\ usable 3 20 (ht pred) (wd pred) /\ clear_thresholds 99 pred) /\
  (forall name gts pred, In (name, (gts, pred)) ex_samples -> Forall (fun gt => few 3 20 (ht pred) (wd pred) (edge_count pred + edge_count gt)) gts) /\
  zsum (map (fun smp => Z.of_nat (List.length (fst (snd smp))) + 1) ex_samples) <= 2 ^ 25.
Proof.
  assert (P : forall name gts pred, In (name, (gts, pred)) ex_samples -> pred = ex_pred8 /\ exists a b, gts = [ex_gt8 a; ex_gt8 b] /\ In a [0; 2; 3] /\ In b [3; 4; 9]).
  { intros name gts pred I. cbn [In ex_samples] in I. repeat (destruct I as [I|I]; [injection I as <- <- <-; split; [reflexivity|]; eexists _, _; split; [reflexivity|]; cbn [In]; lia|]). destruct I. }
  split; [|split].
  - intros name gts pred I. destruct (P _ _ _ I) as (-> & a & b & -> & _). split; [apply wf_tab|]. split; [|split].
    + repeat (constructor; [split; [apply wf_tab|split; [apply ex_tab_binary|split; reflexivity]]|]). constructor.
    + unfold usable, ex_pred8. cbn [ht wd tab Z.of_nat]. repeat split; try lia; intros m; cbn zeta; lia.
    + split; [lia|]. split; [|left; reflexivity]. intros y x. unfold ex_pred8. rewrite px_tab. destruct (inb 8 8 y x) eqn:E; [|lia]. apply inb_spec in E. destruct (y =? 3); lia.
  - intros name gts pred I. destruct (P _ _ _ I) as (-> & a & b & -> & Ia & Ib).
    assert (F : few 3 20 8 8 20) by (exists 16972; cbn zeta; repeat split; try lia; vm_compute; discriminate).
    assert (G : forall c, In c [0; 2; 3; 4; 9] -> few 3 20 (ht ex_pred8) (wd ex_pred8) (edge_count ex_pred8 + edge_count (ex_gt8 c))).
    { intros c Ic. apply (few_mono _ _ _ _ _ 20 F). cbn [In] in Ic. repeat (destruct Ic as [<-|Ic]; [vm_compute; lia|]). destruct Ic. }
    repeat (constructor; [apply G; cbn [In] in *; lia|]). constructor.
  - vm_compute. discriminate.
Qed.
