(** C54: the result of one category, from the files on the disk to the scores. *)
From Verif Require Import SpecCategory ProofsWorkers PropertiesPrepare ProofsImage ProofsThin ProofsLabels ProofsEval ProofsMetrics2 ProofsPaths PropertiesMetrics PropertiesEval PropertiesSamples.
From Coq Require Import Permutation Lia ZifyBool ZifyNat Lqa.
Open Scope Z_scope.
Open Scope list_scope.

(** ** The required images exist *)
Lemma edges_exist r g b c : exists e, class_edges r g b c e.
Proof.
  exists (tab (ht r) (wd r) (fun y x => Z.testbit (px 0 b y x + 256 * px 0 g y x + 65536 * px 0 r y x) (c - 1))).
  split; [apply wf_tab|]. split; [split; reflexivity|]. intros y x. rewrite px_tab. destruct (inb (ht r) (wd r) y x); split; try tauto; try (intros []; discriminate); try discriminate.
Qed.
Lemma mask_exists seg l : exists m, label_mask seg l m.
Proof.
  exists (tab (ht seg) (wd seg) (fun y x => px 0 seg y x =? l)). split; [apply wf_tab|]. split; [split; reflexivity|]. intros y x. rewrite px_tab.
  destruct (inb (ht seg) (wd seg) y x); [rewrite Z.eqb_eq; tauto|]. split; [discriminate|intros []; discriminate].
Qed.
Lemma strengths_shape o c s border nms im q : strengths o c s border nms im q -> wf q /\ same_shape q im.
Proof.
  intros (p & (Wp & [S1 S2] & _) & H). destruct nms; [|subst q; split; [exact Wp|split; assumption]].
  destruct H as (sm & bl & _ & _ & W & [T1 T2] & _). split; [exact W|]. split; congruence.
Qed.
Lemma counts_sane th c thin kill skip q g m tol2 : wf q -> wf g -> same_shape q g -> per_threshold th c (class_counts thin kill skip q g m tol2) -> sane c /\ shaped (List.length th) c.
Proof.
  intros Wq Wg [S1 S2] (L1 & L2 & L3 & L4 & H). split; [|split; [exact L1|]; split; [exact L2|]; split; assumption]. intros i. destruct (Nat.lt_ge_cases i (List.length th)) as [Hi|Hi].
  - destruct (nth_error th i) as [t|] eqn:E; [|apply nth_error_None in E; lia]. specialize (H i t E). unfold class_counts in H.
    destruct (skip && negb (any_true g)); [lia|]. destruct H as (p' & (p & Hp & K) & C). destruct (predicted_wf _ _ _ _ Hp) as [Wp [P1 P2]].
    assert (W' : wf p' /\ same_shape p' g).
    { destruct kill; [destruct K as [(_ & Wk & [K1 K2] & _)|(_ & ->)]|subst p']; split; try assumption; split; congruence. }
    destruct W' as [W' S']. destruct (counts_are_consistent p' g tol2 _ _ _ _ W' Wg S' C) as (A & B & _). split; assumption.
  - rewrite !nth_overflow by lia. lia.
Qed.

Section Result.
Variables (thr : tharg) (th : list Q).
Hypothesis Eth : check_thresholds thr = Ok th.
Hypothesis Nth : th <> [].
(** The scores of counts with an entry for each threshold. *)
Lemma result_of_counts (names : list text) (per_sample : text -> counts -> Prop) cs : names <> [] -> Forall2 per_sample names cs ->
  (forall n c, per_sample n c -> sane c /\ shaped (List.length th) c) ->
  exists result, summarise thr (combine (map name_string names) cs) = Ok result /\ category_result thr th names per_sample result.
Proof.
  intros Hn F K. assert (L : List.length cs = List.length names) by (clear - F; induction F; cbn; congruence).
  assert (Sc : Forall (fun c => sane c /\ shaped (List.length th) c) cs) by (clear - F K; induction F; constructor; eauto).
  assert (Hs : forall s, In s (combine (map name_string names) cs) -> sane (snd s) /\ shaped (List.length th) (snd s)).
  { intros [a c] I. apply in_combine_r in I. rewrite Forall_forall in Sc. exact (Sc c I). }
  destruct (summarise_outcome thr (combine (map name_string names) cs) th Eth Nth) as [(Sh & ods & _ & E)|(Sh & _)].
  2:{ exfalso. apply Sh. apply Forall_forall. intros s I. apply (Hs s I). }
  match type of E with _ = Ok ?r => set (result := r) in * end. clearbody result. exists result. split; [exact E|]. exists cs. split; [exact F|]. split; [eapply Forall_impl; [|exact Sc]; intros c0 [X0 _]; exact X0|].
  destruct result as [[rows trs] ov].
  assert (M1 : map fst (combine (map name_string names) cs) = map name_string names /\ map snd (combine (map name_string names) cs) = cs).
  { clear - L. revert cs L. induction names as [|n names IH]; intros [|c cs] L; try discriminate; [split; reflexivity|]. injection L as L. destruct (IH cs L) as [A B]. cbn [map combine fst snd]. rewrite A, B. split; reflexivity. }
  destruct M1 as [M1 M2]. split; [rewrite <- M1; eapply sample_rows_follow_samples; exact E|]. split; [|split; [exact E|]].
  - destruct (threshold_rows_are_scores_of_summed_counts thr _ rows trs ov th Eth E) as [A B]. split; [exact A|]. intros i Hi. specialize (B i Hi). cbv zeta in B |- *. rewrite B.
    assert (T : forall f, SpecMetrics.total f i (combine (map name_string names) cs) = zsum (map (fun c => nth i (f c) 0) cs)).
    { intros f. unfold SpecMetrics.total. rewrite <- M2 at 2. rewrite map_map. reflexivity. }
    rewrite !T. reflexivity.
  - destruct (reported_scores_in_unit_interval thr _ rows trs ov E ltac:(intros s I; apply Hs; exact I)) as (A1 & A2 & A3 & A4 & A5 & A6 & A7 & A8 & _).
    intros x I. cbn [In] in I. assert (A8' : (0 <= AP ov <= 1)%Q) by (destruct A8 as [A8 B8]; split; [exact A8|eapply Qle_trans; [exact B8|unfold Qle; cbn; lia]]).
    intuition (subst x; assumption).
Qed.
End Result.

Section Run.
Variables (lib : libm) (w : workers) (k : kind) (root pred split gt_arg gt suffix : text) (suffix_arg : option text) (thin inst : bool) (category : Z) (a : attrs) (e : eparams) (thr : tharg) (th : list Q).
Hypothesis Hk : k <> BSDS.
Hypothesis Hroot : directory root.
Hypothesis Hpred : directory pred.
Hypothesis Hsplit : component split.
Hypothesis Hgt : directory_used gt_arg gt.
Hypothesis Hsuffix : suffix_used k suffix_arg suffix.
Hypothesis Hinst : a_inst a = Some inst.
Hypothesis Hready : eval_params k thin a = Ok e.
Hypothesis Hcat : 1 <= category <= (match k with SBD | Reanno => 20 | _ => 19 end).
Hypothesis Eth : check_thresholds thr = Ok th.
Hypothesis Nth : th <> [].
Let place := mkPlace root pred split thin gt_arg suffix_arg.
Let truth := ground_truth k root gt split thin inst.
Let guess n := prediction pred category n suffix.
Lemma run_delivers d names (per_sample : text -> counts -> Prop) s : all_finished (List.length names) w -> names <> [] -> (forall n, In n names -> relative n /\ n <> []) ->
  (forall n f, In n names -> In f (files_of (truth n)) -> d f <> None) ->
  (forall n c, per_sample n c -> sane c /\ shaped (List.length th) c) ->
  (forall n s, In n names -> raw_values s -> delivers (fun F P => eval_sample F P lib d k (Z.of_nat (n_classes_of k)) category thr e (mkSample n (truth n) (guess n))) s (per_sample n)) ->
  raw_values s ->
  delivers (fun F P => evaluate_category_run F P lib w d k place true (Some names) a thr category) s (category_result thr th names per_sample).
Proof.
  intros Fin Hne Hn Hf Ks D V.
  apply (delivers_ext (fun F P => then_ (each w (fun n => eval_sample F P lib d k (Z.of_nat (n_classes_of k)) category thr e (mkSample n (truth n) (guess n))) names)
    (fun metrics r => bind (summarise thr (combine (map name_string names) metrics)) (fun c => Ok (Some (c, r)))))).
  { intros F P. unfold place. rewrite (category_run F P lib w k root pred split gt_arg gt suffix suffix_arg thin inst category a e thr) by assumption.
    fold truth. replace (forallb _ names) with true.
    2:{ symmetry. apply forallb_forall. intros n I. apply forallb_forall. intros f If. unfold on_disk. assert (X := Hf n f I If). destruct (d f); [reflexivity|congruence]. }
    unfold then_. f_equal. rewrite each_map. reflexivity. }
  apply (delivers_then (fun F P => each w (fun n => eval_sample F P lib d k (Z.of_nat (n_classes_of k)) category thr e (mkSample n (truth n) (guess n))) names) _ s (fun cs => Forall2 per_sample names cs)).
  - apply (each_delivers w (fun F P n => eval_sample F P lib d k (Z.of_nat (n_classes_of k)) category thr e (mkSample n (truth n) (guess n))) per_sample names s Fin V). intros n s' I V'. apply D; assumption.
  - intros cs s' V' F2. destruct (result_of_counts thr th Eth Nth names per_sample cs Hne F2 Ks) as (result & E & R).
    apply (delivers_ext (fun _ _ => ret result)); [intros F P; rewrite E; reflexivity|]. apply delivers_ret; assumption.
Qed.
End Run.

(** *** C54, theorem 1: stored ground truth (SBD, re-annotated SBD, Cityscapes, half size Cityscapes).  With
    all files in place the evaluation of a category delivers, whatever the generator, and the counts of every
    image are those of its files. *)
Theorem stored_category_evaluation : forall lib ws k root pred split gt_arg gt suffix suffix_arg thin inst category a e thr th d names s,
  In k [SBD; Reanno; City; Half] -> directory root -> directory pred -> component split -> directory_used gt_arg gt -> suffix_used k suffix_arg suffix ->
  a_inst a = Some inst -> eval_params k thin a = Ok e -> 1 <= category <= (match k with SBD | Reanno => 20 | _ => 19 end) ->
  check_thresholds thr = Ok th -> th <> [] -> (0 <= e_scale e)%Q -> (0 < e_dist e)%Q ->
  all_finished (List.length names) ws -> names <> [] -> (forall n, In n names -> relative n /\ n <> []) ->
  (forall n, In n names -> exists edge seg p, stored_sample d (ground_truth k root gt split thin inst n) (prediction pred category n suffix) edge seg p /\ stored_usable e edge seg p) ->
  raw_values s ->
  delivers (fun F P => evaluate_category_run F P lib ws d k (mkPlace root pred split thin gt_arg suffix_arg) true (Some names) a thr category) s
    (category_result thr th names (fun n c => exists edge seg p,
       stored_sample d (ground_truth k root gt split thin inst n) (prediction pred category n suffix) edge seg p /\
       stored_counts lib (ignores_border k) category e th edge seg p c)).
Proof.
  intros lib ws k root pred split gt_arg gt suffix suffix_arg thin inst category a e thr th d names s Hk Hroot Hpred Hsplit Hgt Hsuffix Hinst Hready Hcat Eth Nth Hsc Hd Fin Hne Hn Files V.
  assert (Hb : k <> BSDS) by (intros ->; cbn in Hk; intuition discriminate).
  assert (Shape : forall n, exists ef sf, ground_truth k root gt split thin inst n = EdgeSeg ef sf) by (intros n; destruct k; cbn in Hk; try (intuition discriminate); cbn [ground_truth]; eauto).
  apply (run_delivers lib ws k root pred split gt_arg gt suffix suffix_arg thin inst category a e thr th); try assumption.
  - intros n f I If. destruct (Files n I) as (edge & seg & p & Fs & _). destruct (Shape n) as (ef & sf & G). rewrite G in *. destruct Fs as (F1 & F2 & _). cbn [files_of] in If. destruct If as [<-|[<-|[]]]; congruence.
  - intros n c (edge & seg & p & _ & h & w & r & g & b & seg' & pred' & E & m & q & _ & _ & Rr & _ & _ & _ & Rp & Ce & _ & Sq & C).
    destruct (strengths_shape _ _ _ _ _ _ _ Sq) as [Wq [Q1 Q2]]. destruct Ce as (We & [E1 E2] & _). destruct Rr as (_ & R1 & R2 & _). destruct Rp as (_ & P1 & P2 & _).
    apply (counts_sane th c _ _ _ q E m _ Wq We ltac:(split; congruence) C).
  - intros n s' I V'. destruct (Files n I) as (edge & seg & p & Fs & (Re & Br & Bg & Bb & Ws & Wp & P1 & P2 & P3 & P4 & P5 & P6 & Sz)). destruct (Shape n) as (ef & sf & G). rewrite G in *. destruct Fs as (F1 & F2 & F3).
    destruct (scaled_is_rounding (g_h edge) (e_scale e) Hsc) as [Sh _]. destruct (scaled_is_rounding (g_w edge) (e_scale e) Hsc) as [Sw _].
    set (h := scaled (g_h edge) (e_scale e)) in *. set (w := scaled (g_w edge) (e_scale e)) in *. destruct (Sz h w Sh Sw) as [Nz Nn].
    destruct Re as ((R1 & R2) & (G1 & G2) & (B1 & B2)).
    assert (Rr := resize_resamples (ch_r edge) h w ltac:(lia) ltac:(lia)). assert (Rg := resize_resamples (ch_g edge) h w ltac:(lia) ltac:(lia)). assert (Rb := resize_resamples (ch_b edge) h w ltac:(lia) ltac:(lia)).
    assert (Rs := resize_resamples seg h w ltac:(lia) ltac:(lia)). assert (Rp := resize_resamples p h w ltac:(lia) ltac:(lia)).
    set (r := resize 0 h w (ch_r edge)) in *. set (g := resize 0 h w (ch_g edge)) in *. set (b := resize 0 h w (ch_b edge)) in *. set (seg' := resize 0 h w seg) in *. set (pred' := resize 0 h w p) in *.
    destruct (edges_exist r g b category) as (E & Ce). destruct (mask_exists seg' (category - 1)) as (m & Lm).
    assert (Nc : n_classes_of k = 20%nat /\ ignores_border k = true \/ n_classes_of k = 19%nat /\ ignores_border k = false) by (destruct k; cbn in Hk; try (intuition discriminate); auto).
    assert (Hc : 1 <= category <= Z.of_nat (n_classes_of k) /\ Z.of_nat (n_classes_of k) <= 24) by (destruct k; cbn in Hk; try (intuition discriminate); cbn [n_classes_of]; lia).
    assert (Bk : (match k with SBD | Reanno => true | _ => false end) = ignores_border k) by reflexivity.
    (* the segmentation is only read when needed; the mask does not matter otherwise *)
    assert (Main : exists q, strengths (l_orient lib) (l_cos lib) (l_sin lib) (ignores_border k) (e_nms e) pred' q /\
      delivers (fun F P => eval_sample F P lib d k (Z.of_nat (n_classes_of k)) category thr e (mkSample n (EdgeSeg ef sf) (prediction pred category n suffix))) s'
        (fun c => per_threshold th c (class_counts (e_thinning e) (on (e_kill e)) (on (e_skip e)) q E m (tolerance2 (e_dist e) E)))).
    { destruct (on (e_kill e)) eqn:Kill.
      - destruct (stored_evaluation_counts lib (ignores_border k) edge seg p category (e_scale e) (e_dist e) thr th (e_thinning e) (e_nms e) true (on (e_skip e)) (Z.of_nat (n_classes_of k)) h w r g b seg' pred' E m s') as (q & Sq & D);
          try assumption; try (split; split; congruence); try tauto; [split; [split; assumption|split; split; assumption]|].
        exists q. split; [exact Sq|]. eapply delivers_ext; [|exact D]. intros F P. unfold eval_sample. cbn [sm_gt sm_pred]. rewrite Eth. unfold open_colour, open_gray. rewrite F1, F2, F3. cbn [bind].
        unfold on in Kill. rewrite Kill. cbn [bind]. reflexivity.
      - destruct (mask_exists pred' (category - 1)) as (m' & Lm').
        destruct (stored_evaluation_counts lib (ignores_border k) edge p p category (e_scale e) (e_dist e) thr th (e_thinning e) (e_nms e) false (on (e_skip e)) (Z.of_nat (n_classes_of k)) h w r g b pred' pred' E m' s') as (q & Sq & D);
          try assumption; try tauto; [split; [split; assumption|split; split; assumption]|].
        exists q. split; [exact Sq|]. eapply delivers_ext; [|exact D]. intros F P. unfold eval_sample. cbn [sm_gt sm_pred]. rewrite Eth. unfold open_colour, open_gray. rewrite F1, F3. cbn [bind].
        unfold on in Kill. rewrite Kill. cbn [bind]. reflexivity. }
    destruct Main as (q & Sq & D). eapply delivers_weaken; [exact D|]. intros c C. exists edge, seg, p. split; [split; [exact F1|split; assumption]|].
    exists h, w, r, g, b, seg', pred', E, m, q. repeat (split; [assumption|]). exact C.
Qed.
Print Assumptions stored_category_evaluation.

Lemma cityscapes_edges_exist img inst radius category label : wf img -> (34 <= ht img)%nat -> 1 <= category -> In (label, category - 1) CITYSCAPES_label2trainId ->
  match inst with None => True | Some i => wf i /\ ht i = ht img /\ wd i = wd img /\ (forall id, has_id i id -> 0 <= id < 100000) end ->
  exists e, cityscapes_class_edges img inst label radius e.
Proof.
  intros W H Hc Hin Hi.
  assert (X : exists gt, forall y x, inb (ht img) (wd img) y x = true -> (px 0 gt y x = 1 <-> match inst with
    | None => boundary_spec (region img label) (cityscapes_ignored img) radius y x
    | Some i => has_id img label /\ (boundary_spec (region img label) (cityscapes_ignored img) radius y x \/
         24 <= label /\ exists id, has_id i id /\ id / 1000 = label /\ boundary_spec (region i id) (cityscapes_ignored img) radius y x) end)).
  { destruct inst as [i|].
    - destruct Hi as (Wi & H1 & H2 & R). destruct (cityscapes_instance_pixels img i radius category label W Wi H H1 H2 R Hc Hin) as (png & gt & _ & _ & _ & P). exists gt. intros y x I. apply (P y x I).
    - destruct (cityscapes_semantic_pixels img radius category label W H Hc Hin) as (png & gt & _ & _ & _ & P). exists gt. intros y x I. apply (P y x I). }
  destruct X as (gt & P). exists (tab (ht img) (wd img) (fun y x => px 0 gt y x =? 1)). split; [apply wf_tab|]. split; [split; reflexivity|]. intros y x. rewrite px_tab.
  destruct (inb (ht img) (wd img) y x) eqn:I.
  - rewrite Z.eqb_eq, (P y x I). split; [intros A; split; [reflexivity|exact A]|intros [_ A]; exact A].
  - split; [discriminate|intros [C _]; discriminate].
Qed.

(** *** C54, theorem 2: ground truth computed from the Cityscapes labels during the evaluation.  [label] is
    the Cityscapes label of the category; the radius of the edges is 1 for thinned and 2 for raw ground truth. *)
Theorem label_category_evaluation : forall lib ws root pred split gt_arg gt suffix suffix_arg thin inst category label a e thr th d names s,
  directory root -> directory pred -> component split -> directory_used gt_arg gt -> suffix_used OTF suffix_arg suffix ->
  a_inst a = Some inst -> eval_params OTF thin a = Ok e -> 1 <= category <= 19 -> In (label, category - 1) CITYSCAPES_label2trainId ->
  check_thresholds thr = Ok th -> th <> [] -> (0 <= e_scale e)%Q -> (0 < e_dist e)%Q ->
  all_finished (List.length names) ws -> names <> [] -> (forall n, In n names -> relative n /\ n <> []) ->
  (forall n, In n names -> exists img insts p, label_sample d (ground_truth OTF root gt split thin inst n) (prediction pred category n suffix) img insts p /\ label_usable e img insts p) ->
  raw_values s ->
  delivers (fun F P => evaluate_category_run F P lib ws d OTF (mkPlace root pred split thin gt_arg suffix_arg) true (Some names) a thr category) s
    (category_result thr th names (fun n c => exists img insts p,
       label_sample d (ground_truth OTF root gt split thin inst n) (prediction pred category n suffix) img insts p /\
       label_counts lib category label (if thin then 1 else 2) e th img insts p c)).
Proof.
  intros lib ws root pred split gt_arg gt suffix suffix_arg thin inst category label a e thr th d names s Hroot Hpred Hsplit Hgt Hsuffix Hinst Hready Hcat Hlabel Eth Nth Hsc Hd Fin Hne Hn Files V.
  assert (Hr : e_radius e = Some (if thin then 1 else 2)).
  { unfold eval_params in Hready. destruct (getattr (a_scale a)); [|discriminate]. destruct (getattr (a_thinning a)); [|discriminate]. destruct (getattr (a_nms a)); [|discriminate].
    destruct (getattr (a_dist a)); [|discriminate]. destruct (getattr (a_kill a)); [|discriminate]. destruct (getattr (a_skip a)); [|discriminate]. cbn [bind] in Hready. injection Hready as <-. reflexivity. }
  apply (run_delivers lib ws OTF root pred split gt_arg gt suffix suffix_arg thin inst category a e thr th); try assumption; try discriminate.
  - intros n f I If. destruct (Files n I) as (img & insts & p & Fs & _). cbn [ground_truth] in Fs, If. unfold label_sample in Fs. unfold files_of in If.
    destruct inst; destruct insts; destruct Fs as (F1 & F2 & F3); try contradiction; cbn [In] in If; intuition congruence.
  - intros n c (img & insts & p & _ & h & w & img' & insts' & pred' & E & m & q & _ & _ & Ri & Rp & _ & Ce & _ & Sq & C).
    destruct (strengths_shape _ _ _ _ _ _ _ Sq) as [Wq [Q1 Q2]]. destruct Ce as (We & [E1 E2] & _). destruct Ri as (_ & R1 & R2 & _). destruct Rp as (_ & P1 & P2 & _).
    apply (counts_sane th c _ _ _ q E m _ Wq We ltac:(split; congruence) C).
  - intros n s' I V'. destruct (Files n I) as (img & insts & p & Fs & (Wi & Wp & P1 & P2 & P3 & P4 & Pi & Sz)).
    destruct (scaled_is_rounding (ht img) (e_scale e) Hsc) as [Sh _]. destruct (scaled_is_rounding (wd img) (e_scale e) Hsc) as [Sw _].
    set (h := scaled (ht img) (e_scale e)) in *. set (w := scaled (wd img) (e_scale e)) in *. destruct (Sz h w Sh Sw) as [Nz Nn].
    assert (Ri := resize_resamples img h w ltac:(lia) ltac:(lia)). assert (Rp := resize_resamples p h w ltac:(lia) ltac:(lia)).
    assert (Rj : match insts, option_map (resize 0 h w) insts with Some i, Some i' => resampled 0 i h w i' | None, None => True | _, _ => False end).
    { destruct insts as [i|]; [|exact Logic.I]. cbn [option_map]. apply resize_resamples; lia. }
    set (img' := resize 0 h w img) in *. set (pred' := resize 0 h w p) in *. set (insts' := option_map (resize 0 h w) insts) in *.
    assert (Hi' : ht img' = h /\ wd img' = w) by (split; apply Ri). destruct Hi' as [Hi1 Hi2].
    destruct (cityscapes_edges_exist img' insts' (if thin then 1 else 2) category label) as (E & Ce); [apply Ri|lia|lia|assumption| |].
    { destruct insts as [i|]; [|exact Logic.I]. cbn [option_map] in insts'. subst insts'. cbv beta iota. destruct Pi as (_ & _ & D). destruct Rj as (R1 & R2 & R3 & R4).
      split; [exact R1|]. split; [congruence|]. split; [congruence|]. intros id (y & x & Iid & Eid). rewrite R2, R3 in Iid. destruct (R4 y x Iid) as (y' & x' & I' & _ & _ & Ev). apply D. exists y', x'. split; [exact I'|congruence]. }
    destruct (mask_exists img' label) as (m & Lm).
    destruct (on_the_fly_evaluation_counts lib img insts p category label (e_scale e) (e_dist e) thr th (e_thinning e) (e_nms e) (on (e_kill e)) (on (e_skip e)) (if thin then 1 else 2) h w img' insts' pred' E m s') as (q & Sq & D);
      try assumption; try lia.
    { clear - Rj Pi. destruct insts as [i|]; [|exact I]. cbn [option_map] in *. destruct Pi as (A & B & C). subst insts'. cbv beta iota. auto. }
    assert (Gt : exists lf jf, ground_truth OTF root gt split thin inst n = SegInst lf jf) by (cbn [ground_truth]; eauto). destruct Gt as (lf & jf & G).
    rewrite G in *. unfold label_sample in Fs. destruct Fs as (F1 & F2 & F3).
    destruct (trainId2label_ok category Hcat) as (l0 & El & _).
    eapply delivers_weaken.
    { eapply delivers_ext; [|exact D]. intros F P. unfold eval_sample. cbn [sm_gt sm_pred]. rewrite Eth, El, Hr. unfold open_gray. rewrite F1, F2. cbn [bind].
      destruct jf as [jf|], insts as [i|]; try contradiction; [rewrite F3|]; reflexivity. }
    intros c C. exists img, insts, p. split; [unfold label_sample; auto|]. exists h, w, img', insts', pred', E, m, q. repeat (split; [assumption|]). exact C.
Qed.
Print Assumptions label_category_evaluation.

(** ** The hypotheses are met: one sample, at scale 1/2 *)
Definition ex_city_disk : disk := fun t =>
  if text_eqb t (lit "/data/gtEval/val/f/f_0_gtProc_thin_isedge.png") then Some (Colour ex_half_edge)
  else if text_eqb t (lit "/data/gtEval/val/f/f_0_gtFine_labelTrainIds.png") then Some (Gray ex_half_seg)
  else if text_eqb t (lit "out/class_002/f/f_0_leftImg8bit.png") then Some (Gray ex_half_pred) else None.
Definition ex_attrs : attrs := mkAttrs (Some (1 # 2)%Q) (Some true) (Some true) (Some (35 # 10000)%Q) (Some true) (Some true) (Some true).
Lemma ex_dir t : t <> [] -> nth 0 (rev t) "x"%char <> "/"%char -> directory t.
Proof. intros H K. split; [exact H|]. intros d ->. apply K. rewrite rev_app_distr. reflexivity. Qed.
Example ex_stored_category : forall lib s, raw_values s ->
  delivers (fun F P => evaluate_category_run F P lib (mkWorkers 4 (fun i => i) [0%nat]) ex_city_disk City (mkPlace (lit "/data") (lit "out") (lit "val") true [] None) true (Some [lit "f/f_0"]) ex_attrs (AInt 99) 2) s
    (fun r => exists th, check_thresholds (AInt 99) = Ok th /\ category_result (AInt 99) th [lit "f/f_0"] (fun n c => exists edge seg p,
       stored_sample ex_city_disk (ground_truth City (lit "/data") (lit "gtEval") (lit "val") true true n) (prediction (lit "out") 2 n (lit "_leftImg8bit.png")) edge seg p /\
       stored_counts lib false 2 (mkEP (1 # 2) true true (35 # 10000) (Some true) (Some true) None) th edge seg p c) r).
Proof.
  intros lib s V. destruct (check_thresholds (AInt 99)) as [th|] eqn:E; [|discriminate].
  eapply delivers_weaken.
  - apply (stored_category_evaluation lib (mkWorkers 4 (fun i => i) [0%nat]) City (lit "/data") (lit "out") (lit "val") [] (lit "gtEval") (lit "_leftImg8bit.png") None true true 2 ex_attrs (mkEP (1 # 2) true true (35 # 10000) (Some true) (Some true) None) (AInt 99) th ex_city_disk [lit "f/f_0"] s);
      try exact E; try exact V; try discriminate; try reflexivity; try lia.
    + cbn. tauto.
    + apply ex_dir; discriminate.
    + apply ex_dir; discriminate.
    + split; [discriminate|vm_compute; intuition discriminate].
    + right. split; reflexivity.
    + right. split; reflexivity.
    + intros ->. discriminate E.
    + intros _. apply Permutation_refl.
    + intros n [<-|[]]. split; [cbn; discriminate|discriminate].
    + intros n [<-|[]]. exists ex_half_edge, ex_half_seg, ex_half_pred. split; [split; [reflexivity|split; reflexivity]|].
      split; [split; [split; reflexivity|split; split; reflexivity]|].
      split; [apply bytes_tab; intros; lia|]. split; [apply bytes_tab; intros; lia|]. split; [apply bytes_tab; intros y x; destruct (_ || _); lia|].
      split; [apply wf_tab|]. split; [apply wf_tab|]. repeat (split; [cbn; lia|]). intros h w Sh Sw.
      rewrite (proj2 (scaled_is_rounding 12 (1 # 2) ltac:(discriminate)) h Sh), (proj2 (scaled_is_rounding 12 (1 # 2) ltac:(discriminate)) w Sw). cbn. lia.
  - intros r R. exists th. split; [reflexivity|exact R].
Qed.
Definition ex_label_img : image Z := tab 80 8 (fun y x => if x <? 4 then 26 else 7).
Definition ex_inst_img : image Z := tab 80 8 (fun y x => if x <? 4 then if y <? 40 then 26000 else 26001 else 7).
Definition ex_otf_disk : disk := fun t =>
  if text_eqb t (lit "/data/gtFine/val/f/f_0_gtFine_labelIds.png") then Some (Gray ex_label_img)
  else if text_eqb t (lit "/data/gtFine/val/f/f_0_gtFine_instanceIds.png") then Some (Gray ex_inst_img)
  else if text_eqb t (lit "out/class_014/f/f_0_leftImg8bit.png") then Some (Gray (zeros 80 8)) else None.
Example ex_label_category : forall lib s, raw_values s ->
  delivers (fun F P => evaluate_category_run F P lib (mkWorkers 4 (fun i => i) [0%nat]) ex_otf_disk OTF (mkPlace (lit "/data") (lit "out") (lit "val") false [] None) true (Some [lit "f/f_0"]) ex_attrs (AInt 5) 14) s
    (fun r => exists th, check_thresholds (AInt 5) = Ok th /\ category_result (AInt 5) th [lit "f/f_0"] (fun n c => exists img insts p,
       label_sample ex_otf_disk (ground_truth OTF (lit "/data") (lit "gtEval") (lit "val") false true n) (prediction (lit "out") 14 n (lit "_leftImg8bit.png")) img insts p /\
       label_counts lib 14 26 2 (mkEP (1 # 2) true true (35 # 10000) (Some true) (Some true) (Some 2)) th img insts p c) r).
Proof.
  intros lib s V. destruct (check_thresholds (AInt 5)) as [th|] eqn:E; [|discriminate].
  eapply delivers_weaken.
  - apply (label_category_evaluation lib (mkWorkers 4 (fun i => i) [0%nat]) (lit "/data") (lit "out") (lit "val") [] (lit "gtEval") (lit "_leftImg8bit.png") None false true 14 26 ex_attrs (mkEP (1 # 2) true true (35 # 10000) (Some true) (Some true) (Some 2)) (AInt 5) th ex_otf_disk [lit "f/f_0"] s);
      try exact E; try exact V; try discriminate; try reflexivity; try lia.
    + apply ex_dir; discriminate.
    + apply ex_dir; discriminate.
    + split; [discriminate|vm_compute; intuition discriminate].
    + right. split; reflexivity.
    + right. split; reflexivity.
    + cbn; tauto.
    + intros ->. discriminate E.
    + intros _. apply Permutation_refl.
    + intros n [<-|[]]. split; [cbn; discriminate|discriminate].
    + intros n [<-|[]]. exists ex_label_img, (Some ex_inst_img), (zeros 80 8). split; [split; [reflexivity|split; reflexivity]|].
      split; [apply wf_tab|]. split; [apply wf_tab|]. repeat (split; [cbn; lia|]). split.
      * split; [cbn; lia|]. split; [cbn; lia|]. intros id (y & x & Iid & Eid). unfold ex_inst_img in Eid. rewrite px_tab in Eid. destruct (inb 80 8 y x); [|lia]. destruct (x <? 4); [destruct (y <? 40)|]; lia.
      * intros h w Sh Sw. rewrite (proj2 (scaled_is_rounding 80 (1 # 2) ltac:(discriminate)) h Sh), (proj2 (scaled_is_rounding 8 (1 # 2) ltac:(discriminate)) w Sw). cbn. lia.
  - intros r R. exists th. split; [reflexivity|exact R].
Qed.
