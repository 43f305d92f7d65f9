(** C62: a whole evaluation over categories, from the command line to the result files. *)
From Verif Require Export ProofsSession3.
From Verif Require Import ProofsSession2 PropertiesCategory PropertiesPrepare ProofsImage ProofsPaths ProofsText PropertiesSamples PropertiesFiles PropertiesResults PropertiesCLI PropertiesEvaluator2.
From Coq Require Import Permutation Lia ZifyBool ZifyNat.
Open Scope Z_scope.
Open Scope list_scope.

Lemma result_not_empty thr th names ps r : names <> [] -> th <> [] -> category_result thr th names ps r -> let '(rows, trs, _) := r in rows <> [] /\ trs <> [].
Proof.
  intros Nn Nt (cs & _ & _ & H). destruct r as [[rows trs] ov]. destruct H as (Er & [Lt _] & _). split; intros ->.
  - destruct names; [congruence|discriminate Er].
  - destruct th; [congruence|discriminate Lt].
Qed.
Lemma needed_dirs_ok m k root gt gt_arg split pred thin suffix : directory root -> component split -> directory_used gt_arg gt ->
  (forall d, In d (needed_dirs k root gt split pred) -> m_dirs m d <> None) -> k <> BSDS -> roots_ok m k (mkPlace root pred split thin gt_arg suffix) = true.
Proof.
  intros Dr Cs Dg H Nb. unfold roots_ok, gtFine_root. cbn [p_root p_pred p_split].
  assert (Rg : relative gt /\ directory gt /\ gt_dir_of (mkPlace root pred split thin gt_arg suffix) = gt).
  { unfold gt_dir_of. cbn [p_gt_dir]. destruct Dg as [(-> & D & R)|(-> & ->)].
    - split; [exact R|]. split; [exact D|]. destruct gt; [destruct D; congruence|reflexivity].
    - split; [cbn; discriminate|]. split; [split; [discriminate|]|reflexivity]. intros d E. apply (f_equal (@rev ascii)) in E. rewrite rev_app_distr in E. discriminate E. }
  destruct Rg as (Rg & Dgt & Eg).
  assert (E1 : path_join root gt = in_dir root gt) by (apply in_dir_join; assumption).
  assert (Df : directory (in_dir root gt)) by (unfold in_dir; apply directory_join, Dgt).
  assert (Dn : directory (in_dir root (lit "gtFine"))).
  { apply dir_app_component. split; [discriminate|vm_compute; intuition discriminate]. }
  assert (Eg' : gtEval_root k (mkPlace root pred split thin gt_arg suffix) = match k with SBD | Reanno => in_dir root gt | _ => in_dir (in_dir root gt) split end).
  { unfold gtEval_root. rewrite Eg. cbn [p_root p_split]. rewrite E1. destruct k; try reflexivity; apply in_dir_join; (exact Df || apply component_relative, Cs). }
  rewrite Eg', (in_dir_join root) by (first [exact Dr|cbn; discriminate]). rewrite (in_dir_join _ split Dn) by (apply component_relative, Cs).
  unfold needed_dirs in H. rewrite (dir_exists m root) by (apply H; left; reflexivity). rewrite (dir_exists m pred) by (apply H; right; left; reflexivity).
  destruct k; try congruence; rewrite ?(dir_exists m (in_dir root gt)) by (apply H; cbn; tauto);
    rewrite ?(dir_exists m (in_dir (in_dir root gt) split)) by (apply H; cbn; tauto); rewrite ?(dir_exists m (in_dir (in_dir root (lit "gtFine")) split)) by (apply H; cbn; tauto); reflexivity.
Qed.

(** *** Theorem 1: the evaluators with stored ground truth ([evaluate] with a directory for the results).  With all files in
    place the evaluation ends without exception, whatever the number of processes and their order, the result of every requested category is that of its files, and the tables
    and the files written show these results. *)
Theorem stored_evaluation : forall lib pp m nproc pls k root pred split gt_arg gt suffix suffix_arg thin inst a e thr th names arg cats out f s,
  In k [SBD; Reanno; City; Half] -> directory root -> directory pred -> directory out -> component split -> directory_used gt_arg gt -> suffix_used k suffix_arg suffix ->
  a_inst a = Some inst -> eval_params k thin a = Ok e ->
  check_thresholds thr = Ok th -> th <> [] -> (0 <= e_scale e)%Q -> (0 < e_dist e)%Q ->
  requested (n_classes_of k) arg cats -> Forall (valid_category (n_classes_of k)) cats ->
  (forall d, In d (needed_dirs k root gt split pred) -> m_dirs m d <> None) ->
  every_loop_finishes (List.length names) nproc pls -> names <> [] -> (forall n, In n names -> relative n /\ n <> []) ->
  (forall c n, In c cats -> In n names -> exists edge seg p,
     stored_sample (m_images m) (ground_truth k root gt split thin inst n) (prediction pred c n suffix) edge seg p /\ stored_usable e edge seg p) ->
  raw_values s ->
  session_delivers (fun F P => evaluate_session F P lib m pp nproc pls k (mkPlace root pred split thin gt_arg suffix_arg) (Some names) a thr (Some out) arg) f s
    (fun t f' => exists results,
       Forall2 (fun c => category_result thr th names (fun n cs => exists edge seg p,
         stored_sample (m_images m) (ground_truth k root gt split thin inst n) (prediction pred c n suffix) edge seg p /\
         stored_counts lib (ignores_border k) c e th edge seg p cs)) cats results /\
       tables cats (map snd results) t /\ run_reports pp out cats results t f f').
Proof.
  intros lib pp m nproc pls k root pred split gt_arg gt suffix suffix_arg thin inst a e thr th names arg cats out f s Hk Dr Dp Do Cs Dg Hs Ha He Et Nt Sc Di Rq Vc Hd Fin Nn Hn Files V.
  assert (Nc : Z.of_nat (n_classes_of k) = match k with SBD | Reanno => 20 | _ => 19 end) by (cbn in Hk; destruct Hk as [<-|[<-|[<-|[<-|[]]]]]; reflexivity).
  rewrite Forall_forall in Vc. unfold valid_category in Vc. rewrite Nc in Vc.
  apply evaluation_delivers; try assumption.
  - intros c I. specialize (Vc c I). destruct k; lia.
  - apply (needed_dirs_ok m k root gt gt_arg split pred thin suffix_arg Dr Cs Dg Hd). intros ->. cbn in Hk. intuition discriminate.
  - exists e. exact He.
  - intros i c I s0 V0. apply (stored_category_evaluation lib (by_plan nproc (pls i)) k root pred split gt_arg gt suffix suffix_arg thin inst c a e thr th (m_images m) names s0); try assumption.
    + exact (Vc c I).
    + apply Fin.
    + intros n In_. apply Files; assumption.
  - intros c r Pr. exact (result_not_empty thr th names _ r Nn Nt Pr).
Qed.
Print Assumptions stored_evaluation.

(** *** Theorem 2: the evaluator that computes the Cityscapes ground truth from the labels. *)
Theorem label_evaluation : forall lib pp m nproc pls root pred split gt_arg gt suffix suffix_arg thin inst a e thr th names arg cats out f s,
  directory root -> directory pred -> directory out -> component split -> directory_used gt_arg gt -> suffix_used OTF suffix_arg suffix ->
  a_inst a = Some inst -> eval_params OTF thin a = Ok e ->
  check_thresholds thr = Ok th -> th <> [] -> (0 <= e_scale e)%Q -> (0 < e_dist e)%Q ->
  requested 19 arg cats -> Forall (valid_category 19) cats ->
  (forall d, In d (needed_dirs OTF root gt split pred) -> m_dirs m d <> None) ->
  every_loop_finishes (List.length names) nproc pls -> names <> [] -> (forall n, In n names -> relative n /\ n <> []) ->
  (forall c n, In c cats -> In n names -> exists img insts p,
     label_sample (m_images m) (ground_truth OTF root gt split thin inst n) (prediction pred c n suffix) img insts p /\ label_usable e img insts p) ->
  raw_values s ->
  session_delivers (fun F P => evaluate_session F P lib m pp nproc pls OTF (mkPlace root pred split thin gt_arg suffix_arg) (Some names) a thr (Some out) arg) f s
    (fun t f' => exists results,
       Forall2 (fun c => category_result thr th names (fun n cs => exists label img insts p,
         In (label, c - 1) CITYSCAPES_label2trainId /\
         label_sample (m_images m) (ground_truth OTF root gt split thin inst n) (prediction pred c n suffix) img insts p /\
         label_counts lib c label (if thin then 1 else 2) e th img insts p cs)) cats results /\
       tables cats (map snd results) t /\ run_reports pp out cats results t f f').
Proof.
  intros lib pp m nproc pls root pred split gt_arg gt suffix suffix_arg thin inst a e thr th names arg cats out f s Dr Dp Do Cs Dg Hs Ha He Et Nt Sc Di Rq Vc Hd Fin Nn Hn Files V.
  rewrite Forall_forall in Vc. unfold valid_category in Vc.
  assert (Lab : forall c, 1 <= c <= 19 -> exists label, In (label, c - 1) CITYSCAPES_label2trainId).
  { intros c Hc. assert (X : forallb (fun c => existsb (fun lt => snd lt =? c - 1) CITYSCAPES_label2trainId) (map (fun i => i + 1) (zseq 19)) = true) by (vm_compute; reflexivity).
    rewrite forallb_forall in X. specialize (X c). assert (I : In c (map (fun i => i + 1) (zseq 19))) by (apply in_map_iff; exists (c - 1); split; [lia|apply in_zseq; lia]).
    specialize (X I). apply existsb_exists in X. destruct X as ((l & t) & I' & E). cbn [snd] in E. exists l. replace (c - 1) with t by lia. exact I'. }
  apply evaluation_delivers; try assumption.
  - intros c I. specialize (Vc c I). lia.
  - apply (needed_dirs_ok m OTF root gt gt_arg split pred thin suffix_arg Dr Cs Dg Hd). discriminate.
  - exists e. exact He.
  - intros i c I s0 V0. destruct (Lab c (Vc c I)) as (label & Il). eapply delivers_weaken.
    + apply (label_category_evaluation lib (by_plan nproc (pls i)) root pred split gt_arg gt suffix suffix_arg thin inst c label a e thr th (m_images m) names s0); try assumption.
      * exact (Vc c I).
      * apply Fin.
      * intros n In_. apply Files; assumption.
    + intros r (cs & F2 & Sa & Rest). exists cs. split; [|split; assumption]. clear - F2 Il. induction F2 as [|n x ns xs (img & insts & p & A & B) F2 IH]; constructor; [exists label, img, insts, p; auto|exact IH].
  - intros c r Pr. exact (result_not_empty thr th names _ r Nn Nt Pr).
Qed.
Print Assumptions label_evaluation.

(** ** The scripts *)
Lemma cats_given_nonempty n arg l : (0 < n)%nat -> cats_given n arg l -> l <> [].
Proof.
  intros Hn. destruct arg as [t|]; cbn [cats_given].
  - intros [(v & _ & ->)|(items & (N & _) & F)]; [discriminate|]. inversion F; subst; congruence.
  - intros -> E. destruct n; [lia|discriminate].
Qed.
Lemma names_read content names : lists_names content names -> read_split content = names.
Proof. intros (eol & I & F & ->). apply split_file_line_ends; assumption. Qed.
(** The script once its options are parsed. *)
Lemma script_runs lib pp m pls parse root pred gt_arg out o j cats thr content names a f s (post : _ -> fs -> Prop) :
  parse o = Ok (Parsed j) -> j_cats j = Some cats -> arg_of (j_ths j) = Some thr -> directory out ->
  set_eval_params (j_kind j) (j_call j) fresh = (Ok tt, a) ->
  m_texts m (split_file (j_kind j) root (lit "val")) = Some content -> lists_names content names -> names <> [] ->
  session_delivers (fun F P => evaluate_session F P lib m pp (j_nproc j) pls (j_kind j) (mkPlace root pred (lit "val") (j_thin j) gt_arg None) (Some names) a thr (Some out) (CList cats)) f s post ->
  session_delivers (fun F P => script F P lib m pp pls parse root pred gt_arg out o) f s (fun answer f' => exists t, answer = Some t /\ post t f').
Proof.
  intros Ep Ec Et Do Es Em Ln Nn H. eapply sdelivers_ext.
  2:{ eapply (sdelivers_then _ (fun F P t f r => (Ok (Some (Some t, r)), f))); [exact H|]. intros t f' s' V' Pt. apply (sdelivers_ret (Some t) f' s' _ V'). exists t. auto. }
  intros F P. unfold script, seq_session. rewrite Ep, Et. unfold names_found. rewrite Em. cbn [option_map]. rewrite (names_read content names Ln).
  unfold set_sample_names. destruct names as [|n names]; [congruence|]. cbn [snd]. rewrite Es, Ec.
  replace (save_to out) with (Some out) by (unfold save_to; destruct out; [destruct Do; congruence|reflexivity]). reflexivity.
Qed.
Lemma val_component : component (lit "val").
Proof. split; [discriminate|vm_compute; intuition discriminate]. Qed.

(** *** Theorem 3: a complete SBD run.  The tolerance is 0.02 and the predictions are the .png files, whatever [--max-dist] and
    [--pred-suffix] say. *)
Theorem sbd_run : forall lib pp m pls root pred pred_suffix gt_arg gt out o cats thr th content names f s,
  directory root -> directory pred -> directory out -> directory_used gt_arg gt ->
  cats_given 20 (o_categories o) cats -> Forall (valid_category 20) cats ->
  thresholds_given (o_thresholds o) thr -> check_thresholds thr = Ok th -> th <> [] ->
  (forall d, In d [root; pred; in_dir root gt] -> m_dirs m d <> None) ->
  m_texts m (in_dir root (lit "val.txt")) = Some content -> lists_names content names -> every_loop_finishes (List.length names) (o_nproc o) pls -> names <> [] -> (forall n, In n names -> relative n /\ n <> []) ->
  let thin := negb (o_raw o) in let plain := (o_pre_seal o || o_nonIS o)%bool in
  let e := mkEP 1 thin (o_nms o) (2 # 100) (Some plain) (Some plain) None in
  let sample c n := stored_sample (m_images m) (ground_truth SBD root gt (lit "val") thin (negb plain) n) (prediction pred c n (lit ".png")) in
  (forall c n, In c cats -> In n names -> exists edge seg p, sample c n edge seg p /\ stored_usable e edge seg p) -> raw_values s ->
  session_delivers (fun F P => sbd_script F P lib m pp pls root pred pred_suffix gt_arg out o) f s (fun answer f' => exists t, answer = Some t /\ exists results,
    Forall2 (fun c => category_result thr th names (fun n cs => exists edge seg p, sample c n edge seg p /\ stored_counts lib true c e th edge seg p cs)) cats results /\
    tables cats (map snd results) t /\ run_reports pp out cats results t f f').
Proof.
  intros lib pp m pls root pred pred_suffix gt_arg gt out o cats thr th content names f s Dr Dp Do Dg Gc Vc Ht Et Nt Hd Em Ln Fin Nn Hn thin plain e sample Files V.
  destruct (thresholds_argument _ _ Ht) as (ct & Ect & Ea).
  assert (J : cli_sbd o = Ok (Parsed (mkJob SBD thin (mkCall (mode_of (o_pre_seal o)) 1 thin (o_nms o) (negb (o_nonIS o)) (o_max_dist o) false false) (Some cats) ct (o_nproc o)))).
  { apply (run_spec 20). exists cats, ct. auto. }
  unfold sbd_script. eapply (script_runs lib pp m pls cli_sbd root pred gt_arg out o _ cats thr content names (snd (set_eval_params SBD (mkCall (mode_of (o_pre_seal o)) 1 thin (o_nms o) (negb (o_nonIS o)) (o_max_dist o) false false) fresh))).
  - exact J.
  - reflexivity.
  - exact Ea.
  - exact Do.
  - cbn [j_kind j_call]. destruct (o_pre_seal o); reflexivity.
  - cbn [j_kind]. unfold split_file. rewrite in_dir_join by (first [exact Dr|cbn; discriminate]). exact Em.
  - exact Ln.
  - exact Nn.
  - cbn [j_kind j_thin j_nproc]. apply (stored_evaluation lib pp m (o_nproc o) pls SBD root pred (lit "val") gt_arg gt (lit ".png") None thin (negb plain) _ e thr th names (CList cats) cats out f s); try assumption.
    + cbn; tauto.
    + exact val_component.
    + right. split; reflexivity.
    + unfold plain. destruct (o_pre_seal o), (o_nonIS o); reflexivity.
    + unfold e, plain. destruct (o_pre_seal o), (o_nonIS o); reflexivity.
    + discriminate.
    + reflexivity.
    + split; [reflexivity|]. apply (cats_given_nonempty 20 (o_categories o)); [lia|exact Gc].
Qed.
Print Assumptions sbd_run.

(** The split file of Cityscapes. *)
Definition city_split (root : text) : text := in_dir (in_dir root (lit "splits")) (lit "val.txt").
Lemma city_run lib pp m pls root pred gt_arg gt out o thin scale half cats thr th content names f s :
  directory root -> directory pred -> directory out -> directory_used gt_arg gt ->
  cats_given 19 (o_categories o) cats -> Forall (valid_category 19) cats ->
  thresholds_given (o_thresholds o) thr -> check_thresholds thr = Ok th -> th <> [] ->
  (o_pre_seal o = true -> o_nonIS o = true) -> (half = false -> 0 < scale <= 1)%Q -> (o_pre_seal o = false -> 0 < o_max_dist o)%Q ->
  (forall d, In d (needed_dirs City root gt (lit "val") pred) -> m_dirs m d <> None) ->
  m_texts m (city_split root) = Some content -> lists_names content names -> every_loop_finishes (List.length names) (o_nproc o) pls -> names <> [] -> (forall n, In n names -> relative n /\ n <> []) ->
  let k := if half then Half else City in
  let e := mkEP (if half then 1 else scale) thin (o_nms o) (if o_pre_seal o then 2 # 100 else o_max_dist o) (Some (o_nonIS o)) (Some (o_nonIS o)) None in
  let sample c n := stored_sample (m_images m) (ground_truth k root gt (lit "val") thin (negb (o_nonIS o)) n) (prediction pred c n (lit "_leftImg8bit.png")) in
  (forall c n, In c cats -> In n names -> exists edge seg p, sample c n edge seg p /\ stored_usable e edge seg p) -> raw_values s ->
  session_delivers (fun F P => script F P lib m pp pls (city_evaluate thin scale thin half) root pred gt_arg out o) f s (fun answer f' => exists t, answer = Some t /\ exists results,
    Forall2 (fun c => category_result thr th names (fun n cs => exists edge seg p, sample c n edge seg p /\ stored_counts lib false c e th edge seg p cs)) cats results /\
    tables cats (map snd results) t /\ run_reports pp out cats results t f f').
Proof.
  intros Dr Dp Do Dg Gc Vc Ht Et Nt Hm Hsc Hdi Hd Em Ln Fin Nn Hn k e sample Files V.
  destruct (thresholds_argument _ _ Ht) as (ct & Ect & Ea).
  set (call := mkCall (mode_of (o_pre_seal o)) scale thin (o_nms o) (negb (o_nonIS o)) (o_max_dist o) false false).
  assert (J : city_evaluate thin scale thin half o = Ok (Parsed (mkJob k thin call (Some cats) ct (o_nproc o)))).
  { apply (run_spec 19). exists cats, ct. auto. }
  assert (Sa : exists a, set_eval_params k call fresh = (Ok tt, a) /\ a_inst a = Some (negb (o_nonIS o)) /\ eval_params k thin a = Ok e).
  { unfold k, e, call. destruct half.
    - destruct (o_pre_seal o) eqn:Ep; [rewrite (Hm eq_refl)|]; eexists; (split; [reflexivity|]); split; try reflexivity; destruct (o_nonIS o); reflexivity.
    - assert (So : scale_ok scale = true) by (apply scale_ok_spec, Hsc; reflexivity).
      cbn [set_eval_params]. unfold city_set. cbn [c_scale]. rewrite So. cbn [negb].
      destruct (o_pre_seal o) eqn:Ep; [rewrite (Hm eq_refl)|]; eexists; (split; [reflexivity|]); split; try reflexivity; destruct (o_nonIS o); reflexivity. }
  destruct Sa as (a & Sa & Ia & Pa).
  eapply (script_runs lib pp m pls (city_evaluate thin scale thin half) root pred gt_arg out o _ cats thr content names a).
  - exact J.
  - reflexivity.
  - exact Ea.
  - exact Do.
  - exact Sa.
  - cbn [j_kind]. assert (Es : split_file k root (lit "val") = city_split root); [|rewrite Es; exact Em].
    transitivity (path_join root (lit "splits/val.txt")); [unfold k; destruct half; reflexivity|]. rewrite join_directory by (first [exact Dr|cbn; discriminate]).
    unfold city_split, in_dir. rewrite <- !app_assoc. reflexivity.
  - exact Ln.
  - exact Nn.
  - cbn [j_kind j_thin j_nproc].
    assert (Hk : In k [SBD; Reanno; City; Half]) by (unfold k; destruct half; cbn; tauto).
    assert (Kn : n_classes_of k = 19%nat) by (unfold k; destruct half; reflexivity).
    assert (Kb : ignores_border k = false) by (unfold k; destruct half; reflexivity).
    assert (Kd : needed_dirs k root gt (lit "val") pred = needed_dirs City root gt (lit "val") pred) by (unfold k; destruct half; reflexivity).
    assert (H := stored_evaluation lib pp m (o_nproc o) pls k root pred (lit "val") gt_arg gt (lit "_leftImg8bit.png") None thin (negb (o_nonIS o)) a e thr th names (CList cats) cats out f s). rewrite Kb in H. apply H; clear H; try assumption.
    + exact val_component.
    + right. split; [reflexivity|]. unfold k. destruct half; reflexivity.
    + unfold e. cbn [e_scale]. destruct half; [discriminate|]. apply Qlt_le_weak, Hsc. reflexivity.
    + unfold e. cbn [e_dist]. destruct (o_pre_seal o); [reflexivity|apply Hdi; reflexivity].
    + rewrite Kn. split; [reflexivity|]. apply (cats_given_nonempty 19 (o_categories o)); [lia|exact Gc].
    + rewrite Kn. exact Vc.
    + rewrite Kd. exact Hd.
Qed.

(** *** Theorem 4: a complete Cityscapes run of the raw protocol. *)
Theorem cityscapes_raw_run : forall lib pp m pls root pred gt_arg gt out o cats thr th content names f s,
  directory root -> directory pred -> directory out -> directory_used gt_arg gt ->
  cats_given 19 (o_categories o) cats -> Forall (valid_category 19) cats ->
  thresholds_given (o_thresholds o) thr -> check_thresholds thr = Ok th -> th <> [] ->
  (o_pre_seal o = true -> o_nonIS o = true) -> (o_half o = false -> 0 < o_scale o <= 1)%Q -> (o_pre_seal o = false -> 0 < o_max_dist o)%Q ->
  (forall d, In d [root; pred; in_dir (in_dir root gt) (lit "val"); in_dir (in_dir root (lit "gtFine")) (lit "val")] -> m_dirs m d <> None) ->
  m_texts m (city_split root) = Some content -> lists_names content names -> every_loop_finishes (List.length names) (o_nproc o) pls -> names <> [] -> (forall n, In n names -> relative n /\ n <> []) ->
  let k := if o_half o then Half else City in
  let e := mkEP (if o_half o then 1 else o_scale o) false (o_nms o) (if o_pre_seal o then 2 # 100 else o_max_dist o) (Some (o_nonIS o)) (Some (o_nonIS o)) None in
  let sample c n := stored_sample (m_images m) (ground_truth k root gt (lit "val") false (negb (o_nonIS o)) n) (prediction pred c n (lit "_leftImg8bit.png")) in
  (forall c n, In c cats -> In n names -> exists edge seg p, sample c n edge seg p /\ stored_usable e edge seg p) -> raw_values s ->
  session_delivers (fun F P => script F P lib m pp pls cli_city_raw root pred gt_arg out o) f s (fun answer f' => exists t, answer = Some t /\ exists results,
    Forall2 (fun c => category_result thr th names (fun n cs => exists edge seg p, sample c n edge seg p /\ stored_counts lib false c e th edge seg p cs)) cats results /\
    tables cats (map snd results) t /\ run_reports pp out cats results t f f').
Proof.
  intros. eapply (sdelivers_ext (fun F P => script F P lib m pp pls (city_evaluate false (o_scale o) false (o_half o)) root pred gt_arg out o)); [reflexivity|].
  eapply city_run; eassumption.
Qed.
Print Assumptions cityscapes_raw_run.

(** *** Theorem 5: a complete Cityscapes run of the thin protocol: half resolution ground truth, whatever [--scale] says. *)
Theorem cityscapes_thin_run : forall lib pp m pls root pred gt_arg gt out o cats thr th content names f s,
  directory root -> directory pred -> directory out -> directory_used gt_arg gt ->
  cats_given 19 (o_categories o) cats -> Forall (valid_category 19) cats ->
  thresholds_given (o_thresholds o) thr -> check_thresholds thr = Ok th -> th <> [] ->
  (o_pre_seal o = true -> o_nonIS o = true) -> (o_pre_seal o = false -> 0 < o_max_dist o)%Q ->
  (forall d, In d [root; pred; in_dir (in_dir root gt) (lit "val"); in_dir (in_dir root (lit "gtFine")) (lit "val")] -> m_dirs m d <> None) ->
  m_texts m (city_split root) = Some content -> lists_names content names -> every_loop_finishes (List.length names) (o_nproc o) pls -> names <> [] -> (forall n, In n names -> relative n /\ n <> []) ->
  let e := mkEP 1 true (o_nms o) (if o_pre_seal o then 2 # 100 else o_max_dist o) (Some (o_nonIS o)) (Some (o_nonIS o)) None in
  let sample c n := stored_sample (m_images m) (ground_truth Half root gt (lit "val") true (negb (o_nonIS o)) n) (prediction pred c n (lit "_leftImg8bit.png")) in
  (forall c n, In c cats -> In n names -> exists edge seg p, sample c n edge seg p /\ stored_usable e edge seg p) -> raw_values s ->
  session_delivers (fun F P => script F P lib m pp pls cli_city_thin root pred gt_arg out o) f s (fun answer f' => exists t, answer = Some t /\ exists results,
    Forall2 (fun c => category_result thr th names (fun n cs => exists edge seg p, sample c n edge seg p /\ stored_counts lib false c e th edge seg p cs)) cats results /\
    tables cats (map snd results) t /\ run_reports pp out cats results t f f').
Proof.
  intros. eapply (sdelivers_ext (fun F P => script F P lib m pp pls (city_evaluate true (1 # 2) true true) root pred gt_arg out o)); [reflexivity|].
  eapply (city_run lib pp m pls root pred gt_arg gt out o true (1 # 2) true); try eassumption. intros E. discriminate E.
Qed.
Print Assumptions cityscapes_thin_run.

(** ** Failures *)
(** *** Theorem 6: a missing ground truth file stops the evaluation before anything is written. *)
Theorem missing_ground_truth_stops : forall F P lib pp m nproc pls k root pred split gt_arg gt suffix suffix_arg thin inst a e thr names arg cats out f s n g,
  k <> BSDS -> directory root -> directory pred -> component split -> directory_used gt_arg gt -> suffix_used k suffix_arg suffix ->
  a_inst a = Some inst -> eval_params k thin a = Ok e -> requested (n_classes_of k) arg cats ->
  (forall n, In n names -> relative n /\ n <> []) -> In n names ->
  In g (files_of (ground_truth k root gt split thin inst n)) -> m_images m g = None ->
  evaluate_session F P lib m pp nproc pls k (mkPlace root pred split thin gt_arg suffix_arg) (Some names) a thr out arg f s = (Err AssertionError, f).
Proof.
  intros F P lib pp m nproc pls k root pred split gt_arg gt suffix suffix_arg thin inst a e thr names arg cats out f s n g Nb Dr Dp Cs Dg Hs Ha He Rq Hn In_ Ig Mg.
  set (p := mkPlace root pred split thin gt_arg suffix_arg). unfold evaluate_session, ready. change (p_thin p) with thin. rewrite He. cbn [bind].
  destruct (roots_ok m k p) eqn:Ro; [|reflexivity]. rewrite (proj2 (categories_of_spec _ _ _) Rq).
  destruct cats as [|c cats].
  { exfalso. unfold requested in Rq. destruct arg as [| | |]; [destruct Rq as [Rq Hc]; destruct (n_classes_of k); [lia|discriminate]|discriminate|destruct Rq; congruence|exact Rq]. }
  cbn [categories_session]. unfold evaluate_category_session at 1. rewrite Ro.
  assert (E : evaluate_category_run F P lib (by_plan nproc (pls (List.length cats))) (m_images m) k p true (Some names) a thr c s = Err AssertionError); [|rewrite E; reflexivity].
  destruct ((0 <? c) && (c <? Z.of_nat (n_classes_of k) + 1)) eqn:V.
  - apply (missing_ground_truth_is_reported F P lib (by_plan nproc (pls (List.length cats))) k root pred split gt_arg gt suffix suffix_arg thin inst c a e thr Nb Dr Dp Cs Dg Hs Ha He) with (n := n) (f := g); try assumption.
    destruct k; try congruence; cbn [n_classes_of] in V; lia.
  - unfold evaluate_category_run. cbn [negb]. rewrite V. reflexivity.
Qed.
Print Assumptions missing_ground_truth_stops.
(** *** Theorem 7: without one of its directories (stored or computed ground truth), or without a split file that lists at least
    one name, nothing is evaluated or written. *)
Theorem missing_directory_stops : forall F P lib pp m nproc pls k p names a thr out arg f s,
  roots_ok m k p = false -> evaluate_session F P lib m pp nproc pls k p names a thr out arg f s = (Err AssertionError, f).
Proof. intros F P lib pp m nproc pls k p names a thr out arg f s Ro. unfold evaluate_session, ready. rewrite Ro. destruct names; reflexivity. Qed.
Print Assumptions missing_directory_stops.
Theorem missing_directory_found : forall m k root pred split gt_arg gt suffix thin d, directory root -> component split -> directory_used gt_arg gt -> k <> BSDS ->
  In d (needed_dirs k root gt split pred) -> path_exists m d = false -> roots_ok m k (mkPlace root pred split thin gt_arg suffix) = false.
Proof.
  intros m k root pred split gt_arg gt suffix thin d Dr Cs Dg Nb I N. unfold roots_ok, gtFine_root. cbn [p_root p_pred p_split].
  assert (Rg : relative gt /\ directory gt /\ gt_dir_of (mkPlace root pred split thin gt_arg suffix) = gt).
  { unfold gt_dir_of. cbn [p_gt_dir]. destruct Dg as [(-> & D & R)|(-> & ->)].
    - split; [exact R|]. split; [exact D|]. destruct gt; [destruct D; congruence|reflexivity].
    - split; [cbn; discriminate|]. split; [split; [discriminate|]|reflexivity]. intros x E. apply (f_equal (@rev ascii)) in E. rewrite rev_app_distr in E. discriminate E. }
  destruct Rg as (Rg & Dgt & Eg).
  assert (E1 : path_join root gt = in_dir root gt) by (apply in_dir_join; assumption).
  assert (Df : directory (in_dir root gt)) by (unfold in_dir; apply directory_join, Dgt).
  assert (Dn : directory (in_dir root (lit "gtFine"))).
  { apply dir_app_component. split; [discriminate|vm_compute; intuition discriminate]. }
  assert (Eg' : gtEval_root k (mkPlace root pred split thin gt_arg suffix) = match k with SBD | Reanno => in_dir root gt | _ => in_dir (in_dir root gt) split end).
  { unfold gtEval_root. rewrite Eg. cbn [p_root p_split]. rewrite E1. destruct k; try reflexivity; apply in_dir_join; (exact Df || apply component_relative, Cs). }
  rewrite Eg', (in_dir_join root) by (first [exact Dr|cbn; discriminate]). rewrite (in_dir_join _ split Dn) by (apply component_relative, Cs).
  unfold needed_dirs in I. cbn [In] in I.
  destruct I as [->|[->|I]]; [rewrite N; reflexivity|rewrite N, andb_false_r; reflexivity|].
  destruct k; try congruence; cbn [In] in I; intuition (subst; rewrite N, ?andb_false_r; reflexivity).
Qed.
Print Assumptions missing_directory_found.
Theorem missing_names_stop : forall F P lib pp m pls parse root pred gt_dir out o j f s, parse o = Ok (Parsed j) -> arg_of (j_ths j) <> None ->
  m_texts m (split_file (j_kind j) root (lit "val")) = None \/ m_texts m (split_file (j_kind j) root (lit "val")) = Some [] ->
  script F P lib m pp pls parse root pred gt_dir out o f s = (Err AssertionError, f).
Proof.
  intros F P lib pp m pls parse root pred gt_dir out o j f s E Na H. unfold script. rewrite E. destruct (arg_of (j_ths j)); [|congruence].
  unfold names_found. destruct H as [-> | ->]; reflexivity.
Qed.
Print Assumptions missing_names_stop.
(** *** Theorem 8: however an evaluation ends, no text file changes but the result files of the requested categories, the
    averages and the tables. *)
Lemma category_run_range F P lib w d k p ro names a thr c s v : evaluate_category_run F P lib w d k p ro names a thr c s = Ok v -> 1 <= c <= Z.of_nat (n_classes_of k).
Proof.
  unfold evaluate_category_run. destruct names; [|discriminate]. destruct (negb ro); [discriminate|].
  destruct ((0 <? c) && (c <? Z.of_nat (n_classes_of k) + 1)) eqn:V; [lia|discriminate].
Qed.
Definition run_files_of (out : text) (cats : list Z) : list text :=
  in_dir out (lit "overall_eval_bdry.txt") :: in_dir out (lit "results.txt") :: flat_map (fun c => result_files (class_dir out c)) cats.
Lemma categories_touch F P lib m nproc pls k p names a thr out cats : directory out -> forall f s, 
  only_writes (flat_map (fun c => result_files (class_dir out c)) cats) f (snd (categories_session (fun n => evaluate_category_session F P lib m (by_plan nproc (pls n)) k p names a thr (Some out)) cats f s)).
Proof.
  intros Do. induction cats as [|c cats IH]; intros f s; [intros q _; reflexivity|]. cbn [categories_session flat_map].
  unfold evaluate_category_session at 1. destruct (evaluate_category_run F P lib (by_plan nproc (pls (List.length cats))) (m_images m) k p (roots_ok m k p) names a thr c s) as [[[[[rows ths] o] s1]|]|x] eqn:E; try (intros q _; reflexivity).
  assert (Hc : 1 <= c <= 99) by (apply category_run_range in E; destruct k; cbn [n_classes_of] in E; lia).
  assert (W : only_writes (result_files (class_dir out c)) f (save_category_results out c rows ths (Some o) f)).
  { unfold save_category_results. destruct (cat_dir out c Do Hc) as [Ed Dd]. rewrite Ed. apply saved_only, Dd. }
  set (f1 := save_category_results out c rows ths (Some o) f) in *. specialize (IH f1 s1).
  assert (G : only_writes (result_files (class_dir out c) ++ flat_map (fun c => result_files (class_dir out c)) cats) f (snd (categories_session (fun n => evaluate_category_session F P lib m (by_plan nproc (pls n)) k p names a thr (Some out)) cats f1 s1))).
  { intros q Hq. rewrite IH by (intros I; apply Hq, in_or_app; right; exact I). apply W. intros I. apply Hq, in_or_app. left. exact I. }
  destruct (categories_session _ cats f1 s1) as [[[[os s2]|]|x] f2]; exact G.
Qed.
Theorem evaluation_touches_only_result_files : forall F P lib pp m nproc pls k p names a thr out arg cats f s r f',
  directory out -> requested (n_classes_of k) arg cats -> evaluate_session F P lib m pp nproc pls k p names a thr (Some out) arg f s = (r, f') -> only_writes (run_files_of out cats) f f'.
Proof.
  intros F P lib pp m nproc pls k p names a thr out arg cats f s r f' Do Rq E. unfold evaluate_session in E. destruct (ready _ _ _ _ _); [|injection E as _ <-; intros q _; reflexivity].
  rewrite (proj2 (categories_of_spec _ _ _) Rq) in E. assert (T := categories_touch F P lib m nproc pls k p names a thr out cats Do f s).
  destruct (categories_session _ cats f s) as [[[[os s2]|]|x] f2]; cbn [snd] in T.
  - injection E as _ <-. intros q Hq. cbn [run_files_of In] in Hq. unfold save_pretty_metrics, save_overall_metric. rewrite !in_dir_join by (first [exact Do|cbn; discriminate]).
    rewrite !write_other by (intros X; apply Hq; auto). apply T. intros I. apply Hq. right. right. exact I.
  - injection E as _ <-. intros q Hq. apply T. intros I. apply Hq. right. right. exact I.
  - injection E as _ <-. intros q Hq. apply T. intros I. apply Hq. right. right. exact I.
Qed.
Print Assumptions evaluation_touches_only_result_files.
(** The same for the three scripts; if the categories are not understood, nothing changes at all. *)
Theorem scripts_touch_only_result_files : forall F P lib pp m pls parse n root pred gt_dir out o f s r f',
  In (parse, n) [(cli_sbd, 20%nat); (cli_city_raw, 19%nat); (cli_city_thin, 19%nat)] -> directory out ->
  script F P lib m pp pls parse root pred gt_dir out o f s = (r, f') ->
  f' = f \/ exists cats, cats_given n (o_categories o) cats /\ Forall (valid_category n) cats /\ only_writes (run_files_of out cats) f f'.
Proof.
  intros F P lib pp m pls parse n root pred gt_dir out o f s r f' Hp Do E. unfold script in E.
  destruct (parse o) as [[|j]|] eqn:Ep; [left; congruence| |left; congruence].
  assert (J : exists cats, j_cats j = Some cats /\ cats_given n (o_categories o) cats /\ Forall (valid_category n) cats /\ n_classes_of (j_kind j) = n).
  { destruct (scripts_evaluate_what_was_asked o) as (A & B & _). cbn [In] in Hp. destruct Hp as [X|[X|[X|[]]]]; injection X as <- <-.
    - destruct (A j Ep) as (cats & E1 & E2 & E3 & _). exists cats. destruct (sbd_script_parameters o j Ep) as (-> & _). auto.
    - destruct (B j (or_introl Ep)) as (cats & E1 & E2 & E3 & _). exists cats. destruct (city_raw_script_parameters o j Ep) as (-> & _). destruct (o_half o); auto.
    - destruct (B j (or_intror Ep)) as (cats & E1 & E2 & E3 & _). exists cats. destruct (city_thin_script_parameters o j Ep) as (-> & _). auto. }
  destruct J as (cats & Jc & Gc & Vc & Jn). destruct (arg_of (j_ths j)) as [thr|]; [|left; congruence].
  destruct (snd (set_sample_names _ _ _)) as [names|]; [|left; congruence]. destruct (set_eval_params _ _ _) as [[u|] a]; [|left; congruence].
  rewrite Jc in E. replace (save_to out) with (Some out) in E by (unfold save_to; destruct out; [destruct Do; congruence|reflexivity]).
  destruct (evaluate_session _ _ _ _ _ _ _ _ _ _ _ _ _ _ _ _) as [r2 f2] eqn:E2. right. exists cats. split; [exact Gc|]. split; [exact Vc|].
  assert (f' = f2) as -> by (destruct r2 as [[[t s2]|]|]; congruence).
  eapply evaluation_touches_only_result_files; [exact Do| |exact E2].
  split; [reflexivity|]. rewrite <- Jn in Gc. apply (cats_given_nonempty (n_classes_of (j_kind j)) (o_categories o)); [|exact Gc].
  rewrite Jn. cbn [In] in Hp. destruct Hp as [X|[X|[X|[]]]]; injection X as _ <-; lia.
Qed.
Print Assumptions scripts_touch_only_result_files.
(** *** Theorem 9: [--pred-suffix] of the SBD script has no effect. *)
Theorem sbd_pred_suffix_has_no_effect : forall F P lib pp m pls root pred suffix suffix' gt_dir out o f s,
  sbd_script F P lib m pp pls root pred suffix gt_dir out o f s = sbd_script F P lib m pp pls root pred suffix' gt_dir out o f s.
Proof. reflexivity. Qed.
Print Assumptions sbd_pred_suffix_has_no_effect.

(** *** Theorem 10: a request for categories that is none (an empty list, or neither a number nor a list) stops the
    evaluation with an AssertionError, before anything is written. *)
Theorem bad_categories_stop : forall F P lib pp m nproc pls k root pred split gt_arg gt suffix thin a e thr names arg out f s,
  In k [SBD; Reanno; City; Half; OTF] -> directory root -> component split -> directory_used gt_arg gt ->
  eval_params k thin a = Ok e -> (forall d, In d (needed_dirs k root gt split pred) -> m_dirs m d <> None) ->
  (forall l, ~ requested (n_classes_of k) arg l) ->
  evaluate_session F P lib m pp nproc pls k (mkPlace root pred split thin gt_arg suffix) (Some names) a thr out arg f s = (Err AssertionError, f).
Proof.
  intros F P lib pp m nproc pls k root pred split gt_arg gt suffix thin a e thr names arg out f s Hk Dr Cs Dg He Hd Bad. unfold evaluate_session, ready. cbn [p_thin].
  rewrite (needed_dirs_ok m k root gt gt_arg split pred thin suffix Dr Cs Dg Hd) by (intros ->; cbn in Hk; intuition discriminate).
  rewrite He. cbn [bind]. rewrite (categories_of_err _ _ Bad). reflexivity.
Qed.
Print Assumptions bad_categories_stop.

(** ** The hypotheses are met *)
(** An SBD run: two images, categories 5 and 2. *)
Definition ex_sbd_edge : rgb := mkRGB 14 14 (zeros 14 14) (zeros 14 14) (tab 14 14 (fun y x => if x =? 7 then 18 else 0)).
Definition ex_sbd_seg : image Z := tab 14 14 (fun y x => if x <? 7 then 2 else 0).
Definition ex_sbd_pred : image Z := tab 14 14 (fun y x => if x =? 8 then 200 else 10).
Definition ex_sbd_machine : machine := mkMachine
  (fun t => if text_eqb t (lit "/sbd") || text_eqb t (lit "/sbd/gtEval") || text_eqb t (lit "out") then Some [] else None) (fun _ => None)
  (fun t => if text_eqb t (lit "/sbd/gtEval/2008_1_thin_isedge.png") || text_eqb t (lit "/sbd/gtEval/2008_2_thin_isedge.png") then Some (Colour ex_sbd_edge)
            else if text_eqb t (lit "/sbd/gtEval/2008_1_labelIds.png") || text_eqb t (lit "/sbd/gtEval/2008_2_labelIds.png") then Some (Gray ex_sbd_seg)
            else if text_eqb t (lit "out/class_005/2008_1.png") || text_eqb t (lit "out/class_005/2008_2.png") || text_eqb t (lit "out/class_002/2008_1.png") || text_eqb t (lit "out/class_002/2008_2.png") then Some (Gray ex_sbd_pred) else None)
  (fun t => if text_eqb t (lit "/sbd/val.txt") then Some (lit "2008_1" ++ [CR; LF] ++ lit "2008_2" ++ [CR; LF]) else None).
Definition ex_sbd_options : options := mkOpt (Some (lit "[5, 2]")) (lit "99") (75 # 10000) false false false false 1 false 2.
(** Two processes: in the last category both samples are taken by the same one. *)
Definition ex_plans (n : nat) : plan := match n with O => mkPlan (fun _ => 1%nat) [0%nat; 1%nat] | _ => mkPlan (fun i => i) [1%nat; 0%nat] end.
Example ex_sbd_run : forall lib pp f s, raw_values s ->
  session_delivers (fun F P => sbd_script F P lib ex_sbd_machine pp ex_plans (lit "/sbd") (lit "out") (lit ".bmp") [] (lit "out/r") ex_sbd_options) f s (fun answer f' => exists t results,
    answer = Some t /\ List.length results = 2%nat /\ tables [5; 2] (map snd results) t /\ run_reports pp (lit "out/r") [5; 2] results t f f').
Proof.
  intros lib pp f s V. destruct (check_thresholds (AInt 99)) as [th|] eqn:E; [|discriminate].
  assert (Ed : forall t, t <> [] -> nth 0 (rev t) "x"%char <> "/"%char -> directory t).
  { intros t H K. split; [exact H|]. intros d ->. apply K. rewrite rev_app_distr. reflexivity. }
  assert (Num : forall d : Z, 0 <= d <= 9 -> int_numeral [digit_char d] d).
  { intros d Hd. exists [], None, [[d]], []. split; [constructor|]. split; [constructor|]. split; [discriminate|]. split; [constructor; [split; [repeat constructor; lia|discriminate]|constructor]|]. split; [reflexivity|]. cbn. lia. }
  eapply sdelivers_weaken.
  - apply (sbd_run lib pp ex_sbd_machine ex_plans (lit "/sbd") (lit "out") (lit ".bmp") [] (lit "gtEval") (lit "out/r") ex_sbd_options [5; 2] (AInt 99) th (lit "2008_1" ++ [CR; LF] ++ lit "2008_2" ++ [CR; LF]) [lit "2008_1"; lit "2008_2"] f s);
      try exact E; try exact V; try (apply Ed; discriminate); try discriminate; try reflexivity.
    + right. split; reflexivity.
    + right. exists [lit "5"; lit " 2"]. split.
      * split; [discriminate|]. split; [repeat constructor; vm_compute; intuition discriminate|]. exists [], []. split; [constructor|]. split; [constructor|reflexivity].
      * constructor; [apply (Num 5); lia|constructor; [|constructor]]. exists [" "%char], None, [[2]], []. split; [repeat constructor|]. split; [constructor|]. split; [discriminate|].
        split; [constructor; [split; [repeat constructor; lia|discriminate]|constructor]|]. split; reflexivity.
    + repeat constructor; cbn; lia.
    + left. exists 99. split; [|reflexivity]. exists [], None, [[9; 9]], []. split; [constructor|]. split; [constructor|]. split; [discriminate|].
      split; [constructor; [split; [repeat constructor; lia|discriminate]|constructor]|]. split; reflexivity.
    + intros ->. discriminate E.
    + intros d [<-|[<-|[<-|[]]]]; discriminate.
    + exists [CR; LF]. split; [cbn; tauto|]. split; [repeat constructor|reflexivity].
    + intros [|i] _; [apply Permutation_refl|apply perm_swap].
    + intros n [<-|[<-|[]]]; (split; [cbn; discriminate|discriminate]).
    + assert (U : stored_usable (mkEP 1 true false (2 # 100) (Some false) (Some false) None) ex_sbd_edge ex_sbd_seg ex_sbd_pred).
      { split; [split; [split; reflexivity|split; split; reflexivity]|].
        split; [apply bytes_tab; intros; lia|]. split; [apply bytes_tab; intros; lia|]. split; [apply bytes_tab; intros y x; destruct (x =? 7); lia|].
        split; [apply wf_tab|]. split; [apply wf_tab|]. repeat (split; [cbn; lia|]). intros h w Sh Sw.
        rewrite (proj2 (scaled_is_rounding 14 1 ltac:(discriminate)) h Sh), (proj2 (scaled_is_rounding 14 1 ltac:(discriminate)) w Sw). split; [left; cbn; lia|discriminate]. }
      intros c n [<-|[<-|[]]] [<-|[<-|[]]]; exists ex_sbd_edge, ex_sbd_seg, ex_sbd_pred; (split; [split; [reflexivity|split; reflexivity]|exact U]).
  - intros a f' (t & A & rs & F2 & T & R). exists t, rs. split; [exact A|]. split; [|split; assumption]. inversion F2 as [|? ? ? ? _ G EE1]; subst. inversion G as [|? ? ? ? _ G2 EE2]; subst. inversion G2; subst. reflexivity.
Qed.
(** A Cityscapes run of the thin protocol (and, with other files, of the raw one): category 19. *)
Definition ex_city_machine : machine := mkMachine
  (fun t => if text_eqb t (lit "/cs") || text_eqb t (lit "/cs/gtEval/val") || text_eqb t (lit "/cs/gtFine/val") || text_eqb t (lit "out") then Some [] else None) (fun _ => None)
  (fun t => if text_eqb t (lit "/cs/gtEval/val/f/f_0_gtProc_half_thin_edge.png") || text_eqb t (lit "/cs/gtEval/val/f/f_0_gtProc_raw_edge.png") then Some (Colour ex_sbd_edge)
            else if text_eqb t (lit "/cs/gtEval/val/f/f_0_gtFine_labelTrainIds.png") then Some (Gray ex_sbd_seg)
            else if text_eqb t (lit "out/class_019/f/f_0_leftImg8bit.png") then Some (Gray ex_sbd_pred) else None)
  (fun t => if text_eqb t (lit "/cs/splits/val.txt") then Some (lit "f/f_0" ++ [LF]) else None).
Definition ex_city_options : options := mkOpt (Some (lit "19")) (lit "[0.5, 0.75]") (35 # 10000) true true false false (1 # 2) false 1.
Example ex_city_runs : forall lib pp pls f s, raw_values s ->
  session_delivers (fun F P => script F P lib ex_city_machine pp pls cli_city_thin (lit "/cs") (lit "out") [] (lit "out/r") ex_city_options) f s (fun answer f' => exists t results,
    answer = Some t /\ List.length results = 1%nat /\ tables [19] (map snd results) t /\ run_reports pp (lit "out/r") [19] results t f f') /\
  session_delivers (fun F P => script F P lib ex_city_machine pp pls cli_city_raw (lit "/cs") (lit "out") [] (lit "out/r") ex_city_options) f s (fun answer f' => exists t results,
    answer = Some t /\ List.length results = 1%nat /\ tables [19] (map snd results) t /\ run_reports pp (lit "out/r") [19] results t f f').
Proof.
  intros lib pp pls f s V.
  assert (Fin : every_loop_finishes 1 1 pls) by (intros i H; discriminate H).
  assert (Ed : forall t, t <> [] -> nth 0 (rev t) "x"%char <> "/"%char -> directory t).
  { intros t H K. split; [exact H|]. intros d ->. apply K. rewrite rev_app_distr. reflexivity. }
  assert (Gc : cats_given 19 (o_categories ex_city_options) [19]).
  { left. exists 19. split; [|reflexivity]. exists [], None, [[1; 9]], []. split; [constructor|]. split; [constructor|]. split; [discriminate|].
    split; [constructor; [split; [repeat constructor; lia|discriminate]|constructor]|]. split; reflexivity. }
  assert (Vc : Forall (valid_category 19) [19]) by (repeat constructor; cbn; lia).
  assert (Tg : exists a b th, thresholds_given (o_thresholds ex_city_options) (AList (map INum [a; b])) /\ check_thresholds (AList (map INum [a; b])) = Ok th /\ th <> []).
  { destruct (py_float (lit "0.5")) as [[a| |]|] eqn:Ea; try discriminate. destruct (py_float (lit " 0.75")) as [[b| |]|] eqn:Eb; try discriminate.
    exists a, b. destruct (check_thresholds (AList (map INum [a; b]))) as [th|] eqn:Et.
    - exists th. split; [|split; [reflexivity|intros ->; vm_compute in Ea, Eb; injection Ea as <-; injection Eb as <-; discriminate Et]].
      right. exists [lit "0.5"; lit " 0.75"], [a; b]. split; [|split; [repeat (constructor; [assumption|]); constructor|reflexivity]].
      split; [discriminate|]. split; [repeat constructor; vm_compute; intuition discriminate|]. exists [], []. split; [constructor|]. split; [constructor|reflexivity].
    - exfalso. vm_compute in Ea, Eb. injection Ea as <-. injection Eb as <-. discriminate Et. }
  destruct Tg as (ta & tb & th & Tg & Et & Nt).
  assert (Ln : lists_names (lit "f/f_0" ++ [LF]) [lit "f/f_0"]) by (exists [LF]; split; [cbn; tauto|]; split; [repeat constructor|reflexivity]).
  assert (Hn : forall n, In n [lit "f/f_0"] -> relative n /\ n <> []) by (intros n [<-|[]]; split; [cbn; discriminate|discriminate]).
  assert (Hd : forall d, In d [lit "/cs"; lit "out"; in_dir (in_dir (lit "/cs") (lit "gtEval")) (lit "val"); in_dir (in_dir (lit "/cs") (lit "gtFine")) (lit "val")] -> m_dirs ex_city_machine d <> None)
    by (intros d [<-|[<-|[<-|[<-|[]]]]]; discriminate).
  assert (U : forall sc t, (sc = 1 \/ sc = 1 # 2)%Q -> stored_usable (mkEP sc t false (2 # 100) (Some true) (Some true) None) ex_sbd_edge ex_sbd_seg ex_sbd_pred).
  { intros sc t Hsc. split; [split; [split; reflexivity|split; split; reflexivity]|].
    split; [apply bytes_tab; intros; lia|]. split; [apply bytes_tab; intros; lia|]. split; [apply bytes_tab; intros y x; destruct (x =? 7); lia|].
    split; [apply wf_tab|]. split; [apply wf_tab|]. repeat (split; [cbn; lia|]). intros h w Sh Sw. cbn [e_scale e_nms] in *.
    split; [|discriminate]. left. destruct Hsc as [-> | ->].
    - rewrite (proj2 (scaled_is_rounding 14 1 ltac:(discriminate)) h Sh). cbn. lia.
    - rewrite (proj2 (scaled_is_rounding 14 (1 # 2) ltac:(discriminate)) h Sh). cbn. lia. }
  split.
  - eapply sdelivers_weaken.
    + apply (cityscapes_thin_run lib pp ex_city_machine pls (lit "/cs") (lit "out") [] (lit "gtEval") (lit "out/r") ex_city_options [19] (AList (map INum [ta; tb])) th (lit "f/f_0" ++ [LF]) [lit "f/f_0"] f s); try exact Tg; try assumption;
        try (apply Ed; discriminate); try discriminate; try reflexivity.
      * right. split; reflexivity.
      * intros c n [<-|[]] [<-|[]]. exists ex_sbd_edge, ex_sbd_seg, ex_sbd_pred. split; [split; [reflexivity|split; reflexivity]|apply U; left; reflexivity].
    + intros a f' (t & A & rs & F2 & T & R). exists t, rs. split; [exact A|]. split; [|split; assumption]. inversion F2 as [|? ? ? ? _ G EE1]; subst. inversion G; subst. reflexivity.
  - eapply sdelivers_weaken.
    + apply (cityscapes_raw_run lib pp ex_city_machine pls (lit "/cs") (lit "out") [] (lit "gtEval") (lit "out/r") ex_city_options [19] (AList (map INum [ta; tb])) th (lit "f/f_0" ++ [LF]) [lit "f/f_0"] f s); try exact Tg; try assumption;
        try (apply Ed; discriminate); try discriminate; try reflexivity.
      * right. split; reflexivity.
      * intros _. split; [reflexivity|discriminate].
      * intros c n [<-|[]] [<-|[]]. exists ex_sbd_edge, ex_sbd_seg, ex_sbd_pred. split; [split; [reflexivity|split; reflexivity]|apply U; right; reflexivity].
    + intros a f' (t & A & rs & F2 & T & R). exists t, rs. split; [exact A|]. split; [|split; assumption]. inversion F2 as [|? ? ? ? _ G EE1]; subst. inversion G; subst. reflexivity.
Qed.
