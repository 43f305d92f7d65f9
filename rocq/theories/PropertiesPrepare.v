(** C51: preparing Cityscapes: the files written are the files the evaluators read, and evaluating them
    gives the result of the on-the-fly evaluation. *)
From Verif Require Import SpecSamples SpecConvert ProofsWorkers ProofsImage ProofsPaths ProofsText ProofsConvert ProofsLabels ProofsNMS PropertiesResults PropertiesUtils PropertiesSamples PropertiesConvert PropertiesEval2 PropertiesEval3 PropertiesEdges.
From Coq Require Import Lia Lqa ZifyBool ZifyNat.
Open Scope Z_scope.
Open Scope list_scope.

(** ** Names *)
Lemma val_facts : component (lit "val") /\ ~ occurs gtFine (lit "val") /\ component (lit "train") /\ ~ occurs gtFine (lit "train").
Proof.
  assert (O : forall t : text, (List.length t < 6)%nat -> ~ occurs gtFine t) by (intros t L (a & b & ->); rewrite !app_length in L; change (List.length gtFine) with 6%nat in L; lia).
  split; [split; [discriminate|vm_compute; intuition discriminate]|]. split; [apply O; cbn; lia|]. split; [split; [discriminate|vm_compute; intuition discriminate]|apply O; cbn; lia].
Qed.
Lemma label_suffix_facts : ~ In slash label_suffix /\ label_suffix <> [] /\ borderless label_suffix = true /\ label_suffix = "_"%char :: gtFine ++ lit "_labelIds.png".
Proof. split; [vm_compute; intuition discriminate|]. split; [discriminate|]. split; reflexivity. Qed.
Lemma variant_suffix_name v inst ext : variant_suffix v inst ext = kind_name v inst ++ lit "." ++ ext.
Proof. destruct v, inst; reflexivity. Qed.

(** The edge file of a label file. *)
Theorem edge_file_name : forall root proc split n v inst ext, directory root -> ~ occurs (lit "gtFine") root -> component split -> ~ occurs (lit "gtFine") split -> sample_name n ->
  edge_target (label_file root split n) proc label_suffix (variant_suffix v inst ext) = edge_file root proc split n v inst ext.
Proof.
  intros root proc split n v inst ext Hr Or Hs Os Hn. destruct label_suffix_facts as (A & B & C & D). unfold edge_target.
  change (label_file root split n) with (root ++ lit "/gtFine/" ++ split ++ lit "/" ++ n ++ label_suffix). change (lit "gtFine") with gtFine.
  rewrite target_name; try assumption; [|eapply sample_suffix; [exact Hn|exact D]]. unfold edge_file. rewrite variant_suffix_name. reflexivity.
Qed.
Print Assumptions edge_file_name.
(** Its instance file. *)
Theorem instance_file_name : forall root split n, directory root -> component split -> sample_name n ->
  inst_file (label_file root split n) label_suffix inst_suffix = instance_file root split n.
Proof.
  intros root split n Hr Hs Hn. destruct label_suffix_facts as (A & B & C & D). unfold inst_file.
  change (label_file root split n) with (root ++ lit "/gtFine/" ++ split ++ lit "/" ++ n ++ label_suffix).
  rewrite sibling_name; try assumption; [reflexivity|]. eapply sample_suffix; [exact Hn|exact D].
Qed.
Print Assumptions instance_file_name.
(** The train id image of a polygon file. *)
Theorem train_id_file_name : forall root proc split n, directory root -> ~ occurs (lit "gtFine") root -> component split -> ~ occurs (lit "gtFine") split -> sample_name n ->
  trainid_target (root ++ lit "/gtFine/" ++ split ++ lit "/" ++ n ++ lit "_gtFine_polygons.json") proc = root ++ lit "/" ++ proc ++ lit "/" ++ split ++ lit "/" ++ n ++ lit "_gtFine_labelTrainIds.png".
Proof.
  intros root proc split n Hr Or Hs Os Hn. unfold trainid_target. change (lit "gtFine") with gtFine. apply target_name; try assumption.
  - vm_compute. intuition discriminate.
  - discriminate.
  - reflexivity.
  - apply (sample_suffix n _ (lit "_polygons.json") Hn). reflexivity.
Qed.
Print Assumptions train_id_file_name.
(** The files written with the default directory and format are the ground truth files of the evaluators. *)
Theorem written_files_are_read : forall root n thin inst,
  ground_truth City root (lit "gtEval") (lit "val") thin inst n =
    EdgeSeg (edge_file root (lit "gtEval") (lit "val") n (if thin then ThinV else RawV) inst (lit "png")) (root ++ lit "/gtEval/val/" ++ n ++ lit "_gtFine_labelTrainIds.png")
  /\ ground_truth Half root (lit "gtEval") (lit "val") thin inst n =
    EdgeSeg (edge_file root (lit "gtEval") (lit "val") n (if thin then HalfThin else HalfRaw) inst (lit "png")) (root ++ lit "/gtEval/val/" ++ n ++ lit "_gtFine_labelTrainIds.png")
  /\ ground_truth OTF root (lit "gtEval") (lit "val") thin inst n =
    SegInst (label_file root (lit "val") n) (if inst then Some (instance_file root (lit "val") n) else None).
Proof. intros. split; [|split]; destruct thin, inst; reflexivity. Qed.
Print Assumptions written_files_are_read.
(** A dataset directory whose path contains "gtFine" is renamed as well: the edges end up elsewhere. *)
Theorem edge_file_name_any_root_refuted : exists root proc split n v inst ext, directory root /\ component split /\ sample_name n /\
  edge_target (label_file root split n) proc label_suffix (variant_suffix v inst ext) <> edge_file root proc split n v inst ext.
Proof.
  exists (lit "/data/gtFine_trainvaltest"), (lit "gtEval"), (lit "val"), (lit "a/b"), RawV, true, (lit "png").
  split; [|split; [apply val_facts|split; [|vm_compute; discriminate]]].
  - split; [discriminate|]. intros d E. assert (X := f_equal (fun t => nth 0 (rev t) "x"%char) E). cbv beta in X. rewrite rev_app_distr in X. discriminate X.
  - split; [discriminate|]. split; [discriminate|]. split.
    + intros a b E. assert (L := f_equal (@List.length ascii) E). rewrite !app_length in L. destruct a as [|? [|? a]]; destruct b; cbn in L; try lia; discriminate E.
    + split.
      * intros d E. assert (X := f_equal (fun t => nth 0 (rev t) "x"%char) E). cbv beta in X. rewrite rev_app_distr in X. discriminate X.
      * intros (a & b & E). assert (L := f_equal (@List.length ascii) E). rewrite !app_length in L. change (List.length gtFine) with 6%nat in L. cbn in L. lia.
Qed.
Print Assumptions edge_file_name_any_root_refuted.

(** ** One file *)
Lemma reads_unique p t t' : reads p t -> reads p t' -> t = t'.
Proof. destruct p; cbn [reads]; congruence. Qed.
Lemma half_rows n : (68 <= n)%nat -> (34 <= scaled n (1 # 2))%nat.
Proof.
  intros H. destruct (scaled_is_rounding n (1 # 2) ltac:(lra)) as [[_ U] _]. assert (X : (inject_Z 68 <= inject_Z (Z.of_nat n))%Q) by (rewrite <- Zle_Qle; lia). change (inject_Z 68) with 68%Q in X.
  assert (Y : (34 < inject_Z (Z.of_nat (scaled n (1 # 2))) + 1)%Q) by lra. change (34%Q) with (inject_Z 34) in Y. change 1%Q with (inject_Z 1) in Y. rewrite <- inject_Z_plus, <- Zlt_Qlt in Y. lia.
Qed.
Lemma picture_of v radius img inst ext : label_image img -> instances_of img inst ->
  ((match v with HalfRaw | HalfThin => 68 | _ => 34 end) <= ht img)%nat -> (variant_thin v = true -> radius = 1) -> ext = lit ".png" \/ ext = lit ".tif" ->
  exists p, bind (convert_scaled inst radius (variant_thin v) (variant_scale v) true img) (store_edges ext) = Ok p /\ holds_edges v radius img inst p.
Proof.
  intros L I R T E.
  assert (W1 : worked_on 1 img img) by (split; [intros C; exfalso; lra|reflexivity]).
  assert (W1i : match inst, inst with None, None => True | Some i, Some i' => worked_on 1 i i' | _, _ => False end) by (destruct inst; [split; [intros C; exfalso; lra|reflexivity]|exact Logic.I]).
  assert (Raw_ : (34 <= ht img)%nat -> exists p, bind (convert_scaled inst radius false 1 true img) (store_edges ext) = Ok p /\ forall v, v = Train \/ v = RawV -> holds_edges v radius img inst p).
  { intros R'. destruct (raw_conversion img inst img inst radius 1 true ext 1 ltac:(lra) (or_intror (Qle_refl 1)) L I W1 R' W1i E ltac:(lia)) as (p & t & Ep & Rp & Lt & _).
    exists p. split; [exact Ep|]. intros v' Hv. exists t. split; [exact Rp|]. split; [exact Lt|]. intros category Hc.
    destruct (raw_conversion img inst img inst radius 1 true ext category ltac:(lra) (or_intror (Qle_refl 1)) L I W1 R' W1i E Hc) as (p' & t' & Ep' & Rp' & _ & _ & _ & Eo).
    rewrite Ep in Ep'. injection Ep' as <-. rewrite (reads_unique _ _ _ Rp Rp'). destruct Hv as [-> | ->]; exact Eo. }
  destruct v; cbn [variant_thin variant_scale].
  - destruct (Raw_ R) as (p & Ep & H). exists p. auto.
  - destruct (Raw_ R) as (p & Ep & H). exists p. auto.
  - rewrite (T eq_refl) in *. destruct (thin_conversion img inst img inst 1 true ext 1 ltac:(lra) L I W1 R W1i E ltac:(lia)) as (p & t & _ & _ & Ep & Rp & Lt & _).
    exists p. split; [exact Ep|]. exists t. split; [exact Rp|]. split; [exact Lt|]. intros category Hc.
    destruct (thin_conversion img inst img inst 1 true ext category ltac:(lra) L I W1 R W1i E Hc) as (p' & t' & e & r & Ep' & Rp' & _ & _ & _ & Eo & Er & P).
    rewrite Ep in Ep'. injection Ep' as <-. rewrite (reads_unique _ _ _ Rp Rp'). exists e, r. auto.
  - assert (R' : (34 <= ht img)%nat) by lia. destruct L as [W V].
    destruct (sealed_raw_conversion img inst radius (1 # 2) ext 1 ltac:(lra) ltac:(lra) W R' I E ltac:(lia)) as (p & t & _ & Ep & Rp & Lt & _).
    exists p. split; [exact Ep|]. exists t. split; [exact Rp|]. split; [exact Lt|]. intros category Hc.
    destruct (sealed_raw_conversion img inst radius (1 # 2) ext category ltac:(lra) ltac:(lra) W R' I E Hc) as (p' & t' & e & Ep' & Rp' & _ & Sh & Sw & Eo & P).
    rewrite Ep in Ep'. injection Ep' as <-. rewrite (reads_unique _ _ _ Rp Rp'). exists e. auto.
  - rewrite (T eq_refl) in *. assert (Hp : (0 < ht img)%nat) by lia.
    set (img' := if qlt (1 # 2) 1 then resize 0 (scaled (ht img) (1 # 2)) (scaled (wd img) (1 # 2)) img else img).
    assert (Wo : worked_on (1 # 2) img img') by (apply worked_resize; [lra|exact L|exact Hp]).
    assert (R' : (34 <= ht img')%nat) by (unfold img'; change (qlt (1 # 2) 1) with true; cbn [resize ht tab]; apply half_rows; exact R).
    set (inst' := option_map (fun i => if qlt (1 # 2) 1 then resize 0 (scaled (ht i) (1 # 2)) (scaled (wd i) (1 # 2)) i else i) inst).
    assert (Wi : match inst, inst' with None, None => True | Some i, Some i' => worked_on (1 # 2) i i' | _, _ => False end).
    { unfold inst'. destruct inst as [i|]; [|exact Logic.I]. cbn [option_map]. destruct I as (Wi & Hi & Vi & _). destruct L as [W V]. apply worked_resize; [lra|split; [exact Wi|lia]|lia]. }
    destruct (thin_conversion img inst img' inst' (1 # 2) true ext 1 ltac:(lra) L I Wo R' Wi E ltac:(lia)) as (p & t & _ & _ & Ep & Rp & Lt & _).
    exists p. split; [exact Ep|]. exists t. split; [exact Rp|]. split; [exact Lt|]. intros category Hc.
    destruct (thin_conversion img inst img' inst' (1 # 2) true ext category ltac:(lra) L I Wo R' Wi E Hc) as (p' & t' & e & r & Ep' & Rp' & _ & _ & _ & Eo & Er & P).
    rewrite Ep in Ep'. injection Ep' as <-. rewrite (reads_unique _ _ _ Rp Rp'). exists img', inst', e, r. auto 10.
Qed.

(** ** The whole conversion *)
Definition kinds (half : bool) : list variant := if half then [RawV; ThinV; HalfRaw; HalfThin] else [RawV; ThinV].
Lemma suffix_of_longer {A} (a b s t : list A) : a ++ s = b ++ t -> (List.length s <= List.length t)%nat -> exists u, t = u ++ s /\ a = b ++ u.
Proof.
  revert b. induction a as [|x a IH]; intros b E L.
  - cbn [app] in E. subst s. rewrite app_length in L. destruct b; [|cbn in L; lia]. exists []. auto.
  - destruct b as [|y b].
    + exists (x :: a). cbn [app] in E |- *. auto.
    + cbn [app] in E. injection E as -> E. destruct (IH b E L) as (u & -> & ->). exists u. auto.
Qed.
Lemma kind_not_suffix v v' inst u : v <> v' -> kind_name v inst <> u ++ kind_name v' inst.
Proof.
  intros N E.
  assert (X : skipn (List.length (kind_name v inst) - List.length (kind_name v' inst)) (kind_name v inst) = kind_name v' inst).
  { rewrite E at 2. rewrite E, app_length. replace (List.length u + List.length (kind_name v' inst) - List.length (kind_name v' inst))%nat with (List.length u) by lia. rewrite skipn_app, skipn_all, Nat.sub_diag. reflexivity. }
  destruct v, v', inst; try congruence; vm_compute in X; discriminate.
Qed.
Lemma kind_injective n n' v v' inst x : n ++ kind_name v inst ++ x = n' ++ kind_name v' inst ++ x -> n = n' /\ v = v'.
Proof.
  intros E. rewrite !app_assoc in E. apply app_inv_tail in E.
  assert (V : v = v').
  { destruct (Nat.le_ge_cases (List.length (kind_name v inst)) (List.length (kind_name v' inst))) as [L|L].
    - destruct (suffix_of_longer _ _ _ _ E L) as (u & U & _). assert (D : {v' = v} + {v' <> v}) by decide equality. destruct D as [D|D]; [congruence|]. exfalso. exact (kind_not_suffix _ _ _ _ D U).
    - destruct (suffix_of_longer _ _ _ _ (eq_sym E) L) as (u & U & _). assert (D : {v = v'} + {v <> v'}) by decide equality. destruct D as [D|D]; [congruence|]. exfalso. exact (kind_not_suffix _ _ _ _ D U). }
  subst v'. split; [|reflexivity]. apply app_inv_tail in E. exact E.
Qed.
Lemma edge_file_inj root proc split split' n n' v v' inst ext : split = lit "train" \/ split = lit "val" -> split' = lit "train" \/ split' = lit "val" ->
  edge_file root proc split n v inst ext = edge_file root proc split' n' v' inst ext -> split = split' /\ n = n' /\ v = v'.
Proof.
  unfold edge_file. intros S S' E. apply app_inv_head in E. apply app_inv_head in E. apply app_inv_head in E. apply app_inv_head in E.
  assert (X : split = split') by (destruct S as [-> | ->], S' as [-> | ->]; [reflexivity|discriminate E|discriminate E|reflexivity]).
  subst split'. split; [reflexivity|]. apply app_inv_head in E. apply app_inv_head in E. apply kind_injective in E. exact E.
Qed.
(** No edge file is a label or instance file. *)
Lemma edge_file_not_source p n v inst ext q : ext = lit "png" \/ ext = lit "tif" -> p ++ n ++ kind_name v inst ++ lit "." ++ ext <> q ++ lit "Ids.png".
Proof.
  intros H E. assert (X := f_equal (fun t => firstn 5 (rev t)) E). cbv beta in X. rewrite !app_assoc, <- (app_assoc _ (kind_name v inst)), <- (app_assoc _ _ ext), (rev_app_distr (p ++ n)), (rev_app_distr q) in X.
  destruct H as [-> | ->]; destruct v, inst; vm_compute in X; discriminate.
Qed.
Lemma label_path root split n : directory root -> component split -> sample_name n ->
  path_join (path_join (path_join root (lit "gtFine")) split) (n ++ label_suffix) = label_file root split n.
Proof.
  intros Hr Hs (N & R & _). change (lit "gtFine") with gtFine. rewrite (join_directory root) by (auto; apply component_relative, gtFine_component).
  rewrite (join_directory (root ++ slash :: gtFine)) by (apply directory_join, component_directory, gtFine_component || (apply component_relative; exact Hs)).
  rewrite join_directory; [unfold label_file; rewrite <- !app_assoc; reflexivity|apply directory_join, component_directory, Hs|apply relative_app; assumption].
Qed.
(** One file of the run. *)
Lemma run_job_ok root proc split n v inst ext r d img insts : directory root -> ~ occurs (lit "gtFine") root -> component split -> ~ occurs (lit "gtFine") split -> sample_name n ->
  ext = lit "png" \/ ext = lit "tif" -> r_thin r = 1 -> labelled d root split n inst (match v with HalfRaw | HalfThin => true | _ => false end) img insts ->
  exists p, run_job proc inst ext r d (label_file root split n, v) = Ok (edge_file root proc split n v inst ext, p) /\ holds_edges v (variant_radius r v) img insts p.
Proof.
  intros Hr Or Hs Os Hn He Ht (D & L & R & I & J). unfold run_job, convert_label. cbn [fst snd]. cbv zeta. rewrite (edge_file_name root proc split n v inst ext) by assumption.
  replace (snd (splitext (edge_file root proc split n v inst ext))) with (lit "." ++ ext).
  2:{ unfold edge_file. replace (root ++ lit "/" ++ proc ++ lit "/" ++ split ++ lit "/" ++ n ++ kind_name v inst ++ lit "." ++ ext)
        with ((root ++ lit "/" ++ proc ++ lit "/" ++ split ++ lit "/" ++ n) ++ kind_name v inst ++ "."%char :: ext) by (rewrite <- !app_assoc; reflexivity).
      rewrite splitext_any; [reflexivity| | | |].
      - destruct v, inst; vm_compute; intuition discriminate.
      - exists "_"%char. split; [destruct v, inst; left; reflexivity|discriminate].
      - destruct He as [-> | ->]; vm_compute; intuition discriminate.
      - destruct He as [-> | ->]; vm_compute; intuition discriminate. }
  assert (T : variant_thin v && negb (variant_radius r v =? 1) = false) by (destruct v; cbn [variant_thin variant_radius andb]; rewrite ?Ht; reflexivity).
  rewrite T. unfold on_disk at 1. rewrite D. cbn [negb].
  assert (K : known_format (lit "." ++ ext) = true) by (destruct He as [-> | ->]; reflexivity). rewrite K. cbn [negb]. unfold open_gray at 1. rewrite D. cbn [bind].
  rewrite (instance_file_name root split n) by assumption.
  match goal with |- context [bind (if inst then ?a else ?b)] => replace (if inst then a else b) with (@Ok (option (image Z)) insts) end.
  2:{ destruct insts as [i|]; [destruct J as [-> Di]|rewrite J; reflexivity]. unfold on_disk. rewrite Di. cbn [negb]. unfold open_gray. rewrite Di. reflexivity. }
  cbn [bind].
  destruct (picture_of v (variant_radius r v) img insts (lit "." ++ ext) L I) as (p & Ep & Hp).
  - destruct v; exact R.
  - destruct v; try discriminate; intros _; exact Ht.
  - destruct He as [-> | ->]; [left|right]; reflexivity.
  - exists p. destruct (convert_scaled insts (variant_radius r v) (variant_thin v) (variant_scale v) true img) as [e|]; [|discriminate]. cbn [bind] in Ep |- *. rewrite Ep. cbn [bind]. split; [reflexivity|exact Hp].
Qed.
Lemma labelled_less d root split n inst img insts : labelled d root split n inst true img insts -> labelled d root split n inst false img insts.
Proof. intros (A & B & C & D). split; [exact A|]. split; [exact B|]. split; [lia|exact D]. Qed.

Lemma store_type ext e p : ext = lit "png" \/ ext = lit "tif" -> store_edges (lit "." ++ ext) e = Ok p -> picture_type ext p.
Proof.
  intros [-> | ->] E.
  - change (store_edges (lit "." ++ lit "png") e) with (bind (rgb_multilabel_encoding e) (fun p => Ok (Colour p))) in E. destruct (rgb_multilabel_encoding e); [|discriminate]. injection E as <-. reflexivity.
  - change (store_edges (lit "." ++ lit "tif") e) with (@Ok picture (Gray (imap view_int32 (default_multilabel_encoding e)))) in E. injection E as <-. reflexivity.
Qed.
Lemma target_ext root proc split n v inst ext : ext = lit "png" \/ ext = lit "tif" -> snd (splitext (edge_file root proc split n v inst ext)) = lit "." ++ ext.
Proof.
  intros He. unfold edge_file. replace (root ++ lit "/" ++ proc ++ lit "/" ++ split ++ lit "/" ++ n ++ kind_name v inst ++ lit "." ++ ext)
    with ((root ++ lit "/" ++ proc ++ lit "/" ++ split ++ lit "/" ++ n) ++ kind_name v inst ++ "."%char :: ext) by (rewrite <- !app_assoc; reflexivity).
  rewrite splitext_any; [reflexivity| | | |].
  - destruct v, inst; vm_compute; intuition discriminate.
  - exists "_"%char. split; [destruct v, inst; left; reflexivity|discriminate].
  - destruct He as [-> | ->]; vm_compute; intuition discriminate.
  - destruct He as [-> | ->]; vm_compute; intuition discriminate.
Qed.
Lemma run_job_parts root proc split n v inst ext r d f p : ext = lit "png" \/ ext = lit "tif" -> run_job proc inst ext r d (f, v) = Ok (edge_file root proc split n v inst ext, p) ->
  exists e img insts, d f = Some (Gray img) /\ convert_scaled insts (variant_radius r v) (variant_thin v) (variant_scale v) true img = Ok e /\ store_edges (lit "." ++ ext) e = Ok p /\
    (if inst then exists i, insts = Some i /\ d (inst_file f label_suffix inst_suffix) = Some (Gray i) else insts = None).
Proof.
  intros He E. unfold run_job, convert_label in E. cbn [fst snd] in E. cbv zeta in E.
  destruct (variant_thin v && _); [discriminate|]. destruct (negb _); [discriminate|]. destruct (negb _); [discriminate|].
  unfold open_gray at 1 in E. destruct (d f) as [[img|]|] eqn:D; try discriminate. cbn [bind] in E.
  match type of E with bind ?X _ = _ => destruct X as [insts|] eqn:I end; [|discriminate]. cbn [bind] in E.
  destruct (convert_scaled insts (variant_radius r v) (variant_thin v) (variant_scale v) true img) as [e|] eqn:Ec; [|discriminate]. cbn [bind] in E.
  destruct (store_edges _ e) as [q|] eqn:Es; [|discriminate]. cbn [bind] in E. injection E as Et <-. rewrite Et, (target_ext root proc split n v inst ext He) in Es.
  exists e, img, insts. split; [reflexivity|]. split; [exact Ec|]. split; [exact Es|]. destruct inst; [|congruence].
  destruct (negb _); [discriminate|]. unfold open_gray in I. destruct (d (inst_file f label_suffix inst_suffix)) as [[i|]|]; try discriminate. cbn [bind] in I. exists i. split; [congruence|reflexivity].
Qed.
Lemma run_job_type root proc split n v inst ext r d f p : ext = lit "png" \/ ext = lit "tif" -> run_job proc inst ext r d (f, v) = Ok (edge_file root proc split n v inst ext, p) -> picture_type ext p.
Proof. intros He E. destruct (run_job_parts _ _ _ _ _ _ _ _ _ _ _ He E) as (e & _ & _ & _ & _ & Es & _). eapply store_type; eassumption. Qed.
Lemma conversion_run_full : forall root proc ext inst half r train val d,
  directory root -> ~ occurs (lit "gtFine") root -> proc <> [] -> ext = lit "png" \/ ext = lit "tif" -> r_thin r = 1 ->
  (forall n, In n train -> sample_name n /\ exists img insts, labelled d root (lit "train") n inst false img insts) ->
  (forall n, In n val -> sample_name n /\ exists img insts, labelled d root (lit "val") n inst half img insts) ->
  exists d', convert_cityscapes proc root true inst ext half r (map (fun n => n ++ lit "_gtFine_labelIds.png") train) (map (fun n => n ++ lit "_gtFine_labelIds.png") val) d = (Ok tt, d') /\
  (forall n img insts, In n train -> labelled d root (lit "train") n inst false img insts ->
     exists p, run_job proc inst ext r d (label_file root (lit "train") n, Train) = Ok (edge_file root proc (lit "train") n Train inst ext, p) /\ d' (edge_file root proc (lit "train") n Train inst ext) = Some p /\ holds_edges Train (r_train r) img insts p) /\
  (forall n v img insts, In n val -> In v (kinds half) -> labelled d root (lit "val") n inst half img insts ->
     exists p, run_job proc inst ext r d (label_file root (lit "val") n, v) = Ok (edge_file root proc (lit "val") n v inst ext, p) /\ d' (edge_file root proc (lit "val") n v inst ext) = Some p /\ holds_edges v (asked_radius r v) img insts p) /\
  forall q, (forall n, In n train -> q <> edge_file root proc (lit "train") n Train inst ext) ->
    (forall n v, In n val -> In v (kinds half) -> q <> edge_file root proc (lit "val") n v inst ext) -> d' q = d q.
Proof.
  intros root proc ext inst half r train val d Hr Or Hp He Ht Htr Hva. destruct val_facts as (Cv & Ov & Ct & Ot).
  unfold convert_cityscapes. destruct proc as [|c0 proc0] eqn:Epr; [congruence|]. rewrite <- Epr. replace (nonempty proc) with true by (rewrite Epr; reflexivity). cbn [negb].
  replace (text_eqb ext (lit "png") || text_eqb ext (lit "bin") || text_eqb ext (lit "tif")) with true by (destruct He as [-> | ->]; reflexivity). cbn [negb].
  set (good := fun (split n : text) (v : variant) => split = lit "train" /\ In n train /\ v = Train \/ split = lit "val" /\ In n val /\ In v (kinds half)).
  set (jobs := conversion_jobs root half (map (fun n => n ++ lit "_gtFine_labelIds.png") train) (map (fun n => n ++ lit "_gtFine_labelIds.png") val)).
  assert (Jobs : forall j, In j jobs <-> exists split n v, good split n v /\ j = (label_file root split n, v)).
  { intros j. unfold jobs, conversion_jobs. fold (kinds half). split.
    - intros I. apply in_app_or in I. destruct I as [I|I].
      + rewrite map_map in I. apply in_map_iff in I. destruct I as (n & <- & In_). exists (lit "train"), n, Train. split; [left; auto|].
        f_equal. apply label_path; [exact Hr|exact Ct|apply Htr; exact In_].
      + apply in_flat_map in I. destruct I as (v & V & I). rewrite map_map in I. apply in_map_iff in I. destruct I as (n & <- & In_). exists (lit "val"), n, v. split; [right; auto|].
        f_equal. apply label_path; [exact Hr|exact Cv|apply Hva; exact In_].
    - intros (split & n & v & G & ->). apply in_or_app. destruct G as [(-> & G & ->)|(-> & G & V)]; [left|right].
      + rewrite map_map. apply in_map_iff. exists n. split; [|exact G]. f_equal. apply label_path; [exact Hr|exact Ct|apply Htr; exact G].
      + apply in_flat_map. exists v. split; [exact V|]. rewrite map_map. apply in_map_iff. exists n. split; [|exact G]. f_equal. apply label_path; [exact Hr|exact Cv|apply Hva; exact G]. }
  assert (Name : forall split n v, good split n v -> sample_name n) by (intros split n v [(_ & G & _)|(_ & G & _)]; [apply Htr; exact G|apply Hva; exact G]).
  assert (Split : forall split n v, good split n v -> (split = lit "train" \/ split = lit "val") /\ component split /\ ~ occurs (lit "gtFine") split) by (intros split n v [(-> & _)|(-> & _)]; auto).
  set (tgt := fun j : text * variant => edge_target (fst j) proc label_suffix (variant_suffix (snd j) inst ext)).
  assert (Tgt : forall split n v, good split n v -> tgt (label_file root split n, v) = edge_file root proc split n v inst ext).
  { intros split n v G. unfold tgt. cbn [fst snd]. destruct (Split _ _ _ G) as (_ & C & O). apply edge_file_name; try assumption. eapply Name; exact G. }
  assert (Run : forall split n v img insts, good split n v -> labelled d root split n inst (match v with HalfRaw | HalfThin => true | _ => false end) img insts ->
    exists p, run_job proc inst ext r d (label_file root split n, v) = Ok (edge_file root proc split n v inst ext, p) /\ holds_edges v (variant_radius r v) img insts p).
  { intros split n v img insts G L. destruct (Split _ _ _ G) as (_ & C & O). apply run_job_ok; try assumption. eapply Name; exact G. }
  assert (Lab : forall n v img insts, In v (kinds half) -> labelled d root (lit "val") n inst half img insts -> labelled d root (lit "val") n inst (match v with HalfRaw | HalfThin => true | _ => false end) img insts).
  { intros n v img insts V L. destruct half; [destruct v; try exact L; apply labelled_less; exact L|]. destruct V as [<-|[<-|[]]]; exact L. }
  set (content := fun j => match run_job proc inst ext r d j with Ok (_, p) => p | Err _ => Gray (tab 0 0 (fun _ _ => 0)) end).
  assert (Good : forall split n v, good split n v -> exists p, run_job proc inst ext r d (label_file root split n, v) = Ok (edge_file root proc split n v inst ext, p)).
  { intros split n v G. assert (G' := G). destruct G as [(-> & G & ->)|(-> & G & V)].
    - destruct (Htr n G) as (_ & img & insts & L). destruct (Run _ _ _ img insts G' L) as (p & E & _). exists p. exact E.
    - destruct (Hva n G) as (_ & img & insts & L). destruct (Run _ _ _ img insts G' (Lab _ _ _ _ V L)) as (p & E & _). exists p. exact E. }
  destruct (run_jobs_ok proc inst ext r tgt content jobs d) as (d' & E & W & K).
  - intros j J. apply Jobs in J. destruct J as (split & n & v & G & ->). destruct (Good _ _ _ G) as (p & E). unfold content. rewrite E, Tgt by exact G. reflexivity.
  - intros j k f J Kk F. apply Jobs in J. destruct J as (split & n & v & G & ->). apply Jobs in Kk. destruct Kk as (split' & n' & v' & G' & ->). rewrite Tgt by exact G.
    intros X. assert (Src : exists q, f = q ++ lit "Ids.png").
    { destruct F as [<-|F].
      - exists (root ++ lit "/gtFine/" ++ split' ++ lit "/" ++ n' ++ lit "_gtFine_label"). cbn [fst]. unfold label_file. rewrite <- !app_assoc. reflexivity.
      - destruct inst; [|destruct F]. destruct F as [<-|[]]. cbn [fst]. destruct (Split _ _ _ G') as (_ & C & O). rewrite instance_file_name; [|exact Hr|exact C|eapply Name; exact G'].
        exists (root ++ lit "/gtFine/" ++ split' ++ lit "/" ++ n' ++ lit "_gtFine_instance"). unfold instance_file. rewrite <- !app_assoc. reflexivity. }
    destruct Src as (q & ->). unfold edge_file in X.
    apply (edge_file_not_source (root ++ lit "/" ++ proc ++ lit "/" ++ split ++ lit "/") n v inst ext q He). rewrite <- X, <- !app_assoc. reflexivity.
  - intros j k J Kk X. apply Jobs in J. destruct J as (split & n & v & G & ->). apply Jobs in Kk. destruct Kk as (split' & n' & v' & G' & ->). rewrite !Tgt in X by assumption.
    apply edge_file_inj in X; [|apply (Split _ _ _ G)|apply (Split _ _ _ G')]. destruct X as (-> & -> & ->). reflexivity.
  - exists d'. split; [exact E|].
    assert (Wr : forall split n v img insts, good split n v -> labelled d root split n inst (match v with HalfRaw | HalfThin => true | _ => false end) img insts ->
      exists p, run_job proc inst ext r d (label_file root split n, v) = Ok (edge_file root proc split n v inst ext, p) /\ d' (edge_file root proc split n v inst ext) = Some p /\ holds_edges v (variant_radius r v) img insts p).
    { intros split n v img insts G L. destruct (Run _ _ _ _ _ G L) as (p & Er & H). exists p. split; [exact Er|]. split; [|exact H]. rewrite <- (Tgt _ _ _ G).
      rewrite W by (apply Jobs; eauto). unfold content. rewrite Er. reflexivity. }
    split; [|split].
    + intros n img insts I L. apply (Wr (lit "train") n Train); [left; auto|exact L].
    + intros n v img insts I V L. apply Wr; [right; auto|]. apply Lab; assumption.
    + intros q Q1 Q2. apply K. intros j J. apply Jobs in J. destruct J as (split & n & v & G & ->). rewrite Tgt by exact G. intros X. symmetry in X.
      destruct G as [(-> & G & ->)|(-> & G & V)]; [exact (Q1 _ G X)|exact (Q2 _ _ G V X)].
Qed.
(** *** C51, theorem 1: a run writes, for each training image, its edges, and for each validation image its
    raw and thinned edges (and those at half size), each holding what it is named for; nothing else on the
    disk changes. *)
Theorem cityscapes_conversion_run : forall root proc ext inst half r train val d,
  directory root -> ~ occurs (lit "gtFine") root -> proc <> [] -> ext = lit "png" \/ ext = lit "tif" -> r_thin r = 1 ->
  (forall n, In n train -> sample_name n /\ exists img insts, labelled d root (lit "train") n inst false img insts) ->
  (forall n, In n val -> sample_name n /\ exists img insts, labelled d root (lit "val") n inst half img insts) ->
  exists d', convert_cityscapes proc root true inst ext half r (map (fun n => n ++ lit "_gtFine_labelIds.png") train) (map (fun n => n ++ lit "_gtFine_labelIds.png") val) d = (Ok tt, d') /\
  (forall n img insts, In n train -> labelled d root (lit "train") n inst false img insts ->
     exists p, d' (edge_file root proc (lit "train") n Train inst ext) = Some p /\ picture_type ext p /\ holds_edges Train (r_train r) img insts p) /\
  (forall n v img insts, In n val -> In v (kinds half) -> labelled d root (lit "val") n inst half img insts ->
     exists p, d' (edge_file root proc (lit "val") n v inst ext) = Some p /\ picture_type ext p /\ holds_edges v (variant_radius r v) img insts p) /\
  forall q, (forall n, In n train -> q <> edge_file root proc (lit "train") n Train inst ext) ->
    (forall n v, In n val -> In v (kinds half) -> q <> edge_file root proc (lit "val") n v inst ext) -> d' q = d q.
Proof.
  intros root proc ext inst half r train val d Hr Or Hp He Ht Htr Hva. destruct (conversion_run_full root proc ext inst half r train val d Hr Or Hp He Ht Htr Hva) as (d' & E & A & B & C).
  exists d'. split; [exact E|]. split; [|split; [|exact C]].
  - intros n img insts I L. destruct (A n img insts I L) as (p & Er & D & H). exists p. split; [exact D|]. split; [eapply run_job_type; [exact He|exact Er]|exact H].
  - intros n v img insts I V L. destruct (B n v img insts I V L) as (p & Er & D & H). exists p. split; [exact D|]. split; [eapply run_job_type; [exact He|exact Er]|]. destruct v; exact H.
Qed.
Print Assumptions cityscapes_conversion_run.
(** A run is refused, and changes nothing, without an output directory name, without the directory gtFine or
    with another extension. *)
Theorem conversion_refused : forall proc root found inst ext half r train val d,
  proc = [] \/ found = false \/ (ext <> lit "png" /\ ext <> lit "tif" /\ ext <> lit "bin") ->
  convert_cityscapes proc root found inst ext half r train val d = (Err AssertionError, d).
Proof.
  intros proc root found inst ext half r train val d H. unfold convert_cityscapes. destruct proc as [|c proc]; [reflexivity|]. cbn [nonempty negb]. destruct found; [|reflexivity]. cbn [negb].
  destruct H as [H|[H|(A & B & C)]]; [discriminate|discriminate|]. rewrite !text_eqb_neq by assumption. reflexivity.
Qed.
Print Assumptions conversion_refused.

(** ** Evaluation of the prepared files *)
Lemma forM_ext_in {A B} (f g : A -> run B) : forall l, (forall x, In x l -> forall r, f x r = g x r) -> forall r, forM f l r = forM g l r.
Proof.
  induction l as [|x l IH]; intros H r; [reflexivity|]. cbn [forM]. unfold then_. rewrite (H x (or_introl eq_refl)). destruct (g x r) as [[[b r1]|]|]; cbn [bind]; try reflexivity.
  rewrite IH by (intros y Y; apply H; right; exact Y). reflexivity.
Qed.
Lemma forM_map {A B C} (f : B -> run C) (g : A -> B) : forall l r, forM f (map g l) r = forM (fun x => f (g x)) l r.
Proof. induction l as [|x l IH]; intros r; [reflexivity|]. cbn [map forM]. unfold then_. destruct (f (g x) r) as [[[b r1]|]|]; cbn [bind]; try reflexivity. rewrite IH. reflexivity. Qed.
Lemma convert_scaled_png inst radius img e p : convert_scaled inst radius false 1 true img = Ok e -> store_edges (lit ".png") e = Ok p ->
  exists png, p = Colour png /\ convert_png inst radius false img = Ok png.
Proof.
  intros E S. unfold convert_scaled in E. change (qlt 1 1) with false in E. cbn [andb negb] in E. unfold convert_png.
  destruct (convert_edges inst radius false img) as [t|]; [|discriminate]. cbn [bind] in E |- *. injection E as ->.
  change (store_edges (lit ".png") e) with (bind (rgb_multilabel_encoding e) (fun p => Ok (Colour p))) in S. destruct (rgb_multilabel_encoding e) as [png|]; [|discriminate]. injection S as <-. exists png. auto.
Qed.
Lemma known_category c : 1 <= c <= 19 -> exists l, trainId2label (c - 1) = Ok l.
Proof.
  intros H. assert (A : forallb (fun c => match trainId2label (c - 1) with Ok _ => true | Err _ => false end) (map (fun i => i + 1) (zseq 19)) = true) by (vm_compute; reflexivity).
  rewrite forallb_forall in A. assert (Y := A c). cbv beta in Y. destruct (trainId2label (c - 1)) as [l|]; [eauto|]. assert (false = true); [|discriminate]. apply Y. apply in_map_iff. exists (c - 1). split; [lia|]. apply in_zseq. lia.
Qed.
(** *** C51, theorem 2: evaluating the prepared (raw) files gives, at full scale, exactly what the
    on-the-fly evaluation of the label files gives: the same result or the same exception, for all
    predictions, parameters, thresholds and states of the random generator.  The train id images come from
    cityscapesscripts: they are assumed to be the label images with each label replaced by its train id. *)
Theorem prepared_evaluation_equals_on_the_fly : forall root proc inst half r train val d d',
  directory root -> ~ occurs (lit "gtFine") root -> proc <> [] -> r_thin r = 1 -> r_raw r = 2 ->
  (forall n, In n train -> sample_name n /\ exists img insts, labelled d root (lit "train") n inst false img insts) ->
  (forall n, In n val -> sample_name n /\ exists img insts, labelled d root (lit "val") n inst half img insts) ->
  convert_cityscapes proc root true inst (lit "png") half r (map (fun n => n ++ lit "_gtFine_labelIds.png") train) (map (fun n => n ++ lit "_gtFine_labelIds.png") val) d = (Ok tt, d') ->
  forall fuel pfuel lib w pred gt_arg suffix_arg suffix category a thr names s,
  directory pred -> directory_used gt_arg proc -> suffix_used City suffix_arg suffix -> 1 <= category <= 19 ->
  a_inst a = Some inst -> a_scale a = Some 1%Q -> (exists e, eval_params City false a = Ok e) ->
  names <> [] -> incl names val ->
  (forall n, In n names -> forall img, d (label_file root (lit "val") n) = Some (Gray img) ->
    d' (root ++ lit "/" ++ proc ++ lit "/val/" ++ n ++ lit "_gtFine_labelTrainIds.png") = Some (Gray (mask_label2trainId img CITYSCAPES_label2trainId)) /\
    forall im, d' (prediction pred category n suffix) = Some (Gray im) -> wf im /\ same_shape im img) ->
  evaluate_category_run fuel pfuel lib w d' City (mkPlace root pred (lit "val") false gt_arg suffix_arg) true (Some names) a thr category s =
  evaluate_category_run fuel pfuel lib w d' OTF (mkPlace root pred (lit "val") false gt_arg suffix_arg) true (Some names) a thr category s.
Proof.
  intros root proc inst half r train val d d' Hr Or Hp Ht Hraw Htr Hva Ed F P lib w pred gt_arg suffix_arg suffix category a thr names s Hpd Hg Hx Hc Hi Hsc (e & He) Hne Hin Hf.
  destruct (conversion_run_full root proc (lit "png") inst half r train val d Hr Or Hp (or_introl eq_refl) Ht Htr Hva) as (d2 & E2 & _ & B & C). rewrite Ed in E2. injection E2 as <-.
  destruct val_facts as (Cv & Ov & _).
  assert (Hn : forall n, In n names -> relative n /\ n <> []) by (intros n I; destruct (Hva n (Hin n I)) as ((N & R & _) & _); auto).
  assert (Hsx : suffix_used OTF suffix_arg suffix) by exact Hx.
  set (eo := mkEP 1 (e_thinning e) (e_nms e) (e_dist e) (e_kill e) (e_skip e) (Some 2)).
  assert (Ho : eval_params OTF false a = Ok eo /\ e = mkEP 1 (e_thinning e) (e_nms e) (e_dist e) (e_kill e) (e_skip e) None).
  { unfold eval_params in He |- *. rewrite Hsc in *. cbn [getattr bind] in He |- *. destruct (getattr (a_thinning a)); [|discriminate]. cbn [bind] in He |- *. destruct (getattr (a_nms a)); [|discriminate]. cbn [bind] in He |- *.
    destruct (getattr (a_dist a)); [|discriminate]. cbn [bind] in He |- *. destruct (getattr (a_kill a)); [|discriminate]. cbn [bind] in He |- *. destruct (getattr (a_skip a)); [|discriminate]. cbn [bind] in He |- *.
    injection He as <-. split; reflexivity. }
  destruct Ho as [Ho Ee].
  rewrite (category_run F P lib w City root pred (lit "val") gt_arg proc suffix suffix_arg false inst category a e thr) by (assumption || discriminate).
  rewrite (category_run F P lib w OTF root pred (lit "val") gt_arg proc suffix suffix_arg false inst category a eo thr) by (assumption || discriminate).
  (* the sources are unchanged *)
  assert (Src : forall q, d' (q ++ lit "Ids.png") = d (q ++ lit "Ids.png") \/ exists n v, In n val /\ q ++ lit "Ids.png" = edge_file root proc (lit "val") n v inst (lit "png")).
  { intros q. left. apply C.
    - intros n _ X. symmetry in X. unfold edge_file in X. apply (edge_file_not_source (root ++ lit "/" ++ proc ++ lit "/train/") n Train inst (lit "png") q (or_introl eq_refl)). rewrite <- X, <- !app_assoc. reflexivity.
    - intros n v _ _ X. symmetry in X. unfold edge_file in X. apply (edge_file_not_source (root ++ lit "/" ++ proc ++ lit "/val/") n v inst (lit "png") q (or_introl eq_refl)). rewrite <- X, <- !app_assoc. reflexivity. }
  assert (Src' : forall q, d' (q ++ lit "Ids.png") = d (q ++ lit "Ids.png")).
  { intros q. destruct (Src q) as [X|(n & v & _ & X)]; [exact X|]. symmetry in X. unfold edge_file in X. exfalso. apply (edge_file_not_source (root ++ lit "/" ++ proc ++ lit "/val/") n v inst (lit "png") q (or_introl eq_refl)). rewrite <- X, <- !app_assoc. reflexivity. }
  clear Src.
  assert (Lab : forall n, d' (label_file root (lit "val") n) = d (label_file root (lit "val") n)).
  { intros n. replace (label_file root (lit "val") n) with ((root ++ lit "/gtFine/val/" ++ n ++ lit "_gtFine_label") ++ lit "Ids.png") by (unfold label_file; rewrite <- !app_assoc; reflexivity). apply Src'. }
  assert (Ins : forall n, d' (instance_file root (lit "val") n) = d (instance_file root (lit "val") n)).
  { intros n. replace (instance_file root (lit "val") n) with ((root ++ lit "/gtFine/val/" ++ n ++ lit "_gtFine_instance") ++ lit "Ids.png") by (unfold instance_file; rewrite <- !app_assoc; reflexivity). apply Src'. }
  assert (One : forall n, In n names -> exists img insts png, d' (label_file root (lit "val") n) = Some (Gray img) /\ label_image img /\ (34 <= ht img)%nat /\ instances_of img insts /\
     (match insts with Some i => inst = true /\ d' (instance_file root (lit "val") n) = Some (Gray i) | None => inst = false end) /\
     d' (edge_file root proc (lit "val") n RawV inst (lit "png")) = Some (Colour png) /\ convert_png insts 2 false img = Ok png).
  { intros n I. destruct (Hva n (Hin n I)) as (Sn & img & insts & L). assert (L' := L). destruct L' as (D & Li & R & Ii & J).
    destruct (B n RawV img insts (Hin n I) ltac:(destruct half; left; reflexivity) L) as (p & Er & Dp & _).
    destruct (run_job_parts _ _ _ _ _ _ _ _ _ _ _ (or_introl eq_refl) Er) as (t & img' & insts' & Df & Ec & Es & Ei).
    assert (img' = img) by congruence. subst img'. rewrite instance_file_name in Ei by assumption.
    assert (insts' = insts).
    { destruct insts as [i|]; [destruct J as [J1 J2]; rewrite J1 in Ei; destruct Ei as (i' & -> & Di); congruence|rewrite J in Ei; exact Ei]. }
    subst insts'. cbn [variant_radius variant_thin variant_scale] in Ec. rewrite Hraw in Ec. destruct (convert_scaled_png _ _ _ _ _ Ec Es) as (png & -> & Cp).
    exists img, insts, png. rewrite Lab. split; [exact D|]. split; [exact Li|]. split; [destruct half; lia|]. split; [exact Ii|]. split; [|split; [exact Dp|exact Cp]]. rewrite Ins. exact J. }
  assert (G : forall n, In n names -> ground_truth City root proc (lit "val") false inst n = EdgeSeg (edge_file root proc (lit "val") n RawV inst (lit "png")) (root ++ lit "/" ++ proc ++ lit "/val/" ++ n ++ lit "_gtFine_labelTrainIds.png")).
  { intros n _. destruct inst; reflexivity. }
  assert (There : forallb (fun n => forallb (on_disk d') (files_of (ground_truth City root proc (lit "val") false inst n))) names = true).
  { apply forallb_forall. intros n I. rewrite G by exact I. destruct (One n I) as (img & insts & png & D & _ & _ & _ & _ & Dp & _). rewrite Lab in D. destruct (Hf n I img D) as [Tr _]. cbn [files_of forallb]. unfold on_disk. rewrite Dp, Tr. reflexivity. }
  assert (There2 : forallb (fun n => forallb (on_disk d') (files_of (ground_truth OTF root proc (lit "val") false inst n))) names = true).
  { apply forallb_forall. intros n I. destruct (One n I) as (img & insts & png & D & _ & _ & _ & J & _).
    change (ground_truth OTF root proc (lit "val") false inst n) with (SegInst (label_file root (lit "val") n) (if inst then Some (instance_file root (lit "val") n) else None)).
    destruct insts as [i|]; [destruct J as [-> Di]|rewrite J]; cbn [files_of forallb]; unfold on_disk; rewrite ?D, ?Di; reflexivity. }
  rewrite There, There2. unfold then_. rewrite !each_map.
  rewrite (each_ext w _ (fun n => eval_sample F P lib d' OTF (Z.of_nat (n_classes_of OTF)) category thr eo (mkSample n (ground_truth OTF root proc (lit "val") false inst n) (prediction pred category n suffix)))); [reflexivity|].
  intros n s0 I. rewrite G by exact I. destruct (One n I) as (img & insts & png & D & Li & R & Ii & J & Dp & Cp). assert (D0 := D). rewrite Lab in D0. destruct (Hf n I img D0) as [Tr Pr].
  change (ground_truth OTF root proc (lit "val") false inst n) with (SegInst (label_file root (lit "val") n) (if inst then Some (instance_file root (lit "val") n) else None)).
  unfold eval_sample. cbn [sm_gt sm_pred]. destruct (check_thresholds thr) as [th|] eqn:T; [|reflexivity]. cbn [bind].
  destruct (known_category category Hc) as (l & ->). cbn [bind]. unfold open_colour at 1. rewrite Dp. cbn [bind]. assert (OpL : open_gray d' (label_file root (lit "val") n) = Ok img) by (unfold open_gray; rewrite D; reflexivity). rewrite OpL. cbn [bind].
  destruct (open_gray d' (prediction pred category n suffix)) as [im|] eqn:Op; [|reflexivity]. cbn [bind].
  assert (Pi : d' (prediction pred category n suffix) = Some (Gray im)) by (unfold open_gray in Op; destruct (d' (prediction pred category n suffix)) as [[]|]; congruence).
  destruct (Pr im Pi) as [Wp Sp].
  replace (match (if inst then Some (instance_file root (lit "val") n) else None) with Some i => bind (open_gray d' i) (fun i => Ok (Some i)) | None => Ok None end) with (@Ok (option (image Z)) insts).
  2:{ destruct insts as [i|]; [destruct J as [-> Di]|rewrite J; reflexivity]. unfold open_gray. rewrite Di. reflexivity. }
  cbn [bind]. change (Z.of_nat (n_classes_of City)) with 19. rewrite Ee. unfold eo. cbn [e_scale e_thinning e_nms e_dist e_kill e_skip e_radius].
  set (kill := match e_kill e with Some b => b | None => false end). set (skip := match e_skip e with Some b => b | None => false end).
  assert (X := stored_evaluation_equals_on_the_fly img insts 2 category png (proj1 Li) R Hc). 
  rewrite <- X; [| |exact Cp|exact Wp|exact Sp].
  2:{ destruct insts as [i|]; [|exact Logic.I]. exact (instances_ids _ _ Ii). }
  unfold cityscapes_eval_single. destruct kill.
  - unfold open_gray. rewrite Tr. reflexivity.
  - reflexivity.
Qed.
Print Assumptions prepared_evaluation_equals_on_the_fly.

(** ** The hypotheses are met: a disk with one training and two validation images with instances. *)
Definition demo_root : text := lit "/data/cityscapes".
Definition demo_labels : image Z := tab 68 3 (fun y x => if y <? 34 then 7 else if x =? 1 then 26 else 24).
Definition demo_ids : image Z := tab 68 3 (fun y x => if y <? 34 then 7 else if x =? 1 then 26000 else 24000 + y / 50).
Definition demo_disk : disk := fun q =>
  if existsb (fun s => text_eqb q (label_file demo_root (fst s) (snd s))) [(lit "train", lit "ulm/u"); (lit "val", lit "bonn/a"); (lit "val", lit "bonn/b")] then Some (Gray demo_labels)
  else if existsb (fun s => text_eqb q (instance_file demo_root (fst s) (snd s))) [(lit "train", lit "ulm/u"); (lit "val", lit "bonn/a"); (lit "val", lit "bonn/b")] then Some (Gray demo_ids)
  else None.
Fixpoint has_pair (x y : ascii) (t : text) : bool := match t with a :: ((b :: _) as r) => (Ascii.eqb a x && Ascii.eqb b y) || has_pair x y r | _ => false end.
Lemma has_pair_spec x y a b : has_pair x y (a ++ [x; y] ++ b) = true.
Proof.
  induction a as [|c a IH]; [cbn [app has_pair]; rewrite !Ascii.eqb_refl; reflexivity|]. cbn [app] in IH |- *.
  destruct (a ++ x :: y :: b) as [|d r] eqn:E; [destruct a; discriminate|]. change (has_pair x y (c :: d :: r)) with ((Ascii.eqb c x && Ascii.eqb d y) || has_pair x y (d :: r)). rewrite IH. apply orb_true_r.
Qed.
Lemma demo_sample (n : text) : nonempty n = true -> negb (startswith n (lit "/")) = true -> negb (endswith n (lit "/")) = true -> has_pair "/" "/" n = false -> has_pair "g" "t" n = false -> sample_name n.
Proof.
  intros N R T DD G. split; [destruct n; discriminate|]. split; [apply relative_spec; destruct (startswith n (lit "/")); [discriminate|reflexivity]|]. split; [|split].
  - intros a b ->. assert (X := has_pair_spec "/" "/" a b). change (a ++ lit "//" ++ b) with (a ++ ["/"; "/"]%char ++ b) in DD. congruence.
  - intros d ->. unfold endswith in T. rewrite rev_app_distr in T. cbn in T. destruct (rev d); discriminate.
  - intros (a & b & ->). change gtFine with (["g"%char; "t"%char] ++ lit "Fine") in G. rewrite <- app_assoc in G. rewrite has_pair_spec in G. discriminate.
Qed.
Example ex_prepare : directory demo_root /\ ~ occurs (lit "gtFine") demo_root /\
  (forall n, In n [lit "ulm/u"] -> sample_name n /\ exists img insts, labelled demo_disk demo_root (lit "train") n true false img insts) /\
  (forall n, In n [lit "bonn/a"; lit "bonn/b"] -> sample_name n /\ exists img insts, labelled demo_disk demo_root (lit "val") n true true img insts).
Proof.
  assert (I : instances_of demo_labels (Some demo_ids)).
  { split; [apply wf_tab|]. split; [reflexivity|]. split; [reflexivity|]. intros y x H. unfold demo_ids. rewrite px_tab by exact H. apply inb_spec in H. change (ht demo_ids) with 68%nat in H. change (wd demo_ids) with 3%nat in H.
    destruct (inb 68 3 y x); [|lia]. destruct (y <? 34); [lia|]. destruct (x =? 1); [lia|]. assert (0 <= y / 50 < 2) by (split; [apply Z.div_pos; lia|apply Z.div_lt_upper_bound; lia]). lia. }
  assert (L : label_image demo_labels) by (split; [apply wf_tab|cbn; lia]).
  split; [split; [discriminate|intros d E; assert (X := f_equal (fun t => nth 0 (rev t) "x"%char) E); cbv beta in X; rewrite rev_app_distr in X; discriminate X]|].
  split; [intros (a & b & E); assert (X := has_pair_spec "g" "t" a (lit "Fine" ++ b)); change (a ++ [("g")%char; ("t")%char] ++ lit "Fine" ++ b) with (a ++ lit "gtFine" ++ b) in X; rewrite <- E in X; vm_compute in X; discriminate|].
  split.
  - intros n [<-|[]]. split; [apply demo_sample; reflexivity|]. exists demo_labels, (Some demo_ids). split; [reflexivity|]. split; [exact L|]. split; [cbn; lia|]. split; [exact I|]. split; reflexivity.
  - intros n [<-|[<-|[]]]; (split; [apply demo_sample; reflexivity|]); exists demo_labels, (Some demo_ids); (split; [reflexivity|]); (split; [exact L|]); (split; [cbn; lia|]); (split; [exact I|]); split; reflexivity.
Qed.
(** The parameters of the evaluation: those of the command line. *)
Example ex_prepare_eval : exists a e, a_inst a = Some true /\ a_scale a = Some 1%Q /\ eval_params City false a = Ok e /\ e_kill e = Some false /\ e_dist e = (35 # 10000)%Q.
Proof. exists (mkAttrs (Some 1%Q) (Some true) (Some false) (Some (35 # 10000)%Q) (Some false) (Some true) (Some true)). eexists. repeat split. Qed.
