(** C68, continued: a whole conversion of Cityscapes with its directories. *)
From Verif Require Import SpecDirs SpecDirs2 ProofsText ProofsResults ProofsPaths ProofsJobs ProofsDirs ProofsConvert PropertiesCompare PropertiesPrepare PropertiesJobs PropertiesJobs2 ProofsDirs2 PropertiesDirs.
From Coq Require Import Lia ZifyBool ZifyNat.
Open Scope Z_scope.
Open Scope list_scope.

Lemma target_dir root split n sfx proc new : directory root -> ~ occurs gtFine root -> component split -> ~ occurs gtFine split -> sample_name n -> ~ In slash sfx -> ~ In slash new ->
  let d := str_replace (dirname (root ++ lit "/gtFine/" ++ split ++ lit "/" ++ n ++ sfx)) gtFine proc in
  let f := root ++ lit "/" ++ proc ++ lit "/" ++ split ++ lit "/" ++ n ++ new in
  d <> lit "." /\ dirname f = d /\ above d f /\ directory f.
Proof.
  intros Hr Or Hs Os Hn Hx Hw d f. destruct (parts root split n sfx Hr Hs Hn Hx) as (sub & base & Cs & Cn & Sub & Ob & Ed & _). cbv zeta in Ed. unfold d. rewrite Ed.
  assert (Orest : ~ occurs gtFine (split ++ match sub with [] => [] | _ => slash :: sub end)).
  { destruct Sub as [[-> _]|(Ns & _ & _ & _ & O)]; [rewrite app_nil_r; exact Os|]. destruct sub as [|c s] eqn:E; [congruence|]. apply occurs_slash; [apply gtFine_component|exact Os|exact O]. }
  rewrite replace_gtFine by assumption.
  assert (Dd : directory (root ++ lit "/" ++ proc ++ lit "/" ++ split ++ match sub with [] => [] | _ => slash :: sub end)).
  { replace (root ++ lit "/" ++ proc ++ lit "/" ++ split ++ match sub with [] => [] | _ => slash :: sub end) with ((root ++ slash :: proc) ++ slash :: (split ++ match sub with [] => [] | _ => slash :: sub end)) by (rewrite <- app_assoc; reflexivity).
    apply directory_join. destruct Sub as [[-> _]|(Ns & _ & Dsub & _)]; [rewrite app_nil_r; apply component_directory, Hs|]. destruct sub as [|c s]; [congruence|]. apply directory_join, Dsub. }
  assert (Ef : f = (root ++ lit "/" ++ proc ++ lit "/" ++ split ++ match sub with [] => [] | _ => slash :: sub end) ++ slash :: (base ++ new)).
  { unfold f. destruct Sub as [[-> ->]|(Ns & -> & _)]; [rewrite app_nil_r, <- !app_assoc; reflexivity|]. destruct sub as [|c s]; [congruence|]. flat_eq. }
  assert (Nb : ~ In slash (base ++ new)) by (intros X; apply in_app_or in X; tauto).
  split; [|split; [|split]].
  - intros E. apply (f_equal (@List.length _)) in E. rewrite !app_length in E. cbn [List.length lit list_ascii_of_string] in E. destruct Hr as (Nr & _). destruct root; [congruence|cbn [List.length] in E; lia].
  - rewrite Ef. apply dirname_dir; assumption.
  - split; [exact Dd|]. exists (base ++ new). exact Ef.
  - rewrite Ef. apply directory_join, component_directory. split; [destruct base; [congruence|discriminate]|exact Nb].
Qed.
Lemma convert_puts (W : text -> Prop) f inst proc ls is es radius thin scale seal : W (edge_target f proc ls es) -> puts W (convert_prog f inst proc ls is es radius thin scale seal).
Proof.
  intros N. unfold convert_prog. cbv zeta. destruct (thin && negb (radius =? 1)); [exact I|]. unfold if_exists at 1. cbn [puts]. intros [c|]; [|exact I].
  destruct (negb (known_format _)); [exact I|]. unfold read_gray at 1. cbn [puts]. intros [[[img|im]|]|]; try exact I.
  assert (G : forall inst, puts W match bind (convert_scaled inst radius thin scale seal img) (store_edges (snd (splitext (edge_target f proc ls es)))) with Err e => Ret (Err e) | Ok p => save_file (edge_target f proc ls es) p (Ret (Ok tt)) end).
  { intros i. destruct (bind _ _); [|exact I]. cbn [save_file puts]. auto. }
  destruct inst; [|apply G]. cbn [if_exists puts]. intros [c1|]; [|exact I]. cbn [read_gray puts]. intros [[[i|im]|]|]; try exact I. apply G.
Qed.
Lemma kind_suffix_plain v inst ext : ext = lit "png" \/ ext = lit "tif" -> ~ In slash (kind_name v inst ++ lit "." ++ ext).
Proof. intros [-> | ->]; destruct v, inst; vm_compute; intuition discriminate. Qed.

(** *** Theorem 4 *)
Theorem cityscapes_conversion_with_directories : forall draw nproc scheds root proc ext inst half r ptrain pval train val t o t',
  let target := city_file root proc ext inst half ptrain pval train val in
  directory root -> ~ occurs (lit "gtFine") root -> directory proc -> relative proc -> ext = lit "png" \/ ext = lit "tif" -> r_thin r = 1 ->
  dir_in t (root ++ lit "/gtFine") = true -> city_room t root proc target ->
  (forall n, In n ptrain -> sample_name n /\ exists c, draw (polygon_file root (lit "train") n) = Ok c) ->
  (forall n, In n pval -> sample_name n /\ exists c, draw (polygon_file root (lit "val") n) = Ok c) ->
  (forall n, In n train \/ In n val -> sample_name n) ->
  convert_cityscapes_tree draw nproc scheds proc root inst ext half r (map (polygon_file root (lit "train")) ptrain ++ map (polygon_file root (lit "val")) pval)
    (map (fun n => n ++ lit "_gtFine_labelIds.png") train) (map (fun n => n ++ lit "_gtFine_labelIds.png") val) t = (o, t') ->
  exists scheds' o' s',
    convert_cityscapes_mp draw nproc scheds' proc root true inst ext half r (map (polygon_file root (lit "train")) ptrain ++ map (polygon_file root (lit "val")) pval)
      (map (fun n => n ++ lit "_gtFine_labelIds.png") train) (map (fun n => n ++ lit "_gtFine_labelIds.png") val) (files t) = (o', s') /\
    o = option_map Done o' /\ (forall p, s' p = files t' p) /\ (forall p, t p = Some Dir -> t' p = Some Dir) /\ (forall f, target f -> t' f <> Some Dir) /\
    (forall p, p <> root ++ lit "/" ++ proc -> ~ above p (root ++ lit "/" ++ proc) -> (forall f, target f -> p <> f /\ ~ above p f) -> t' p = t p).
Proof.
  intros draw nproc scheds root proc ext inst half r ptrain pval train val t o t' target Hr Hf Hp Rp He Ht Hg (Room & Nd & Way) H1 H2 H3 E.
  destruct val_facts as (Cv & Ov & Ct & Ot). change gtFine with (lit "gtFine") in *.
  assert (Hp0 : proc <> []) by apply Hp.
  set (rp := root ++ lit "/" ++ proc) in *.
  assert (Drp : directory rp) by (apply (directory_join root proc); exact Hp).
  assert (Nrp : rp <> lit ".").
  { intros X. apply (f_equal (@List.length _)) in X. unfold rp in X. rewrite !app_length in X. cbn [List.length lit list_ascii_of_string] in X. destruct Hr as (Nr & _). destruct root; [congruence|cbn [List.length] in X; lia]. }
  assert (Ej : path_join root proc = rp) by (rewrite join_directory by assumption; reflexivity).
  assert (Eg : path_join root (lit "gtFine") = root ++ lit "/gtFine") by (rewrite join_directory; [reflexivity|exact Hr|discriminate]).
  (* the targets *)
  assert (Jobs : forall f, target f -> exists split n new, component split /\ ~ occurs (lit "gtFine") split /\ sample_name n /\ ~ In slash new /\ f = root ++ lit "/" ++ proc ++ lit "/" ++ split ++ lit "/" ++ n ++ new).
  { intros f [(n & Hn & ->)|[(n & Hn & ->)|[(n & Hn & ->)|(n & v & Hn & Hv & ->)]]].
    - exists (lit "train"), n, (lit "_gtFine_labelTrainIds.png"). split; [exact Ct|]. split; [exact Ot|]. split; [apply H1, Hn|]. split; [vm_compute; intuition discriminate|reflexivity].
    - exists (lit "val"), n, (lit "_gtFine_labelTrainIds.png"). split; [exact Cv|]. split; [exact Ov|]. split; [apply H2, Hn|]. split; [vm_compute; intuition discriminate|reflexivity].
    - exists (lit "train"), n, (kind_name Train inst ++ lit "." ++ ext). split; [exact Ct|]. split; [exact Ot|]. split; [apply H3; auto|]. split; [apply kind_suffix_plain, He|reflexivity].
    - exists (lit "val"), n, (kind_name v inst ++ lit "." ++ ext). split; [exact Cv|]. split; [exact Ov|]. split; [apply H3; auto|]. split; [apply kind_suffix_plain, He|reflexivity]. }
  assert (Dt : forall f, target f -> directory f /\ f <> lit "." /\ (List.length rp < List.length f)%nat).
  { intros f Tf. destruct (Jobs f Tf) as (split & n & new & C & O & Sn & Nn & ->). destruct (target_dir root split n [] proc new Hr Hf C O Sn (fun x => x) Nn) as (_ & _ & _ & X). split; [exact X|].
    assert (L : (List.length rp < List.length (root ++ lit "/" ++ proc ++ lit "/" ++ split ++ lit "/" ++ n ++ new))%nat) by (unfold rp; rewrite !app_length; cbn [List.length lit list_ascii_of_string]; lia).
    split; [|exact L]. intros Y. rewrite Y in L. cbn [List.length lit list_ascii_of_string] in L. destruct Drp as (N0 & _). destruct rp; [congruence|cbn [List.length] in L; lia]. }
  (* the directory made by the parent *)
  unfold convert_cityscapes_tree in E. replace (nonempty proc) with true in E by (destruct proc; [congruence|reflexivity]). cbn [negb] in E.
  set (T := fun f => f = rp ++ lit "/").
  assert (ND : forall f, T f -> no_dots f) by (intros f ->; unfold rp; rewrite <- !app_assoc; exact Nd).
  set (D := way T). set (F := fun _ : text => False).
  assert (HD := way_plan T ND). fold D in HD. assert (HDF : forall p, D p -> F p -> False) by (intros p _ []). assert (HF : forall p, F p -> top p = false) by (intros p []).
  assert (DD : forall p, D p -> p = rp \/ above p rp) by (intros p (_ & f & -> & A); apply above_slash; [apply A|exact A]).
  assert (R : room D F t) by (split; [intros p Dp; apply Way, DD, Dp|intros p []]).
  assert (Drp' : D rp).
  { split; [destruct (top rp) eqn:T0; [destruct (Nrp (top_not_directory rp T0 Drp))|reflexivity]|]. exists (rp ++ lit "/"). split; [reflexivity|]. split; [exact Drp|]. exists []. reflexivity. }
  assert (En : ensures D F rp (DRet (Done (Ok tt))) (mkdir_call rp) t).
  { unfold mkdir_call. apply mkdir_ensures; try assumption; [right; exact Drp'|]. intros t1 _ Dt1. cbn [ensures]. left. auto. }
  destruct (finish_ensured D F HD HDF HF rp _ _ t R En) as (t1 & E1 & L1 & D1 & F1). rewrite Ej, E1 in E. cbn [dfinish] in E.
  assert (Ex : exists_in t1 (path_join root (lit "gtFine")) = true).
  { rewrite Eg. assert (X := dir_in_later D F t t1 _ L1 Hg). clear - X. unfold exists_in, dir_in in *. apply orb_true_iff in X. destruct X as [-> |X]; [reflexivity|]. destruct (t1 (root ++ lit "/gtFine")); [apply orb_true_r|discriminate]. }
  rewrite Ex in E. cbn [negb] in E. replace (text_eqb ext (lit "png") || text_eqb ext (lit "bin") || text_eqb ext (lit "tif")) with true in E by (destruct He as [-> | ->]; reflexivity). cbn [negb] in E.
  assert (Same : forall p, t1 p = t p \/ t1 p = Some Dir /\ (p = rp \/ above p rp)).
  { intros p. destruct L1 as (_ & _ & L2 & L3). destruct (text_eqb p rp) eqn:Ep; [apply text_eqb_spec in Ep; subst p; destruct (L3 rp Drp'); auto|].
    assert (Dec : D p \/ ~ D p).
    { destruct (top p) eqn:Tp; [right; intros (X & _); congruence|]. destruct (firstn (List.length p) (rp ++ lit "/")) as [|c l] eqn:Ef.
      - right. intros (_ & f & -> & (_ & rest & Ee)). rewrite Ee, firstn_app, firstn_all, Nat.sub_diag in Ef. cbn [firstn] in Ef. rewrite app_nil_r in Ef. subst p. discriminate Tp.
      - destruct (text_eqb (c :: l) p) eqn:E2; [apply text_eqb_spec in E2; subst p|right; intros (_ & f & -> & (_ & rest & Ee)); rewrite Ee, firstn_app, firstn_all, Nat.sub_diag in Ef; cbn [firstn] in Ef; rewrite app_nil_r in Ef; subst p; rewrite text_eqb_refl in E2; discriminate].
        destruct (skipn (List.length (c :: l)) (rp ++ lit "/")) as [|c' rest] eqn:Es.
        + right. intros (_ & f & -> & (_ & rest & Ee)). rewrite Ee, skipn_app, skipn_all, Nat.sub_diag in Es. discriminate Es.
        + destruct (Ascii.eqb c' "/") eqn:Ec.
          * apply Ascii.eqb_eq in Ec. subst c'. destruct (Ascii.eqb (last (c :: l) "a"%char) "/") eqn:El.
            -- right. intros (_ & f & -> & ((_ & X) & _)). apply (X (removelast (c :: l))). apply Ascii.eqb_eq in El. rewrite <- El. apply app_removelast_last. discriminate.
            -- left. split; [exact Tp|]. exists (rp ++ lit "/"). split; [reflexivity|]. split; [split; [discriminate|]; intros a Ea; rewrite Ea, last_last in El; discriminate|]. exists rest. rewrite <- Ef, <- Es. symmetry. apply firstn_skipn.
          * right. intros (_ & f & -> & (_ & rest' & Ee)). rewrite Ee, skipn_app, skipn_all, Nat.sub_diag in Es. cbn [app skipn] in Es. injection Es as <- _. discriminate Ec. }
    destruct Dec as [Dp|Np]; [destruct (L3 p Dp) as [X|X]; [auto|]; right; split; [exact X|apply DD, Dp]|left; apply L2; [exact Np|intros []]]. }
  (* the stages *)
  set (jdir := fun f => str_replace (dirname f) (lit "gtFine") proc).
  set (conv := fun split v n => convert_prog (label_file root split n) inst proc label_suffix inst_suffix (variant_suffix v inst ext) (variant_radius r v) (variant_thin v) (variant_scale v) true).
  set (L := map (fun f => (jdir f, json_prog draw proc f)) (map (polygon_file root (lit "train")) ptrain ++ map (polygon_file root (lit "val")) pval) ::
     map (fun l : text * variant * list text => let '(split, v, names) := l in map (fun n => (jdir (label_file root split n), conv split v n)) names) (loops half train val)).
  assert (Nl : forall split v names, In (split, v, names) (loops half train val) -> component split /\ ~ occurs (lit "gtFine") split /\ forall n, In n names -> sample_name n /\ target (edge_file root proc split n v inst ext)).
  { intros split v names Hl. apply loops_kinds in Hl. destruct Hl as [(-> & -> & ->)|(-> & Hv & ->)].
    - split; [exact Ct|]. split; [exact Ot|]. intros n Hn. split; [apply H3; auto|]. right. right. left. exists n. auto.
    - split; [exact Cv|]. split; [exact Ov|]. intros n Hn. split; [apply H3; auto|]. right. right. right. exists n, v. auto. }
  assert (EL1 : map (map (fun j : text * prog => in_directory (fst j) (snd j))) L = map (json_job draw proc) (map (polygon_file root (lit "train")) ptrain ++ map (polygon_file root (lit "val")) pval) :: edge_dstages proc root inst ext half r (map (fun n => n ++ lit "_gtFine_labelIds.png") train) (map (fun n => n ++ lit "_gtFine_labelIds.png") val)).
  { unfold L. cbn [map]. f_equal; [rewrite map_map; reflexivity|].
    replace (edge_dstages proc root inst ext half r (map (fun n => n ++ lit "_gtFine_labelIds.png") train) (map (fun n => n ++ lit "_gtFine_labelIds.png") val)) with
      (map (fun l : text * variant * list text => let '(split, v, names) := l in map (fun n => convert_job (path_join (path_join (path_join root (lit "gtFine")) split) (n ++ label_suffix)) inst proc label_suffix inst_suffix (variant_suffix v inst ext)
             (variant_radius r v) (variant_thin v) (variant_scale v) true) names) (loops half train val)) by (unfold loops, edge_dstages; cbv zeta; destruct half; cbn [map app]; rewrite !map_map; reflexivity).
    rewrite map_map. apply map_ext_in. intros [[split v] names] Hl. destruct (Nl _ _ _ Hl) as (C & O & Hn). rewrite map_map. apply map_ext_in. intros n In_. destruct (Hn n In_) as (Sn & _). cbn [fst snd].
    rewrite label_path by assumption. unfold convert_job, jdir, conv. replace (variant_thin v && negb (variant_radius r v =? 1)) with false; [reflexivity|]. destruct v; try reflexivity; cbn [variant_thin variant_radius]; rewrite Ht; reflexivity. }
  assert (EL2 : map (map snd) L = map (json_prog draw proc) (map (polygon_file root (lit "train")) ptrain ++ map (polygon_file root (lit "val")) pval) :: edge_stages proc root inst ext half r (map (fun n => n ++ lit "_gtFine_labelIds.png") train) (map (fun n => n ++ lit "_gtFine_labelIds.png") val)).
  { unfold L. cbn [map]. f_equal; [rewrite map_map; reflexivity|].
    replace (edge_stages proc root inst ext half r (map (fun n => n ++ lit "_gtFine_labelIds.png") train) (map (fun n => n ++ lit "_gtFine_labelIds.png") val)) with
        (map (fun l : text * variant * list text => let '(split, v, names) := l in map (fun n => convert_prog (path_join (path_join (path_join root (lit "gtFine")) split) (n ++ label_suffix)) inst proc label_suffix inst_suffix (variant_suffix v inst ext)
             (variant_radius r v) (variant_thin v) (variant_scale v) true) names) (loops half train val)) by (unfold loops, edge_stages; cbv zeta; destruct half; cbn [map app]; rewrite !map_map; reflexivity).
    rewrite map_map. apply map_ext_in. intros [[split v] names] Hl. destruct (Nl _ _ _ Hl) as (C & O & Hn). rewrite map_map. apply map_ext_in. intros n In_. destruct (Hn n In_) as (Sn & _). cbn [fst snd].
    rewrite label_path by assumption. reflexivity. }
  rewrite <- EL1 in E.
  destruct (directories_do_not_matter_from target nproc scheds L t1 (files t) o t' (fun p => eq_sym (F1 p))) as (scheds' & o' & s' & Es & Eo & Ss & Kd & Nk & Fr); [| |exact E|].
  - intros f Tf. destruct (Dt f Tf) as (X1 & X2 & X3). destruct (Room f Tf) as (Y1 & (Y2 & Y3) & Y4). split; [exact X1|]. split; [exact X2|]. split; [exact Y1|]. split; [|exact Y4]. split.
    + destruct (Same f) as [-> |(_ & [-> |(_ & rest & Ee)])]; [exact Y2|lia|]. exfalso. rewrite Ee in X3. rewrite !app_length in X3. cbn [List.length] in X3. lia.
    + intros p A. destruct (Same p) as [-> |(-> & _)]; [apply Y3, A|auto].
  - assert (One : forall f q tgt d, busy q -> (forall W : text -> Prop, W tgt -> puts W q) -> target tgt -> d = jdir f -> d <> lit "." /\ dirname tgt = d /\ above d tgt /\ directory tgt ->
      busy q /\ puts (fun p => target p /\ dirname p = d) q /\ (d = [] \/ d <> lit "." /\ exists f, target f /\ above d f)).
    { intros f q tgt d B P Tt Ed (X1 & X2 & X3 & _). split; [exact B|]. split; [apply P; auto|]. right. split; [exact X1|]. exists tgt. auto. }
    assert (Js : forall split n c, component split -> ~ occurs (lit "gtFine") split -> sample_name n -> draw (polygon_file root split n) = Ok c -> target (trainid_file root proc split n) ->
      let q := json_prog draw proc (polygon_file root split n) in let d := jdir (polygon_file root split n) in busy q /\ puts (fun p => target p /\ dirname p = d) q /\ (d = [] \/ d <> lit "." /\ exists f, target f /\ above d f)).
    { intros split n c C O Sn Ec Tt. cbv zeta. apply (One (polygon_file root split n) _ (trainid_file root proc split n)); [unfold json_prog; rewrite Ec; exact I| |exact Tt|reflexivity|].
      - intros W Hw. unfold json_prog. rewrite Ec. unfold polygon_file. rewrite (train_id_file_name root proc split n) by assumption. cbn [save_file puts]. unfold trainid_file in Hw. auto.
      - unfold jdir, polygon_file, trainid_file. change (lit "gtFine") with gtFine. apply target_dir; try assumption; vm_compute; intuition discriminate. }
    intros js d q [<- |Hjs] Hj.
    + apply in_map_iff in Hj. destruct Hj as (f & Ef & Hf0). injection Ef as <- <-. apply in_app_or in Hf0. destruct Hf0 as [X|X]; apply in_map_iff in X; destruct X as (n & <- & Hn).
      * destruct (H1 n Hn) as (Sn & c & Ec). apply (Js (lit "train") n c); try assumption. left. exists n. auto.
      * destruct (H2 n Hn) as (Sn & c & Ec). apply (Js (lit "val") n c); try assumption. right. left. exists n. auto.
    + apply in_map_iff in Hjs. destruct Hjs as ([[split v] names] & <- & Hl). apply in_map_iff in Hj. destruct Hj as (n & Ef & Hn). injection Ef as <- <-. destruct (Nl _ _ _ Hl) as (C & O & Hn'). destruct (Hn' n Hn) as (Sn & Tt).
      apply (One (label_file root split n) _ (edge_file root proc split n v inst ext)); [| |exact Tt|reflexivity|].
      * unfold conv, convert_prog. cbv zeta. replace (variant_thin v && negb (variant_radius r v =? 1)) with false; [exact I|]. destruct v; try reflexivity; cbn [variant_thin variant_radius]; rewrite Ht; reflexivity.
      * intros W Hw. unfold conv. apply convert_puts. rewrite edge_file_name by assumption. exact Hw.
      * unfold jdir, label_file, edge_file. change (lit "gtFine") with gtFine. apply target_dir; try assumption; [vm_compute; intuition discriminate|apply kind_suffix_plain, He].
  - exists scheds', o', s'. rewrite EL2 in Es. split; [|split; [exact Eo|split; [exact Ss|split; [|split; [exact Nk|]]]]].
    + unfold convert_cityscapes_mp. replace (nonempty proc) with true by (destruct proc; [congruence|reflexivity]). cbn [negb].
      replace (text_eqb ext (lit "png") || text_eqb ext (lit "bin") || text_eqb ext (lit "tif")) with true by (destruct He as [-> | ->]; reflexivity). cbn [negb]. exact Es.
    + intros p Dp. apply Kd. apply (proj1 (proj2 L1)), Dp.
    + intros p N1 N2 N3. rewrite (Fr p N3). destruct (Same p) as [X|(_ & [X|X])]; [exact X|congruence|contradiction].
Qed.
Print Assumptions cityscapes_conversion_with_directories.
(** *** Theorem 5: a Cityscapes conversion that starts without its output directories, under every schedule and up
    to any moment: no exception (neither of the code nor an OSError); every file is as before, partly written or
    complete with the right content, and complete when the run has ended; all other files are untouched, no
    directory is removed, and the only new directories are those above the files. *)
Theorem cityscapes_conversion_makes_directories : forall draw nproc scheds root proc ext inst half r ptrain pval train val t o t',
  let target := city_file root proc ext inst half ptrain pval train val in
  directory root -> ~ occurs (lit "gtFine") root -> directory proc -> relative proc -> ext = lit "png" \/ ext = lit "tif" -> r_thin r = 1 ->
  dir_in t (root ++ lit "/gtFine") = true -> city_room t root proc target ->
  NoDup ptrain -> NoDup pval -> NoDup train -> NoDup val ->
  (forall n, In n ptrain -> sample_name n /\ exists c, draw (polygon_file root (lit "train") n) = Ok c) ->
  (forall n, In n pval -> sample_name n /\ exists c, draw (polygon_file root (lit "val") n) = Ok c) ->
  (forall n, In n train -> sample_name n /\ exists img insts, labelled (complete (files t)) root (lit "train") n inst false img insts) ->
  (forall n, In n val -> sample_name n /\ exists img insts, labelled (complete (files t)) root (lit "val") n inst half img insts) ->
  convert_cityscapes_tree draw nproc scheds proc root inst ext half r (map (polygon_file root (lit "train")) ptrain ++ map (polygon_file root (lit "val")) pval)
    (map (fun n => n ++ lit "_gtFine_labelIds.png") train) (map (fun n => n ++ lit "_gtFine_labelIds.png") val) t = (o, t') ->
  (o = None \/ o = Some (Done (Ok tt))) /\
  let file f ok := exists p : picture, ok p /\ (t' f = t f \/ t' f = Some (File Partial) \/ t' f = Some (File (Whole p))) /\ (o <> None -> t' f = Some (File (Whole p))) in
  (forall n, In n ptrain -> file (trainid_file root proc (lit "train") n) (fun c => draw (polygon_file root (lit "train") n) = Ok c)) /\
  (forall n, In n pval -> file (trainid_file root proc (lit "val") n) (fun c => draw (polygon_file root (lit "val") n) = Ok c)) /\
  (forall n img insts, In n train -> labelled (complete (files t)) root (lit "train") n inst false img insts ->
     file (edge_file root proc (lit "train") n Train inst ext) (fun p => picture_type ext p /\ holds_edges Train (r_train r) img insts p)) /\
  (forall n v img insts, In n val -> In v (kinds half) -> labelled (complete (files t)) root (lit "val") n inst half img insts ->
     file (edge_file root proc (lit "val") n v inst ext) (fun p => picture_type ext p /\ holds_edges v (asked_radius r v) img insts p)) /\
  (forall p, t p = Some Dir -> t' p = Some Dir) /\
  (forall p, p <> root ++ lit "/" ++ proc -> ~ above p (root ++ lit "/" ++ proc) -> (forall f, target f -> p <> f /\ ~ above p f) -> t' p = t p).
Proof.
  intros draw nproc scheds root proc ext inst half r ptrain pval train val t o t' target Hr Hf Hp Rp He Ht Hg Rm N1 N2 N3 N4 H1 H2 H3 H4 E.
  destruct (cityscapes_conversion_with_directories draw nproc scheds root proc ext inst half r ptrain pval train val t o t' Hr Hf Hp Rp He Ht Hg Rm H1 H2 ltac:(intros n [X|X]; [apply H3, X|apply H4, X]) E)
    as (scheds' & o' & s' & Em & -> & Sf & Kd & Nk & Fr).
  destruct (parallel_cityscapes_conversion draw nproc scheds' root proc ext inst half r ptrain pval train val (files t) o' s' Hr Hf (proj1 Hp) He Ht N1 N2 N3 N4 H1 H2 H3 H4 Em) as (A & B1 & B2 & B3 & B4 & _).
  split; [destruct o' as [[[]|e]|]; [right; reflexivity|destruct (A e eq_refl)|left; reflexivity]|]. cbv zeta in *.
  (* from the files of the trees to the trees *)
  assert (Back : forall f (ok : picture -> Prop), target f ->
    (exists p, ok p /\ (s' f = files t f \/ s' f = Some Partial \/ s' f = Some (Whole p)) /\ (o' <> None -> s' f = Some (Whole p))) ->
    exists p, ok p /\ (t' f = t f \/ t' f = Some (File Partial) \/ t' f = Some (File (Whole p))) /\ (option_map Done o' <> None -> t' f = Some (File (Whole p)))).
  { intros f ok Tf (p & Op & C & Fin). rewrite Sf in C, Fin. exists p. split; [exact Op|].
    assert (G : forall c, files t' f = Some c -> t' f = Some (File c)) by (intros c; unfold files; destruct (t' f) as [[|c']|]; [discriminate|intros X; injection X as ->; reflexivity|discriminate]).
    split; [|intros No; apply G, Fin; intros ->; apply No; reflexivity].
    destruct C as [C|[C|C]]; [|right; left; apply G, C|right; right; apply G, C].
    destruct (files t' f) as [c|] eqn:Et.
    - left. rewrite (G c eq_refl). unfold files in C. destruct (t f) as [[|c']|]; [discriminate|injection C as ->; reflexivity|discriminate].
    - (* nothing there, before and after *)
      destruct (proj1 Rm f Tf) as (_ & (Nd & _) & _). assert (Ef : t f = None) by (unfold files in C; destruct (t f) as [[|c']|]; [congruence|discriminate|reflexivity]).
      left. rewrite Ef. destruct (t' f) as [[|c]|] eqn:Et'; [|unfold files in Et; rewrite Et' in Et; discriminate|reflexivity]. exfalso.
      exact (Nk f Tf Et'). }
  split; [intros n Hn; apply Back; [left; exists n; auto|apply B1, Hn]|]. split; [intros n Hn; apply Back; [right; left; exists n; auto|apply B2, Hn]|].
  split; [intros n img insts Hn Lb; apply Back; [right; right; left; exists n; auto|eapply B3; eassumption]|]. split; [intros n v img insts Hn Hv Lb; apply Back; [right; right; right; exists n, v; auto|eapply B4; eassumption]|].
  split; [exact Kd|exact Fr].
Qed.
Print Assumptions cityscapes_conversion_makes_directories.

(** ** Example: the data set of C50 and C64, with its directories; gtEval is not there. *)
Definition demo_tree : tree := fun p =>
  match demo_disk p with
  | Some c => Some (File (Whole c))
  | None => if existsb (text_eqb p) (map lit ["/data"; "/data/cityscapes"; "/data/cityscapes/gtFine"; "/data/cityscapes/gtFine/train"; "/data/cityscapes/gtFine/val"; "/data/cityscapes/gtFine/train/ulm"; "/data/cityscapes/gtFine/val/bonn"]%string)
            then Some Dir else None
  end.
Fixpoint hit (p t : text) : bool := text_eqb (firstn (List.length p) t) p || match t with [] => false | _ :: t => hit p t end.
Lemma occurs_hit p t : occurs p t -> hit p t = true.
Proof.
  intros (a & b & ->). induction a as [|c a IH].
  - cbn [app]. assert (X : text_eqb (firstn (List.length p) (p ++ b)) p = true) by (rewrite firstn_app, firstn_all, Nat.sub_diag; cbn [firstn]; rewrite app_nil_r; apply text_eqb_refl). destruct (p ++ b); cbn [hit]; rewrite X; reflexivity.
  - cbn [app hit]. rewrite IH. apply orb_true_r.
Qed.
Definition all_targets : list text :=
  map (trainid_file demo_root (lit "gtEval") (lit "train")) [lit "ulm/u"] ++ map (trainid_file demo_root (lit "gtEval") (lit "val")) [lit "bonn/a"; lit "bonn/b"] ++
  map (fun n => edge_file demo_root (lit "gtEval") (lit "train") n Train true (lit "png")) [lit "ulm/u"] ++
  flat_map (fun n => map (fun v => edge_file demo_root (lit "gtEval") (lit "val") n v true (lit "png")) (kinds true)) [lit "bonn/a"; lit "bonn/b"].
Definition fine (f : text) : bool :=
  negb (hit (lit "/./") f) && (count_occ Ascii.ascii_dec f "/"%char =? 6)%nat && match demo_tree f with Some Dir => false | _ => true end &&
  forallb (fun k => match demo_tree (firstn k f) with Some (File _) => false | _ => true end) (seq 0 (List.length f)).
Lemma all_fine : forallb fine all_targets = true.
Proof. vm_compute. reflexivity. Qed.
Lemma above_firstn p f : above p f -> exists k, (k < List.length f)%nat /\ p = firstn k f.
Proof. intros (_ & rest & ->). exists (List.length p). rewrite app_length, firstn_app, firstn_all, Nat.sub_diag. cbn [firstn List.length]. rewrite app_nil_r. split; [lia|reflexivity]. Qed.
Lemma demo_room : city_room demo_tree demo_root (lit "gtEval") (city_file demo_root (lit "gtEval") (lit "png") true true [lit "ulm/u"] [lit "bonn/a"; lit "bonn/b"] [lit "ulm/u"] [lit "bonn/a"; lit "bonn/b"]).
Proof.
  assert (T : forall f, city_file demo_root (lit "gtEval") (lit "png") true true [lit "ulm/u"] [lit "bonn/a"; lit "bonn/b"] [lit "ulm/u"] [lit "bonn/a"; lit "bonn/b"] f -> fine f = true).
  { intros f Hf. apply (proj1 (forallb_forall fine all_targets) all_fine). unfold all_targets. rewrite !in_app_iff. destruct Hf as [(n & Hn & ->)|[(n & Hn & ->)|[(n & Hn & ->)|(n & v & Hn & Hv & ->)]]].
    - left. apply in_map, Hn.
    - right. left. apply in_map, Hn.
    - right. right. left. apply (in_map (fun n => edge_file demo_root (lit "gtEval") (lit "train") n Train true (lit "png"))), Hn.
    - right. right. right. apply in_flat_map. exists n. split; [exact Hn|]. apply (in_map (fun v => edge_file demo_root (lit "gtEval") (lit "val") n v true (lit "png"))), Hv. }
  assert (U : forall f, fine f = true -> no_dots f /\ free demo_tree f /\ count_occ Ascii.ascii_dec f "/"%char = 6%nat).
  { intros f Hf. unfold fine in Hf. rewrite !andb_true_iff in Hf. destruct Hf as (((A & B) & C) & G). split; [intros O; apply occurs_hit in O; rewrite O in A; discriminate|]. split; [|apply Nat.eqb_eq; exact B]. split; [destruct (demo_tree f) as [[|]|]; [discriminate|discriminate|discriminate]|].
    intros p Ap. destruct (above_firstn p f Ap) as (k & Lk & ->). rewrite forallb_forall in G. specialize (G k). rewrite in_seq in G. specialize (G ltac:(lia)). destruct (demo_tree (firstn k f)) as [[|]|]; [auto|discriminate|auto]. }
  split; [|split].
  - intros f Hf. destruct (U f (T f Hf)) as (A & B & C). split; [exact A|]. split; [exact B|]. intros g Hg (_ & rest & E). destruct (U g (T g Hg)) as (_ & _ & Cg). rewrite E, count_occ_app, Cg in C. cbn [count_occ] in C. destruct (Ascii.ascii_dec "/" "/"); [lia|congruence].
  - intros O. apply occurs_hit in O. vm_compute in O. discriminate.
  - assert (X : forallb (fun k => match demo_tree (firstn k (demo_root ++ lit "/" ++ lit "gtEval")) with Some (File _) => false | _ => true end) (seq 0 (S (List.length (demo_root ++ lit "/" ++ lit "gtEval")))) = true) by (vm_compute; reflexivity).
    rewrite forallb_forall in X. assert (Y : forall k, (k <= List.length (demo_root ++ lit "/" ++ lit "gtEval"))%nat -> demo_tree (firstn k (demo_root ++ lit "/" ++ lit "gtEval")) = None \/ demo_tree (firstn k (demo_root ++ lit "/" ++ lit "gtEval")) = Some Dir).
    { intros k Hk. specialize (X k). rewrite in_seq in X. specialize (X ltac:(lia)). destruct (demo_tree (firstn k _)) as [[|]|]; [auto|discriminate|auto]. }
    intros p [-> |A]; [rewrite <- (firstn_all (demo_root ++ lit "/" ++ lit "gtEval")); apply Y; lia|]. destruct (above_firstn _ _ A) as (k & Lk & ->). apply Y. lia.
Qed.
Example ex_conversion_makes_directories : forall nproc scheds o t',
  convert_cityscapes_tree (fun _ => Ok (Gray demo_labels)) nproc scheds (lit "gtEval") demo_root true (lit "png") true (mkRadii 2 2 1)
    (map (polygon_file demo_root (lit "train")) [lit "ulm/u"] ++ map (polygon_file demo_root (lit "val")) [lit "bonn/a"; lit "bonn/b"])
    (map (fun n => n ++ lit "_gtFine_labelIds.png") [lit "ulm/u"]) (map (fun n => n ++ lit "_gtFine_labelIds.png") [lit "bonn/a"; lit "bonn/b"]) demo_tree = (o, t') ->
  (o = None \/ o = Some (Done (Ok tt))) /\ (o <> None -> exists p, t' (lit "/data/cityscapes/gtEval/val/bonn/a_gtProc_thin_isedge.png") = Some (File (Whole p))).
Proof.
  intros nproc scheds o t' E. destruct ex_prepare as (Hr & Hf & Ht & Hv).
  assert (Cd : forall p, complete (files demo_tree) p = demo_disk p).
  { intros p. unfold complete, files, demo_tree. destruct (demo_disk p) as [c|]; [reflexivity|]. destruct (existsb _ _); reflexivity. }
  assert (L : forall split n inst h img insts, labelled demo_disk demo_root split n inst h img insts -> labelled (complete (files demo_tree)) demo_root split n inst h img insts).
  { intros split n inst h img insts (A & B & C & D & F). split; [rewrite Cd; exact A|]. split; [exact B|]. split; [exact C|]. split; [exact D|]. destruct insts as [i|]; [|exact F]. destruct F as [F G]. split; [exact F|]. rewrite Cd. exact G. }
  assert (Dir : forall t : text, t <> [] -> nth 0 (rev t) "x"%char <> "/"%char -> directory t).
  { intros t Nt X. split; [exact Nt|]. intros d Ed. apply X. rewrite Ed, rev_app_distr. reflexivity. }
  destruct (cityscapes_conversion_makes_directories (fun _ => Ok (Gray demo_labels)) nproc scheds demo_root (lit "gtEval") (lit "png") true true (mkRadii 2 2 1) [lit "ulm/u"] [lit "bonn/a"; lit "bonn/b"] [lit "ulm/u"] [lit "bonn/a"; lit "bonn/b"] demo_tree o t')
    as (A & _ & _ & _ & B & _); try assumption.
  - apply Dir; discriminate.
  - discriminate.
  - left; reflexivity.
  - reflexivity.
  - vm_compute. reflexivity.
  - exact demo_room.
  - repeat constructor; intros [].
  - repeat constructor; vm_compute; intuition discriminate.
  - repeat constructor; intros [].
  - repeat constructor; vm_compute; intuition discriminate.
  - intros n Hn. split; [apply (Ht n Hn)|eauto].
  - intros n Hn. split; [apply (Hv n Hn)|eauto].
  - intros n Hn. destruct (Ht n Hn) as (S & img & insts & X). split; [exact S|]. exists img, insts. apply L. exact X.
  - intros n Hn. destruct (Hv n Hn) as (S & img & insts & X). split; [exact S|]. exists img, insts. apply L. exact X.
  - split; [exact A|]. intros No. destruct (Hv (lit "bonn/a") (or_introl eq_refl)) as (_ & img & insts & X).
    destruct (B (lit "bonn/a") ThinV img insts (or_introl eq_refl) ltac:(right; left; reflexivity) (L _ _ _ _ _ _ X)) as (p & _ & _ & Fin). exists p. apply Fin, No.
Qed.
