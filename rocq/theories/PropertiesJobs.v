(** C64: converting data sets with several processes. *)
From Verif Require Import SpecSamples SpecJobs ProofsJobs ProofsJobs2 ProofsResults ProofsImage ProofsPaths ProofsText ProofsConvert ProofsLabels PropertiesResults PropertiesUtils PropertiesSamples PropertiesConvert PropertiesPrepare PropertiesSBD PropertiesSBD2.
From Coq Require Import Lia ZifyBool ZifyNat.
Open Scope Z_scope.
Open Scope list_scope.

(** *** Theorem 1: jobs that keep to their files do, under every schedule, what they do alone.  The parent
    gets the first exception in the order of the jobs; at every moment (so also if the run is killed) a file
    is as before or holds something its job writes when it runs alone, and files belonging to no job are
    untouched; the files of the jobs before the first failing one are as those jobs leave them alone. *)
Theorem any_interleaving : forall own nproc sched jobs s o s', orderly own jobs s -> track nproc sched jobs s = (o, s') ->
  (forall r, o = Some r -> r = first_error (map (fun q => fst (finish q s)) jobs)) /\
  (forall p, own p = None -> s' p = s p) /\
  (forall i q p, nth_error jobs i = Some q -> own p = Some i -> s' p = s p \/ exists c, In (p, c) (trace q s) /\ s' p = Some c) /\
  (forall i q p, o <> None -> nth_error jobs i = Some q -> own p = Some i ->
     (forall j qj, (j <= i)%nat -> nth_error jobs j = Some qj -> exists u, fst (finish qj s) = Ok u) -> s' p = snd (finish q s) p).
Proof.
  intros own nproc sched jobs s o s' Ord E. destruct (track_is_interleaving nproc sched jobs s) as (sched' & qs & I1 & C). rewrite E in I1, C. cbn [fst snd] in *.
  assert (G : pool_good own jobs s qs s') by (eapply pool_good_run; [apply pool_good_start; exact Ord|exact I1]).
  split; [intros r ->; eapply collect_first; eassumption|]. split; [apply G|]. split.
  - intros i q p Hi Hp. destruct G as (_ & G & _). destruct (G i q Hi) as (q1 & _ & _ & _ & F & _). apply (F p Hp).
  - intros i q p No Hi Hp H. destruct o as [r|]; [|congruence]. eapply collect_first; eassumption.
Qed.
Print Assumptions any_interleaving.
(** *** Theorem 2: a run that ends without exception leaves the same files as one process would; one that
    raises an exception raises that of one process. *)
Theorem as_one_process : forall own nproc sched jobs s o s', orderly own jobs s -> track nproc sched jobs s = (Some o, s') ->
  fst (in_turn jobs s) = o /\ (forall u, o = Ok u -> forall p, snd (in_turn jobs s) p = s' p).
Proof.
  intros own nproc sched jobs s o s' Ord E.
  destruct (any_interleaving own nproc sched jobs s (Some o) s' Ord E) as (A & B & _ & D).
  assert (E1 : track 1 [] jobs s = (Some (fst (in_turn jobs s)), snd (in_turn jobs s))) by (unfold track; cbn [Z.ltb Z.compare]; destruct (in_turn jobs s); reflexivity).
  destruct (any_interleaving own 1 [] jobs s _ _ Ord E1) as (A1 & B1 & _ & D1). split; [rewrite (A1 _ eq_refl); symmetry; apply A; reflexivity|].
  intros u ->. assert (X := A _ eq_refl).
  assert (AllOk : forall j qj, nth_error jobs j = Some qj -> exists u, fst (finish qj s) = Ok u).
  { clear - X. induction jobs as [|q jobs IH]; intros [|j] qj Hj; try discriminate; cbn [nth_error map first_error] in *.
    - injection Hj as <-. destruct (fst (finish q s)); [eauto|discriminate].
    - destruct (fst (finish q s)); [|discriminate]. eapply IH; eassumption. }
  intros p. destruct (own p) as [i|] eqn:Ep; [|rewrite B1, B by exact Ep; reflexivity].
  destruct (nth_error jobs i) as [q|] eqn:Ei; [|apply nth_error_None in Ei; assert (H := proj2 Ord p i Ep); lia].
  rewrite (D i q p), (D1 i q p); try assumption; try discriminate; [reflexivity| |]; intros j qj _ Hj; eapply AllOk; exact Hj.
Qed.
Print Assumptions as_one_process.
(** *** Theorem 3: whatever has happened, the run can still come to its end. *)
Theorem no_deadlock : forall nproc sched jobs s, exists more, fst (track nproc (sched ++ more) jobs s) <> None.
Proof.
  intros nproc sched jobs s. unfold track. destruct (1 <? nproc).
  - destruct (interleave sched jobs s) as [qs s1] eqn:E. destruct (in_turn_steps qs [] s1 eq_refl ltac:(intros q [])) as (more & qs' & E' & C). exists more. rewrite interleave_app, E.
    cbn [app] in E'. rewrite E'. cbn [fst]. rewrite C. discriminate.
  - exists []. destruct (in_turn jobs s). discriminate.
Qed.
Print Assumptions no_deadlock.

(** ** Cityscapes *)
Lemma flat_single {A B} (f : A -> B) (l : list A) : List.concat (map (fun a => [f a]) l) = map f l.
Proof. induction l as [|a l IH]; [reflexivity|]. cbn [map List.concat app]. rewrite IH. reflexivity. Qed.
Lemma nodup_map {A B} (f : A -> B) l : (forall a b, In a l -> In b l -> f a = f b -> a = b) -> NoDup l -> NoDup (map f l).
Proof.
  intros F. induction 1 as [|a l N ND IH]; [constructor|]. cbn [map]. constructor.
  - intros X. apply in_map_iff in X. destruct X as (b & E & I0). apply N. rewrite (F a b); [exact I0|left; reflexivity|right; exact I0|symmetry; exact E].
  - apply IH. intros x y Ix Iy. apply F; right; assumption.
Qed.
Lemma trainid_not_source a b c : (exists q, c = q ++ lit "lIds.png" \/ c = q ++ lit "eIds.png") -> a ++ b ++ lit "_gtFine_labelTrainIds.png" <> c.
Proof.
  intros (q & [-> | ->]) E; assert (X := f_equal (fun t => firstn 8 (rev t)) E); cbv beta in X; rewrite app_assoc, (rev_app_distr (a ++ b)), (rev_app_distr q) in X; vm_compute in X; discriminate.
Qed.

Section Cityscapes.
Variables (draw : text -> res picture) (root proc ext : text) (inst half : bool) (r : radii) (ptrain pval train val : list text) (s : store).
Hypothesis Hroot : directory root.
Hypothesis Hfine : ~ occurs (lit "gtFine") root.
Hypothesis Hproc : proc <> [].
Hypothesis Hext : ext = lit "png" \/ ext = lit "tif".
Hypothesis Hthin : r_thin r = 1.
Hypothesis Nptrain : NoDup ptrain.
Hypothesis Npval : NoDup pval.
Hypothesis Ntrain : NoDup train.
Hypothesis Nval : NoDup val.
Hypothesis Hptrain : forall n, In n ptrain -> sample_name n /\ exists c, draw (polygon_file root (lit "train") n) = Ok c.
Hypothesis Hpval : forall n, In n pval -> sample_name n /\ exists c, draw (polygon_file root (lit "val") n) = Ok c.
Hypothesis Htrain : forall n, In n train -> sample_name n /\ exists img insts, labelled (complete s) root (lit "train") n inst false img insts.
Hypothesis Hval : forall n, In n val -> sample_name n /\ exists img insts, labelled (complete s) root (lit "val") n inst half img insts.

Definition pic (split : text) (v : variant) (n : text) : picture :=
  match run_job proc inst ext r (complete s) (label_file root split n, v) with Ok (_, p) => p | Err _ => Gray (tab 0 0 (fun _ _ => 0)) end.
Definition drawn (split n : text) : picture := match draw (polygon_file root split n) with Ok c => c | Err _ => Gray (tab 0 0 (fun _ _ => 0)) end.
Definition loops : list (text * variant * list text) :=
  [(lit "train", Train, train); (lit "val", RawV, val); (lit "val", ThinV, val)] ++ (if half then [(lit "val", HalfRaw, val); (lit "val", HalfThin, val)] else []).
Definition edges_of (l : text * variant * list text) : list (text * picture) := let '(split, v, names) := l in map (fun n => (edge_file root proc split n v inst ext, pic split v n)) names.
Definition ids_of (split : text) (names : list text) : list (text * picture) := map (fun n => (trainid_file root proc split n, drawn split n)) names.
Definition all_files : list (text * picture) := ids_of (lit "train") ptrain ++ ids_of (lit "val") pval ++ flat_map edges_of loops.
Definition source (p : text) : Prop := exists split n, p = label_file root split n \/ p = instance_file root split n.

Lemma loop_facts split v names : In (split, v, names) loops -> (split = lit "train" \/ split = lit "val") /\ component split /\ ~ occurs (lit "gtFine") split /\ NoDup names /\
  (forall n, In n names -> sample_name n /\ exists img insts, labelled (complete s) root split n inst (match v with HalfRaw | HalfThin => true | _ => false end) img insts).
Proof.
  destruct val_facts as (Cv & Ov & Ct & Ot). change gtFine with (lit "gtFine") in *. unfold loops. intros I0. apply in_app_or in I0.
  assert (HV : forall h, (h = true -> half = true) -> forall n, In n val -> sample_name n /\ exists img insts, labelled (complete s) root (lit "val") n inst h img insts).
  { intros h Hh n Hn. destruct (Hval n Hn) as (S & img & insts & L). split; [exact S|]. exists img, insts. destruct half, h; try exact L; [apply labelled_less; exact L|discriminate (Hh eq_refl)]. }
  destruct I0 as [[E|[E|[E|[]]]]|I0].
  - injection E as <- <- <-. split; [left; reflexivity|]. split; [exact Ct|]. split; [exact Ot|]. split; [exact Ntrain|exact Htrain].
  - injection E as <- <- <-. split; [right; reflexivity|]. split; [exact Cv|]. split; [exact Ov|]. split; [exact Nval|apply HV; discriminate].
  - injection E as <- <- <-. split; [right; reflexivity|]. split; [exact Cv|]. split; [exact Ov|]. split; [exact Nval|apply HV; discriminate].
  - destruct half eqn:Eh; [|destruct I0]. destruct I0 as [E|[E|[]]]; injection E as <- <- <-; (split; [right; reflexivity|]; split; [exact Cv|]; split; [exact Ov|]; split; [exact Nval|apply HV; reflexivity]).
Qed.
Lemma loops_kinds split v names : In (split, v, names) loops <-> (split = lit "train" /\ v = Train /\ names = train) \/ (split = lit "val" /\ In v (kinds half) /\ names = val).
Proof.
  clear. unfold loops, kinds. rewrite in_app_iff. cbn [In]. destruct half; cbn [In]; split.
  - intros [[E|[E|[E|[]]]]|[E|[E|[]]]]; injection E as <- <- <-; [left|right|right|right|right]; repeat split; tauto.
  - intros [(-> & -> & ->)|(-> & [<-|[<-|[<-|[<-|[]]]]] & ->)]; tauto.
  - intros [[E|[E|[E|[]]]]|[]]; injection E as <- <- <-; [left|right|right]; repeat split; tauto.
  - intros [(-> & -> & ->)|(-> & [<-|[<-|[]]] & ->)]; tauto.
Qed.
Lemma edge_not_source split n v : ~ source (edge_file root proc split n v inst ext).
Proof.
  intros (split' & n' & X). assert (Src : exists q, edge_file root proc split n v inst ext = q ++ lit "Ids.png").
  { destruct X as [-> | ->]; [exists (root ++ lit "/gtFine/" ++ split' ++ lit "/" ++ n' ++ lit "_gtFine_label")|exists (root ++ lit "/gtFine/" ++ split' ++ lit "/" ++ n' ++ lit "_gtFine_instance")]; unfold label_file, instance_file; rewrite <- !app_assoc; reflexivity. }
  destruct Src as (q & Y). apply (edge_file_not_source (root ++ lit "/" ++ proc ++ lit "/" ++ split ++ lit "/") n v inst ext q Hext). rewrite <- Y. unfold edge_file. rewrite <- !app_assoc. reflexivity.
Qed.
Lemma id_not_source split n : ~ source (trainid_file root proc split n).
Proof.
  intros (split' & n' & X). apply (trainid_not_source (root ++ lit "/" ++ proc ++ lit "/" ++ split ++ lit "/") n (trainid_file root proc split n)); [|unfold trainid_file; rewrite <- !app_assoc; reflexivity].
  destruct X as [-> | ->]; [exists (root ++ lit "/gtFine/" ++ split' ++ lit "/" ++ n' ++ lit "_gtFine_labe"); left|exists (root ++ lit "/gtFine/" ++ split' ++ lit "/" ++ n' ++ lit "_gtFine_instanc"); right]; unfold label_file, instance_file; rewrite <- !app_assoc; reflexivity.
Qed.
Lemma id_not_edge split n split' n' v : trainid_file root proc split n <> edge_file root proc split' n' v inst ext.
Proof.
  intros E. apply (edge_file_not_source (root ++ lit "/" ++ proc ++ lit "/" ++ split' ++ lit "/") n' v inst ext (root ++ lit "/" ++ proc ++ lit "/" ++ split ++ lit "/" ++ n ++ lit "_gtFine_labelTrain") Hext).
  unfold edge_file, trainid_file in E. rewrite <- !app_assoc. symmetry. exact E.
Qed.
Lemma id_inj split split' n n' : split = lit "train" \/ split = lit "val" -> split' = lit "train" \/ split' = lit "val" -> trainid_file root proc split n = trainid_file root proc split' n' -> split = split' /\ n = n'.
Proof.
  intros H H' E. unfold trainid_file in E. do 4 apply app_inv_head in E. assert (split = split') as <- by (destruct H as [-> | ->], H' as [-> | ->]; [reflexivity|discriminate E|discriminate E|reflexivity]).
  split; [reflexivity|]. do 2 apply app_inv_head in E. apply app_inv_tail in E. exact E.
Qed.
Lemma pic_ok split v names n : In (split, v, names) loops -> In n names ->
  run_job proc inst ext r (complete s) (label_file root split n, v) = Ok (edge_file root proc split n v inst ext, pic split v n) /\ picture_type ext (pic split v n) /\
  forall img insts, labelled (complete s) root split n inst (match v with HalfRaw | HalfThin => true | _ => false end) img insts -> holds_edges v (variant_radius r v) img insts (pic split v n).
Proof.
  intros L In_. destruct (loop_facts _ _ _ L) as (_ & C & O & _ & H). destruct (H n In_) as (Sn & img & insts & Lb).
  assert (X : forall img insts, labelled (complete s) root split n inst (match v with HalfRaw | HalfThin => true | _ => false end) img insts ->
     run_job proc inst ext r (complete s) (label_file root split n, v) = Ok (edge_file root proc split n v inst ext, pic split v n) /\ holds_edges v (variant_radius r v) img insts (pic split v n)).
  { intros img' insts' Lb'. destruct (run_job_ok root proc split n v inst ext r (complete s) img' insts' Hroot Hfine C O Sn Hext Hthin Lb') as (p & E & Hp). unfold pic. rewrite E. auto. }
  destruct (X img insts Lb) as [E _]. split; [exact E|]. split; [eapply run_job_type; [exact Hext|exact E]|]. intros img' insts' Lb'. apply (X img' insts' Lb').
Qed.
Lemma all_files_cases t p : In (t, p) all_files <-> (exists split n, (split = lit "train" /\ In n ptrain \/ split = lit "val" /\ In n pval) /\ t = trainid_file root proc split n /\ p = drawn split n) \/
  (exists split v names n, In (split, v, names) loops /\ In n names /\ t = edge_file root proc split n v inst ext /\ p = pic split v n).
Proof.
  unfold all_files, ids_of. rewrite !in_app_iff, !in_map_iff, in_flat_map. split.
  - intros [(n & E & I0)|[(n & E & I0)|([[split v] names] & L & I0)]].
    + injection E as <- <-. left. exists (lit "train"), n. auto.
    + injection E as <- <-. left. exists (lit "val"), n. auto.
    + right. unfold edges_of in I0. apply in_map_iff in I0. destruct I0 as (n & E & I0). injection E as <- <-. exists split, v, names, n. auto.
  - intros [(split & n & [(-> & I0)|(-> & I0)] & -> & ->)|(split & v & names & n & L & I0 & -> & ->)].
    + left. exists n. auto.
    + right. left. exists n. auto.
    + right. right. exists (split, v, names). split; [exact L|]. unfold edges_of. apply in_map_iff. exists n. auto.
Qed.
Lemma conversion_writes nproc scheds o s' :
  convert_cityscapes_mp draw nproc scheds proc root true inst ext half r (map (polygon_file root (lit "train")) ptrain ++ map (polygon_file root (lit "val")) pval)
    (map (fun n => n ++ lit "_gtFine_labelIds.png") train) (map (fun n => n ++ lit "_gtFine_labelIds.png") val) s = (o, s') -> writes_only all_files s o s'.
Proof.
  destruct val_facts as (Cv & Ov & Ct & Ot). change gtFine with (lit "gtFine") in *.
  unfold convert_cityscapes_mp. replace (nonempty proc) with true by (destruct proc; [congruence|reflexivity]). cbn [negb].
  replace (text_eqb ext (lit "png") || text_eqb ext (lit "bin") || text_eqb ext (lit "tif")) with true by (destruct Hext as [-> | ->]; reflexivity). cbn [negb]. intros E.
  set (ws := (map (fun w => [w]) (ids_of (lit "train") ptrain) ++ map (fun w => [w]) (ids_of (lit "val") pval)) :: map (fun l => map (fun w => [w]) (edges_of l)) loops).
  assert (Ew : List.concat (List.concat ws) = all_files).
  { unfold ws, all_files. cbn [List.concat]. rewrite concat_app, concat_app.
    assert (Id : forall l : list (text * picture), List.concat (map (fun w => [w]) l) = l) by (intros l; rewrite (flat_single (fun w : text * picture => w)); apply map_id).
    rewrite !Id, <- app_assoc. do 2 f_equal. clear - Id. induction loops as [|l ll IH]; [reflexivity|]. cbn [map List.concat flat_map]. rewrite concat_app, Id, IH. reflexivity. }
  rewrite <- Ew. apply (stages_write nproc scheds source s (map (json_prog draw proc) (map (polygon_file root (lit "train")) ptrain ++ map (polygon_file root (lit "val")) pval) :: edge_stages proc root inst ext half r
     (map (fun n => n ++ lit "_gtFine_labelIds.png") train) (map (fun n => n ++ lit "_gtFine_labelIds.png") val)) ws s (fun p _ => eq_refl)); [| | | |exact E].
  - unfold ws. constructor.
    + rewrite map_app. apply Forall2_app.
      * unfold ids_of. rewrite !map_map. clear - Hptrain Hroot Hfine Ct Ot. induction ptrain as [|n l IH]; [constructor|]. cbn [map]. constructor; [|apply IH; intros x Hx; apply Hptrain; right; exact Hx].
        destruct (Hptrain n (or_introl eq_refl)) as (Sn & c & Ec). unfold drawn. rewrite Ec. unfold trainid_file. rewrite <- (train_id_file_name root proc (lit "train") n) by assumption. apply json_does. exact Ec.
      * unfold ids_of. rewrite !map_map. clear - Hpval Hroot Hfine Cv Ov. induction pval as [|n l IH]; [constructor|]. cbn [map]. constructor; [|apply IH; intros x Hx; apply Hpval; right; exact Hx].
        destruct (Hpval n (or_introl eq_refl)) as (Sn & c & Ec). unfold drawn. rewrite Ec. unfold trainid_file. rewrite <- (train_id_file_name root proc (lit "val") n) by assumption. apply json_does. exact Ec.
    + replace (edge_stages proc root inst ext half r (map (fun n => n ++ lit "_gtFine_labelIds.png") train) (map (fun n => n ++ lit "_gtFine_labelIds.png") val)) with
        (map (fun l : text * variant * list text => let '(split, v, names) := l in map (fun n => convert_prog (path_join (path_join (path_join root (lit "gtFine")) split) (n ++ label_suffix)) inst proc label_suffix inst_suffix (variant_suffix v inst ext)
             (variant_radius r v) (variant_thin v) (variant_scale v) true) names) loops) by (unfold loops, edge_stages; cbv zeta; destruct half; cbn [map app]; rewrite !map_map; reflexivity).
      assert (Sub : incl loops loops) by apply incl_refl. revert Sub. generalize loops at 1 3 4. induction l as [|[[split v] names] l IH]; intros Sub; [constructor|]. cbn [map]. constructor; [|apply IH; intros x Hx; apply Sub; right; exact Hx].
      assert (L := Sub _ (or_introl eq_refl)). destruct (loop_facts _ _ _ L) as (_ & C & O & _ & H). unfold edges_of. rewrite map_map.
      assert (Subn : incl names names) by apply incl_refl. revert Subn. generalize names at 1 3 4. intros l0. induction l0 as [|n l0 IHn]; intros Subn; [constructor|]. cbn [map]. constructor; [|apply IHn; intros x Hx; apply Subn; right; exact Hx].
      assert (In_ := Subn n (or_introl eq_refl)). destruct (H n In_) as (Sn & _). rewrite label_path by assumption. destruct (pic_ok _ _ _ _ L In_) as (Er & _). unfold run_job in Er. cbn [fst snd] in Er.
      apply convert_does; [exact Er|exists split, n; left; reflexivity|]. intros _. rewrite instance_file_name by assumption. exists split, n. right. reflexivity.
  - intros w [<-|Iw].
    + rewrite concat_app, (flat_single (fun w : text * picture => w)), (flat_single (fun w : text * picture => w)), !map_id, map_app. unfold ids_of. rewrite !map_map. cbn [fst].
      apply NoDup_app_intro.
      * apply nodup_map; [|exact Nptrain]. intros a b _ _ X. apply id_inj in X; [apply X|left; reflexivity|left; reflexivity].
      * apply nodup_map; [|exact Npval]. intros a b _ _ X. apply id_inj in X; [apply X|right; reflexivity|right; reflexivity].
      * intros x Ix Iy. apply in_map_iff in Ix. apply in_map_iff in Iy. destruct Ix as (a & <- & _). destruct Iy as (b & X & _). apply id_inj in X; [destruct X as [X _]; discriminate X|right; reflexivity|left; reflexivity].
    + apply in_map_iff in Iw. destruct Iw as ([[split v] names] & <- & L). rewrite (flat_single (fun w : text * picture => w)), map_id. unfold edges_of. rewrite map_map. cbn [fst].
      destruct (loop_facts _ _ _ L) as (Sp & _ & _ & Nn & _). apply nodup_map; [|exact Nn]. intros a b _ _ X. apply edge_file_inj in X; [apply X|exact Sp|exact Sp].
  - intros p Hp X. rewrite Ew in X. apply in_map_iff in X. destruct X as ([t c] & E' & X). cbn [fst] in E'. subst t. apply all_files_cases in X.
    destruct X as [(split & n & _ & -> & _)|(split & v & names & n & _ & _ & -> & _)]; [apply (id_not_source split n Hp)|apply (edge_not_source split n v Hp)].
  - intros t p p' X Y. rewrite Ew in X, Y. apply all_files_cases in X. apply all_files_cases in Y.
    destruct X as [(split & n & C & -> & ->)|(split & v & names & n & C & _ & -> & ->)], Y as [(split' & n' & C' & Et & ->)|(split' & v' & names' & n' & C' & _ & Et & ->)].
    + apply id_inj in Et; [destruct Et as [-> ->]; reflexivity| |]; destruct C as [[-> _]|[-> _]], C' as [[-> _]|[-> _]]; auto.
    + destruct (id_not_edge _ _ _ _ _ Et).
    + symmetry in Et. destruct (id_not_edge _ _ _ _ _ Et).
    + apply edge_file_inj in Et; [destruct Et as (-> & -> & ->); reflexivity|apply (loop_facts _ _ _ C)|apply (loop_facts _ _ _ C')].
Qed.
End Cityscapes.
(** *** Theorem 4: converting Cityscapes with any number of processes, under every schedule and up to any
    moment.  There is no exception; a run that has ended has written every file with the content it is named
    for; if the run is interrupted, each of these files is as before, partly written or finished with that
    content; no other file is ever touched. *)
Theorem parallel_cityscapes_conversion : forall draw nproc scheds root proc ext inst half r ptrain pval train val s o s',
  directory root -> ~ occurs (lit "gtFine") root -> proc <> [] -> ext = lit "png" \/ ext = lit "tif" -> r_thin r = 1 ->
  NoDup ptrain -> NoDup pval -> NoDup train -> NoDup val ->
  (forall n, In n ptrain -> sample_name n /\ exists c, draw (polygon_file root (lit "train") n) = Ok c) ->
  (forall n, In n pval -> sample_name n /\ exists c, draw (polygon_file root (lit "val") n) = Ok c) ->
  (forall n, In n train -> sample_name n /\ exists img insts, labelled (complete s) root (lit "train") n inst false img insts) ->
  (forall n, In n val -> sample_name n /\ exists img insts, labelled (complete s) root (lit "val") n inst half img insts) ->
  convert_cityscapes_mp draw nproc scheds proc root true inst ext half r (map (polygon_file root (lit "train")) ptrain ++ map (polygon_file root (lit "val")) pval)
    (map (fun n => n ++ lit "_gtFine_labelIds.png") train) (map (fun n => n ++ lit "_gtFine_labelIds.png") val) s = (o, s') ->
  (forall e, o <> Some (Err e)) /\
  (* a file [t] of the run, with a content satisfying [ok] *)
  let file t ok := exists p : picture, ok p /\ (s' t = s t \/ s' t = Some Partial \/ s' t = Some (Whole p)) /\ (o <> None -> s' t = Some (Whole p)) in
  (forall n, In n ptrain -> file (trainid_file root proc (lit "train") n) (fun c => draw (polygon_file root (lit "train") n) = Ok c)) /\
  (forall n, In n pval -> file (trainid_file root proc (lit "val") n) (fun c => draw (polygon_file root (lit "val") n) = Ok c)) /\
  (forall n img insts, In n train -> labelled (complete s) root (lit "train") n inst false img insts ->
     file (edge_file root proc (lit "train") n Train inst ext) (fun p => picture_type ext p /\ holds_edges Train (r_train r) img insts p)) /\
  (forall n v img insts, In n val -> In v (kinds half) -> labelled (complete s) root (lit "val") n inst half img insts ->
     file (edge_file root proc (lit "val") n v inst ext) (fun p => picture_type ext p /\ holds_edges v (asked_radius r v) img insts p)) /\
  (forall q, (forall n, In n ptrain -> q <> trainid_file root proc (lit "train") n) -> (forall n, In n pval -> q <> trainid_file root proc (lit "val") n) ->
     (forall n, In n train -> q <> edge_file root proc (lit "train") n Train inst ext) -> (forall n v, In n val -> In v (kinds half) -> q <> edge_file root proc (lit "val") n v inst ext) -> s' q = s q).
Proof.
  intros draw nproc scheds root proc ext inst half r ptrain pval train val s o s' Hr Hf Hp He Ht N1 N2 N3 N4 H1 H2 H3 H4 E.
  destruct (conversion_writes draw root proc ext inst half r ptrain pval train val s Hr Hf Hp He Ht N1 N2 N3 N4 H1 H2 H3 H4 nproc scheds o s' E) as (A & B & C & D).
  set (files := all_files draw root proc ext inst half r ptrain pval train val s) in *.
  assert (K := all_files_cases draw root proc ext inst half r ptrain pval train val s). fold files in K.
  assert (Pk := pic_ok root proc ext inst half r train val s Hr Hf He Ht N3 N4 H3 H4). assert (Lk := loops_kinds half train val).
  assert (F : forall t p (ok : picture -> Prop), In (t, p) files -> ok p -> exists p : picture, ok p /\ (s' t = s t \/ s' t = Some Partial \/ s' t = Some (Whole p)) /\ (o <> None -> s' t = Some (Whole p))).
  { intros t p ok I0 O. exists p. split; [exact O|]. split; [apply C; exact I0|]. intros No. apply D; assumption. }
  split; [intros e ->; discriminate (A _ eq_refl)|]. cbv zeta. split; [|split; [|split; [|split]]].
  - intros n Hn. apply F with (p := drawn draw root (lit "train") n); [apply K; left; exists (lit "train"), n; auto|]. destruct (H1 n Hn) as (_ & c & Ec). unfold drawn. rewrite Ec. reflexivity.
  - intros n Hn. apply F with (p := drawn draw root (lit "val") n); [apply K; left; exists (lit "val"), n; auto|]. destruct (H2 n Hn) as (_ & c & Ec). unfold drawn. rewrite Ec. reflexivity.
  - intros n img insts Hn L. assert (Lp : In (lit "train", Train, train) (loops half train val)) by (apply Lk; auto). destruct (Pk _ _ _ n Lp Hn) as (_ & T & Hh).
    apply F with (p := pic root proc ext inst r s (lit "train") Train n); [apply K; right; exists (lit "train"), Train, train, n; auto|]. split; [exact T|apply Hh; exact L].
  - intros n v img insts Hn Hv L. assert (Lp : In (lit "val", v, val) (loops half train val)) by (apply Lk; auto). destruct (Pk _ _ _ n Lp Hn) as (_ & T & Hh).
    apply F with (p := pic root proc ext inst r s (lit "val") v n); [apply K; right; exists (lit "val"), v, val, n; auto|]. split; [exact T|].
    assert (X : holds_edges v (variant_radius r v) img insts (pic root proc ext inst r s (lit "val") v n)); [|destruct v; exact X].
    apply Hh. clear - Hv L. destruct half; [destruct v; try exact L; apply labelled_less; exact L|]. destruct Hv as [<-|[<-|[]]]; exact L.
  - intros q Q1 Q2 Q3 Q4. apply B. intros X. apply in_map_iff in X. destruct X as ([t p] & Et & X). cbn [fst] in Et. subst t. apply K in X.
    destruct X as [(split & n & [(-> & I0)|(-> & I0)] & X & _)|(split & v & names & n & L & I0 & X & _)].
    + exact (Q1 n I0 X).
    + exact (Q2 n I0 X).
    + apply Lk in L. destruct L as [(-> & -> & ->)|(-> & L & ->)]; [exact (Q3 n I0 X)|exact (Q4 n v I0 L X)].
Qed.
Print Assumptions parallel_cityscapes_conversion.
(** *** Theorem 5: an interrupted conversion leaves the label images as they were, so running it again (with
    any number of processes) starts from the conditions of theorem 4 and ends with every file complete. *)
Theorem conversion_can_be_repeated : forall draw nproc scheds root proc ext inst half r ptrain pval train val s o s',
  directory root -> ~ occurs (lit "gtFine") root -> proc <> [] -> ext = lit "png" \/ ext = lit "tif" -> r_thin r = 1 ->
  NoDup ptrain -> NoDup pval -> NoDup train -> NoDup val ->
  (forall n, In n ptrain -> sample_name n /\ exists c, draw (polygon_file root (lit "train") n) = Ok c) ->
  (forall n, In n pval -> sample_name n /\ exists c, draw (polygon_file root (lit "val") n) = Ok c) ->
  (forall n, In n train -> sample_name n /\ exists img insts, labelled (complete s) root (lit "train") n inst false img insts) ->
  (forall n, In n val -> sample_name n /\ exists img insts, labelled (complete s) root (lit "val") n inst half img insts) ->
  convert_cityscapes_mp draw nproc scheds proc root true inst ext half r (map (polygon_file root (lit "train")) ptrain ++ map (polygon_file root (lit "val")) pval)
    (map (fun n => n ++ lit "_gtFine_labelIds.png") train) (map (fun n => n ++ lit "_gtFine_labelIds.png") val) s = (o, s') ->
  forall split n h img insts, labelled (complete s) root split n inst h img insts -> labelled (complete s') root split n inst h img insts.
Proof.
  intros draw nproc scheds root proc ext inst half r ptrain pval train val s o s' Hr Hf Hp He Ht N1 N2 N3 N4 H1 H2 H3 H4 E split n h img insts (L1 & L2 & L3 & L4 & L5).
  destruct (conversion_writes draw root proc ext inst half r ptrain pval train val s Hr Hf Hp He Ht N1 N2 N3 N4 H1 H2 H3 H4 nproc scheds o s' E) as (_ & B & _ & _).
  assert (Same : forall q, source root q -> complete s' q = complete s q).
  { intros q Sq. unfold complete. rewrite B; [reflexivity|]. intros X. apply in_map_iff in X. destruct X as ([t p] & Et & X). cbn [fst] in Et. subst t. apply all_files_cases in X.
    destruct X as [(sp & m & _ & -> & _)|(sp & v & names & m & _ & _ & -> & _)]; [apply (id_not_source root proc sp m Sq)|apply (edge_not_source root proc ext inst He sp m v Sq)]. }
  split; [rewrite Same; [exact L1|exists split, n; left; reflexivity]|]. split; [exact L2|]. split; [exact L3|]. split; [exact L4|]. destruct insts as [i|]; [|exact L5]. destruct L5 as [L5 L6]. split; [exact L5|].
  rewrite Same; [exact L6|exists split, n; right; reflexivity].
Qed.
Print Assumptions conversion_can_be_repeated.

(** ** SBD *)
Lemma splits_step nproc scheds dirs d root out c splits s : get_samples c <> [] -> sbd_splits_mp nproc scheds dirs d root out (Some c :: splits) s =
  match stages nproc (scheds (List.length splits)) [map (fun n => files_prog (sbd_routine dirs d root out (n, false))) (get_samples c); map (fun n => files_prog (sbd_routine dirs d root out (n, true))) (get_samples c)] s with
  | (Some (Ok _), s) => sbd_splits_mp nproc scheds dirs d root out splits s
  | r => r
  end.
Proof. cbn [sbd_splits_mp]. destruct (get_samples c); [congruence|reflexivity]. Qed.
(** *** Theorem 6: converting the two SBD splits. *)
Theorem parallel_sbd_conversion : forall nproc scheds dirs d root out train val s o s',
  directory root -> directory out -> relative out -> sbd_dirs dirs root out ->
  get_samples train <> [] -> get_samples val <> [] -> NoDup (get_samples train) -> NoDup (get_samples val) ->
  (forall n, In n (get_samples train ++ get_samples val) -> relative n /\ n <> [] /\ exists m i, annotated d root n m i) ->
  sbd_splits_mp nproc scheds dirs d root out [Some train; Some val] s = (o, s') ->
  (forall e, o <> Some (Err e)) /\
  (forall n m i sfx, In n (get_samples train ++ get_samples val) -> annotated d root n m i -> In sfx sbd_suffixes ->
     let t := sbd_file root out n sfx in
     exists p, sbd_content m i sfx p /\ (s' t = s t \/ s' t = Some Partial \/ s' t = Some (Whole p)) /\ (o <> None -> s' t = Some (Whole p))) /\
  (forall q, (forall n sfx, In n (get_samples train ++ get_samples val) -> In sfx sbd_suffixes -> q <> sbd_file root out n sfx) -> s' q = s q).
Proof.
  intros nproc scheds dirs d root out train val s o s' Hr Ho Hor Hd T V NT NV H E.
  set (w := written dirs d root out) in *. set (loop := fun (thin : bool) (names : list text) => map (fun n => w (n, thin)) names).
  set (all := List.concat (loop false (get_samples train)) ++ List.concat (loop true (get_samples train)) ++ List.concat (loop false (get_samples val)) ++ List.concat (loop true (get_samples val))).
  assert (WI := written_in dirs d root out Hr Ho Hor Hd). assert (WS := written_spec dirs d root out Hr Ho Hor Hd). assert (WE := written_ex dirs d root out Hr Ho Hor Hd). fold w in WI, WS, WE.
  assert (Inl : forall thin names t p, incl names (get_samples train ++ get_samples val) -> In (t, p) (List.concat (loop thin names)) ->
     exists n m i sfx, In n names /\ annotated d root n m i /\ In sfx (job_suffixes thin) /\ In (t, p) (w (n, thin)) /\ t = sbd_file root out n sfx /\ sbd_content m i sfx p).
  { intros thin names t p Sub I0. apply in_concat in I0. destruct I0 as (l & Il & It). apply in_map_iff in Il. destruct Il as (n & <- & In_). destruct (H n (Sub n In_)) as (R & Nn & m & i & A).
    destruct (WI n thin m i t p R Nn A It) as (sfx & Hs & Et & Cp). exists n, m, i, sfx. auto 10. }
  assert (SubT : incl (get_samples train) (get_samples train ++ get_samples val)) by (intros x Hx; apply in_or_app; left; exact Hx).
  assert (SubV : incl (get_samples val) (get_samples train ++ get_samples val)) by (intros x Hx; apply in_or_app; right; exact Hx).
  assert (Ina : forall t p, In (t, p) all <-> exists thin names, incl names (get_samples train ++ get_samples val) /\ (names = get_samples train \/ names = get_samples val) /\ In (t, p) (List.concat (loop thin names))).
  { intros t p. unfold all. rewrite !in_app_iff. split.
    - intros [X|[X|[X|X]]]; [exists false, (get_samples train)|exists true, (get_samples train)|exists false, (get_samples val)|exists true, (get_samples val)]; auto.
    - intros ([|] & names & _ & [-> | ->] & X); auto. }
  assert (Wn : forall n thin, In n (get_samples train ++ get_samples val) -> NoDup (map fst (w (n, thin)))).
  { intros n thin Hn. destruct (H n Hn) as (R & Nn & m & i & A). destruct (WS n thin m i R Nn A) as (_ & pics & Ep & F2). rewrite Ep.
    replace (map fst (combine (map (sbd_file root out n) (job_suffixes thin)) pics)) with (map (sbd_file root out n) (job_suffixes thin)).
    2:{ clear - F2. induction F2 as [|x y a b _ _ IH]; [reflexivity|]. cbn [map combine fst]. f_equal. exact IH. }
    apply nodup_map; [|apply job_suffix_nodup]. intros a b _ _ X. unfold sbd_file in X. do 5 apply app_inv_head in X. exact X. }
  assert (Fun : forall t p p', In (t, p) all -> In (t, p') all -> p = p').
  { intros t p p' X Y. apply Ina in X. apply Ina in Y. destruct X as (th & ns & Sub & _ & X). destruct Y as (th' & ns' & Sub' & _ & Y).
    destruct (Inl _ _ _ _ Sub X) as (n & m & i & sf & I1 & A1 & J1 & W1 & Et & _). destruct (Inl _ _ _ _ Sub' Y) as (n' & m' & i' & sf' & I1' & A1' & J1' & W1' & Et' & _).
    assert (Z : n = n' /\ sf = sf').
    { apply (file_inj root out); [eapply job_suffix_in; exact J1|eapply job_suffix_in; exact J1'|congruence]. }
    destruct Z as [<- <-]. assert (th' = th) by (eapply job_suffix_of; eassumption). subst th'.
    assert (Nd := Wn n th (Sub n I1)). clear - Nd W1 W1'. induction (w (n, th)) as [|[a b] l IH]; [destruct W1|]. cbn [map fst] in Nd. inversion Nd as [|? ? M1 M2]; subst.
    destruct W1 as [E1|W1], W1' as [E2|W2]; [congruence| | |apply IH; assumption]; exfalso; apply M1.
    - injection E1 as -> ->. apply in_map_iff. exists (t, p'). auto.
    - injection E2 as -> ->. apply in_map_iff. exists (t, p). auto. }
  assert (Nl : forall thin names, incl names (get_samples train ++ get_samples val) -> NoDup names -> NoDup (map fst (List.concat (loop thin names)))).
  { intros thin names Sub ND. induction ND as [|n names Nn ND IH]; [constructor|]. cbn [loop map List.concat]. rewrite map_app. apply NoDup_app_intro; [apply Wn, Sub; left; reflexivity|apply IH; intros x Hx; apply Sub; right; exact Hx|].
    intros q X Y. apply in_map_iff in X. destruct X as ([q1 p1] & E1 & X). apply in_map_iff in Y. destruct Y as ([q2 p2] & E2 & Y). cbn [fst] in *. subst q1 q2.
    destruct (H n (Sub n (or_introl eq_refl))) as (R & Nz & m & i & A). destruct (WI n thin m i q p1 R Nz A X) as (sf & J & Et & _).
    destruct (Inl thin names q p2 ltac:(intros x Hx; apply Sub; right; exact Hx) Y) as (n' & m' & i' & sf' & I1 & _ & J' & _ & Et' & _).
    assert (Z : n = n' /\ sf = sf') by (apply (file_inj root out); [eapply job_suffix_in; exact J|eapply job_suffix_in; exact J'|congruence]). destruct Z as [<- _]. contradiction. }
  assert (Dl : forall thin names, incl names (get_samples train ++ get_samples val) -> Forall2 (does (fun _ => False) s) (map (fun n => files_prog (sbd_routine dirs d root out (n, thin))) names) (loop thin names)).
  { intros thin names. induction names as [|n names IH]; intros Sub; [constructor|]. cbn [map loop]. constructor; [|apply IH; intros x Hx; apply Sub; right; exact Hx].
    destruct (H n (Sub n (or_introl eq_refl))) as (R & Nn & m & i & A). destruct (WS n thin m i R Nn A) as (Er & _). rewrite Er. apply files_does. }
  assert (St : forall names sch s1 o1 s2, incl names (get_samples train ++ get_samples val) -> NoDup names -> stages nproc sch [map (fun n => files_prog (sbd_routine dirs d root out (n, false))) names; map (fun n => files_prog (sbd_routine dirs d root out (n, true))) names] s1 = (o1, s2) ->
     names = get_samples train \/ names = get_samples val -> writes_only (List.concat (loop false names) ++ List.concat (loop true names)) s1 o1 s2).
  { intros names sch s1 o1 s2 Sub ND Es Hn.
    assert (Ec : List.concat (List.concat [loop false names; loop true names]) = List.concat (loop false names) ++ List.concat (loop true names)) by (cbn [List.concat]; rewrite app_nil_r, concat_app; reflexivity).
    rewrite <- Ec. eapply (stages_write nproc sch (fun _ => False) s); [intros p []| | | | |exact Es].
    - constructor; [apply Dl; exact Sub|]. constructor; [apply Dl; exact Sub|constructor].
    - intros x [<-|[<-|[]]]; apply Nl; assumption.
    - intros p [].
    - rewrite Ec. intros t p p' X Y. apply (Fun t); apply Ina; rewrite in_app_iff in *; [destruct X as [X|X]|destruct Y as [Y|Y]]; [exists false, names|exists true, names|exists false, names|exists true, names]; auto. }
  assert (W : writes_only all s o s').
  { rewrite splits_step in E by exact T.
    match type of E with context [stages nproc ?sch ?l s] => destruct (stages nproc sch l s) as [o1 s1] eqn:E1 end.
    apply St in E1; [|exact SubT|exact NT|left; reflexivity]. unfold all. rewrite app_assoc.
    assert (Fun' : forall t p p', In (t, p) ((List.concat (loop false (get_samples train)) ++ List.concat (loop true (get_samples train))) ++ List.concat (loop false (get_samples val)) ++ List.concat (loop true (get_samples val))) ->
      In (t, p') ((List.concat (loop false (get_samples train)) ++ List.concat (loop true (get_samples train))) ++ List.concat (loop false (get_samples val)) ++ List.concat (loop true (get_samples val))) -> p = p') by (rewrite <- app_assoc; exact Fun).
    destruct o1 as [[u|e]|]; [|destruct E1 as (A & _); discriminate (A _ eq_refl)|injection E as <- <-; apply writes_stop; assumption].
    eapply writes_then; [exact Fun'|exact E1| |discriminate].
    rewrite splits_step in E by exact V.
    match type of E with context [stages nproc ?sch ?l s1] => destruct (stages nproc sch l s1) as [o2 s2] eqn:E2 end.
    apply St in E2; [|exact SubV|exact NV|right; reflexivity].
    destruct o2 as [[u2|e]|]; [|destruct E2 as (A & _); discriminate (A _ eq_refl)|injection E as <- <-; exact E2].
    injection E as <- <-. assert (u2 = tt) as -> by (destruct u2; reflexivity). exact E2. }
  destruct W as (A & B & C & D). split; [intros e ->; discriminate (A _ eq_refl)|]. split.
  - intros n m i sfx Hn An Hs t. destruct (H n Hn) as (R & Nn & _). destruct (job_suffix_ex sfx Hs) as (thin & Ht). destruct (WE n thin m i sfx R Nn An Ht) as (p & Ip & Cp). fold t in Ip.
    assert (Ia : In (t, p) all).
    { apply Ina. apply in_app_or in Hn. destruct Hn as [Hn|Hn]; [exists thin, (get_samples train)|exists thin, (get_samples val)]; (split; [assumption|]; split; [auto|]; apply in_concat; exists (w (n, thin)); split; [apply in_map_iff; exists n; auto|exact Ip]). }
    exists p. split; [exact Cp|]. split; [apply C; exact Ia|]. intros No. apply D; assumption.
  - intros q Q. apply B. intros X. apply in_map_iff in X. destruct X as ([t p] & Et & X). cbn [fst] in Et. subst t. apply Ina in X. destruct X as (thin & names & Sub & _ & X).
    destruct (Inl _ _ _ _ Sub X) as (n & m & i & sf & I1 & _ & J & _ & Et & _). apply (Q n sf (Sub n I1)); [eapply job_suffix_in; exact J|exact Et].
Qed.
Print Assumptions parallel_sbd_conversion.

(** ** The hypotheses are met *)
(** The disk of PropertiesPrepare.v, all files complete. *)
Definition demo_store : store := fun p => option_map Whole (demo_disk p).
Lemma demo_complete p : complete demo_store p = demo_disk p.
Proof. unfold complete, demo_store. destruct (demo_disk p); reflexivity. Qed.
Definition demo_run nproc scheds := convert_cityscapes_mp (fun _ => Ok (Gray demo_labels)) nproc scheds (lit "gtEval") demo_root true true (lit "png") true (mkRadii 2 2 1)
  (map (polygon_file demo_root (lit "train")) [lit "ulm/u"] ++ map (polygon_file demo_root (lit "val")) [lit "bonn/a"; lit "bonn/b"])
  (map (fun n => n ++ lit "_gtFine_labelIds.png") [lit "ulm/u"]) (map (fun n => n ++ lit "_gtFine_labelIds.png") [lit "bonn/a"; lit "bonn/b"]) demo_store.
(** The conditions of theorem 4 and 5 hold of it, whatever the schedules. *)
Example ex_parallel_conversion : forall nproc scheds o s', demo_run nproc scheds = (o, s') -> (forall e, o <> Some (Err e)) /\ s' (label_file demo_root (lit "val") (lit "bonn/a")) = demo_store (label_file demo_root (lit "val") (lit "bonn/a")).
Proof.
  intros nproc scheds o s' E. destruct ex_prepare as (Hr & Hf & Ht & Hv).
  assert (L : forall split n inst h img insts, labelled demo_disk demo_root split n inst h img insts -> labelled (complete demo_store) demo_root split n inst h img insts).
  { intros split n inst h img insts (A & B & C & D & F). split; [rewrite demo_complete; exact A|]. split; [exact B|]. split; [exact C|]. split; [exact D|]. destruct insts as [i|]; [|exact F]. destruct F as [F G]. split; [exact F|]. rewrite demo_complete. exact G. }
  destruct (parallel_cityscapes_conversion (fun _ => Ok (Gray demo_labels)) nproc scheds demo_root (lit "gtEval") (lit "png") true true (mkRadii 2 2 1) [lit "ulm/u"] [lit "bonn/a"; lit "bonn/b"] [lit "ulm/u"] [lit "bonn/a"; lit "bonn/b"] demo_store o s')
    as (A & _ & _ & _ & _ & B); try assumption.
  - discriminate.
  - left; reflexivity.
  - reflexivity.
  - repeat constructor; intros [].
  - repeat constructor; vm_compute; intuition discriminate.
  - repeat constructor; intros [].
  - repeat constructor; vm_compute; intuition discriminate.
  - intros n Hn. split; [apply (Ht n Hn)|eauto].
  - intros n Hn. split; [apply (Hv n Hn)|eauto].
  - intros n Hn. destruct (Ht n Hn) as (S & img & insts & X). split; [exact S|]. exists img, insts. apply L. exact X.
  - intros n Hn. destruct (Hv n Hn) as (S & img & insts & X). split; [exact S|]. exists img, insts. apply L. exact X.
  - split; [exact A|]. apply B.
    + intros n [<-|[]]; vm_compute; discriminate.
    + intros n [<-|[<-|[]]]; vm_compute; discriminate.
    + intros n [<-|[]]; vm_compute; discriminate.
    + intros n v [<-|[<-|[]]] [<-|[<-|[<-|[<-|[]]]]]; vm_compute; discriminate.
Qed.
(** Two jobs with their own files: interrupted after three steps, one file is finished, the other begun. *)
Definition dot (v : Z) : picture := Gray (tab 1 1 (fun _ _ => v)).
Definition two_jobs : list prog := [files_prog (Ok [(lit "a", dot 1)]); files_prog (Ok [(lit "b", dot 2)])].
Example ex_interrupted : orderly (owner [[lit "a"]; [lit "b"]]) two_jobs (fun _ => None) /\
  exists s', track 2 [1; 0; 1]%nat two_jobs (fun _ => None) = (None, s') /\ s' (lit "a") = Some Partial /\ s' (lit "b") = Some (Whole (dot 2)) /\ s' (lit "c") = None.
Proof.
  split.
  - split; [intros [|[|[|i]]] q E; try discriminate; injection E as <-; cbn; repeat split; reflexivity|]. intros p i E. apply owner_lt in E. exact E.
  - eexists. split; [reflexivity|]. repeat split; reflexivity.
Qed.
(** Without the condition the schedule matters: the second job reads what the first one writes. *)
Example ex_race : exists jobs s, (exists sched s', track 2 sched jobs s = (Some (Ok tt), s')) /\ (exists sched s', track 2 sched jobs s = (Some (Err AssertionError), s')) /\
  (exists sched s', track 2 sched jobs s = (Some (Err ValueError), s')).
Proof.
  exists [files_prog (Ok [(lit "a", dot 1)]); if_exists (lit "a") (read_gray (lit "a") (fun im => files_prog (Ok [(lit "b", Gray im)])))], (fun _ => None).
  split; [exists [0; 0; 1; 1; 1; 1]%nat; eexists; reflexivity|]. split; [exists [1; 0; 0]%nat; eexists; reflexivity|]. exists [0; 1; 1; 0]%nat. eexists. reflexivity.
Qed.
Example ex_parallel_sbd : forall nproc scheds s o s',
  sbd_splits_mp nproc scheds (fun _ => true) ex_mats ex_root (lit "gtEval") [Some (lit "img" ++ [LF]); Some (lit "img" ++ [LF])] s = (o, s') -> o <> None ->
  exists p, sbd_content ex_cls ex_inst (lit "_raw_edge.png") p /\ s' (lit "/data/sbd/gtEval/img_raw_edge.png") = Some (Whole p).
Proof.
  intros nproc scheds s o s' E No. destruct ex_annotated as (A & _ & G).
  assert (Dir : forall t : text, t <> [] -> nth 0 (rev t) "x"%char <> "/"%char -> directory t).
  { intros t Nt X. split; [exact Nt|]. intros d Ed. apply X. rewrite Ed, rev_app_distr. reflexivity. }
  destruct (parallel_sbd_conversion nproc scheds (fun _ => true) ex_mats ex_root (lit "gtEval") (lit "img" ++ [LF]) (lit "img" ++ [LF]) s o s') as (_ & F & _).
  - apply Dir; discriminate.
  - apply Dir; discriminate.
  - discriminate.
  - repeat split.
  - rewrite G. discriminate.
  - rewrite G. discriminate.
  - rewrite G. repeat constructor; intros [].
  - rewrite G. repeat constructor; intros [].
  - rewrite G. intros n [<-|[<-|[]]]; (split; [discriminate|]; split; [discriminate|]; eauto).
  - exact E.
  - destruct (F (lit "img") ex_cls ex_inst (lit "_raw_edge.png")) as (p & C & _ & W); [rewrite G; left; reflexivity|exact A|left; reflexivity|]. exists p. split; [exact C|]. apply W. exact No.
Qed.
