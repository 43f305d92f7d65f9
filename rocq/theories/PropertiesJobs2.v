(** C64, continued: failures, and the re-annotated images of SBD. *)
From Verif Require Import SpecSamples SpecJobs ProofsJobs ProofsJobs2 ProofsResults ProofsImage ProofsPaths ProofsText ProofsConvert ProofsLabels PropertiesResults PropertiesUtils PropertiesSamples PropertiesConvert PropertiesPrepare PropertiesSBD PropertiesSBD2 PropertiesFiles PropertiesJobs.
From Coq Require Import Lia ZifyBool ZifyNat.
Open Scope Z_scope.
Open Scope list_scope.

(** *** Theorem 7: a conversion job alone, label and instance image not being written at the moment, is the
    conversion of C50: same exception (and no file touched) or the same file. *)
Theorem job_alone : forall f inst proc ls is es radius thin scale seal s, s f <> Some Partial -> s (inst_file f ls is) <> Some Partial ->
  let q := convert_prog f inst proc ls is es radius thin scale seal in
  match convert_label (complete s) f inst proc ls is es radius thin scale seal with
  | Err e => finish q s = (Err e, s) /\ trace q s = []
  | Ok (t, p) => fst (finish q s) = Ok tt /\ trace q s = [(t, Partial); (t, Whole p)] /\ snd (finish q s) t = Some (Whole p) /\ forall r, r <> t -> snd (finish q s) r = s r
  end.
Proof.
  intros f inst proc ls is es radius thin scale seal s Nf Ni. cbv zeta. destruct (convert_label _ _ _ _ _ _ _ _ _ _ _) as [[t p]|e] eqn:E.
  - destruct (convert_does (fun _ => True) s f inst proc ls is es radius thin scale seal t p E I (fun _ => I) s (fun _ _ => eq_refl)) as (_ & F & T). rewrite F, T. cbn [fst snd]. split; [reflexivity|]. split; [reflexivity|].
    split; [apply (saves_in [(t, p)]); [repeat constructor; intros []|left; reflexivity]|]. intros r Hr. apply saves_out. intros [X|[]]. cbn [fst] in X. congruence.
  - unfold convert_label in E. unfold convert_prog. cbv zeta in *. destruct (thin && negb (radius =? 1)); [injection E as <-; split; reflexivity|].
    unfold on_disk, open_gray, complete in E. unfold if_exists, read_gray. cbn [finish trace]. destruct (s f) as [[[img|im]|]|] eqn:Ef; [| |congruence|cbn [negb] in E; injection E as <-; split; reflexivity].
    + cbn [negb bind] in E. destruct (negb (known_format _)); [injection E as <-; split; reflexivity|]. cbn [finish trace]. rewrite Ef. destruct inst.
      * cbn [finish trace]. destruct (s (inst_file f ls is)) as [[[i|im]|]|] eqn:Ei; [| |congruence|cbn [negb bind] in E; injection E as <-; split; reflexivity].
        -- cbn [negb bind finish trace] in *. rewrite Ei. destruct (convert_scaled (Some i) radius thin scale seal img) as [x|]; cbn [bind] in *; [|injection E as <-; split; reflexivity].
           destruct (store_edges _ x); cbn [bind] in *; [discriminate|injection E as <-; split; reflexivity].
        -- cbn [negb bind finish trace] in *. rewrite Ei. injection E as <-. split; reflexivity.
      * cbn [bind] in *. destruct (convert_scaled None radius thin scale seal img) as [x|]; cbn [bind] in *; [|injection E as <-; split; reflexivity].
        destruct (store_edges _ x); cbn [bind] in *; [discriminate|injection E as <-; split; reflexivity].
    + cbn [negb bind] in E. destruct (negb (known_format _)); [injection E as <-; split; reflexivity|]. cbn [finish trace]. rewrite Ef. injection E as <-. split; reflexivity.
Qed.
Print Assumptions job_alone.
(** *** Theorem 8: arguments that are refused; nothing is written. *)
Theorem parallel_conversion_refused : forall draw nproc scheds proc root found inst ext half r polys train val s,
  proc = [] \/ found = false \/ (ext <> lit "png" /\ ext <> lit "tif" /\ ext <> lit "bin") ->
  convert_cityscapes_mp draw nproc scheds proc root found inst ext half r polys train val s = (Some (Err AssertionError), s).
Proof.
  intros draw nproc scheds proc root found inst ext half r polys train val s H. unfold convert_cityscapes_mp. destruct proc as [|c proc]; [reflexivity|]. cbn [nonempty negb]. destruct found; [|reflexivity]. cbn [negb].
  destruct H as [H|[H|(A & B & C)]]; [discriminate|discriminate|]. rewrite !text_eqb_neq by assumption. reflexivity.
Qed.
Print Assumptions parallel_conversion_refused.

(** ** Runs that cannot succeed *)
(** Whatever it reads, the job does not write a file of [src]. *)
Fixpoint avoids (src : text -> Prop) (q : prog) : Prop :=
  match q with
  | Ret _ => True
  | Get p k => forall c, avoids src (k c)
  | Put p c k => ~ src p /\ avoids src k
  end.
(** The files of [src] being as in [s0], the job ends with an exception. *)
Inductive doomed (src : text -> Prop) (s0 : store) : prog -> Prop :=
| doomed_ret e : doomed src s0 (Ret (Err e))
| doomed_get p k : src p -> doomed src s0 (k (s0 p)) -> doomed src s0 (Get p k).
Section Doomed.
Variables (src : text -> Prop) (s0 : store).
Lemma step1_avoids q s : avoids src q -> (forall p, src p -> s p = s0 p) -> avoids src (fst (step1 q s)) /\ (forall p, src p -> snd (step1 q s) p = s0 p).
Proof.
  clear. intros A S. destruct q as [r|p k|p c k]; cbn [step1 fst snd avoids] in *; [auto|auto|]. destruct A as [N A]. split; [exact A|]. intros q Hq. rewrite put_other; [auto|]. intros ->. contradiction.
Qed.
Lemma step1_doomed q s : doomed src s0 q -> (forall p, src p -> s p = s0 p) -> doomed src s0 (fst (step1 q s)).
Proof. clear. intros D S. destruct D as [e|p k Sp D]; cbn [step1 fst]; [constructor|]. rewrite S by exact Sp. exact D. Qed.
Lemma pool_avoids sched : forall qs s, Forall (avoids src) qs -> (forall p, src p -> s p = s0 p) ->
  forall qs' s', interleave sched qs s = (qs', s') -> Forall (avoids src) qs' /\ (forall p, src p -> s' p = s0 p) /\ (Exists (doomed src s0) qs -> Exists (doomed src s0) qs').
Proof.
  clear. induction sched as [|i sched IH]; intros qs s A S qs' s' E; cbn [interleave] in E.
  - injection E as <- <-. auto.
  - assert (X : forall i qs s, Forall (avoids src) qs -> (forall p, src p -> s p = s0 p) -> Forall (avoids src) (fst (step_at i qs s)) /\ (forall p, src p -> snd (step_at i qs s) p = s0 p) /\ (Exists (doomed src s0) qs -> Exists (doomed src s0) (fst (step_at i qs s)))).
    { clear. intros i qs. revert i. induction qs as [|q qs IH]; intros i s A S; cbn [step_at]; [destruct i; auto|]. inversion A as [|? ? A1 A2]; subst. destruct i as [|i]; cbn [step_at].
      - destruct (step1_avoids q s A1 S) as [B1 B2]. assert (Dm := fun D => step1_doomed q s D S). destruct (step1 q s) as [q' s']. cbn [fst snd] in *. split; [constructor; assumption|]. split; [exact B2|].
        intros D. inversion D; subst; [apply Exists_cons_hd; auto|apply Exists_cons_tl; assumption].
      - destruct (IH i s A2 S) as (B1 & B2 & B3). destruct (step_at i qs s) as [qs' s']. cbn [fst snd] in *. split; [constructor; assumption|]. split; [exact B2|].
        intros D. inversion D; subst; [apply Exists_cons_hd; assumption|apply Exists_cons_tl; auto]. }
    destruct (X i qs s A S) as (B1 & B2 & B3). destruct (step_at i qs s) as [q1 s1]. cbn [fst snd] in *. destruct (IH q1 s1 B1 B2 _ _ E) as (C1 & C2 & C3). auto.
Qed.
Lemma collect_doomed qs : Exists (doomed src s0) qs -> forall u, collect qs <> Some (Ok u).
Proof.
  clear. induction 1 as [q qs D|q qs D IH]; intros u; cbn [collect].
  - destruct D; discriminate.
  - destruct q as [[v|e]|p k|p c k]; try discriminate. apply IH.
Qed.
Lemma stages_doomed nproc : forall l scheds s, Forall (Forall (avoids src)) l -> (forall p, src p -> s p = s0 p) ->
  forall o s', stages nproc scheds l s = (o, s') -> (forall p, src p -> s' p = s0 p) /\ (Exists (Exists (doomed src s0)) l -> forall u, o <> Some (Ok u)).
Proof.
  clear. induction l as [|jobs l IH]; intros scheds s A S o s' E; cbn [stages] in E.
  - injection E as <- <-. split; [exact S|]. intros D. inversion D.
  - inversion A as [|? ? A1 A2]; subst. destruct (track_is_interleaving nproc (scheds (List.length l)) jobs s) as (sched & qs & I0 & C).
    destruct (track nproc (scheds (List.length l)) jobs s) as [o1 s1]. cbn [fst snd] in *. destruct (pool_avoids sched jobs s A1 S _ _ I0) as (_ & B2 & B3).
    destruct o1 as [[u|e]|].
    + destruct (IH _ _ A2 B2 _ _ E) as (D1 & D2). split; [exact D1|]. intros D. inversion D as [? ? D0|? ? D0]; subst; [|auto]. destruct (collect_doomed _ (B3 D0) _ C).
    + injection E as <- <-. split; [exact B2|]. discriminate.
    + injection E as <- <-. split; [exact B2|]. discriminate.
Qed.
End Doomed.
Lemma save_avoids (src : text -> Prop) p c k : ~ src p -> avoids src k -> avoids src (save_file p c k).
Proof. intros N A. cbn [save_file avoids]. auto. Qed.
Lemma convert_avoids (src : text -> Prop) f inst proc ls is es radius thin scale seal : ~ src (edge_target f proc ls es) -> avoids src (convert_prog f inst proc ls is es radius thin scale seal).
Proof.
  intros N. unfold convert_prog. cbv zeta. destruct (thin && negb (radius =? 1)); [exact I|]. unfold if_exists at 1. cbn [avoids]. intros [c|]; [|exact I].
  destruct (negb (known_format _)); [exact I|]. unfold read_gray at 1. cbn [avoids]. intros [[[img|im]|]|]; try exact I.
  assert (G : forall inst, avoids src match bind (convert_scaled inst radius thin scale seal img) (store_edges (snd (splitext (edge_target f proc ls es)))) with Err e => Ret (Err e) | Ok p => save_file (edge_target f proc ls es) p (Ret (Ok tt)) end).
  { intros i. destruct (bind _ _); [|exact I]. apply save_avoids; [exact N|exact I]. }
  destruct inst; [|apply G]. cbn [if_exists avoids]. intros [c1|]; [|exact I]. cbn [read_gray avoids]. intros [[[i|im]|]|]; try exact I. apply G.
Qed.
(** A label image that is not there (or is incomplete, or has three channels), or such an instance image. *)
Lemma convert_doomed (src : text -> Prop) s f inst proc ls is es radius thin scale seal : src f -> src (inst_file f ls is) ->
  (forall img, s f <> Some (Whole (Gray img))) \/ (inst = true /\ forall img, s (inst_file f ls is) <> Some (Whole (Gray img))) ->
  doomed src s (convert_prog f inst proc ls is es radius thin scale seal).
Proof.
  intros S1 S2 H. unfold convert_prog. cbv zeta. destruct (thin && negb (radius =? 1)); [constructor|]. constructor; [exact S1|]. destruct (s f) as [c|] eqn:Ef; [|constructor].
  destruct (negb (known_format _)); [constructor|]. constructor; [exact S1|]. rewrite Ef. destruct c as [[img|im]|]; [|constructor|constructor].
  destruct H as [H|[-> H]]; [destruct (H img eq_refl)|]. constructor; [exact S2|]. destruct (s (inst_file f ls is)) as [c|] eqn:Ei; [|constructor]. constructor; [exact S2|]. rewrite Ei.
  destruct c as [[i|im]|]; [destruct (H i eq_refl)|constructor|constructor].
Qed.

(** *** Theorem 9: if a label image (or an instance image that is needed) is missing, incomplete or not of one
    channel, no schedule makes the run succeed; and the images it reads are never changed. *)
Theorem missing_label_stops_conversion : forall draw nproc scheds root proc ext inst half r ptrain pval train val s o s' split n,
  directory root -> ~ occurs (lit "gtFine") root -> ext = lit "png" \/ ext = lit "tif" ->
  (forall n, In n (ptrain ++ pval ++ train ++ val) -> sample_name n) ->
  (split = lit "train" /\ In n train \/ split = lit "val" /\ In n val) ->
  (forall img, s (label_file root split n) <> Some (Whole (Gray img))) \/ (inst = true /\ forall img, s (instance_file root split n) <> Some (Whole (Gray img))) ->
  convert_cityscapes_mp draw nproc scheds proc root true inst ext half r (map (polygon_file root (lit "train")) ptrain ++ map (polygon_file root (lit "val")) pval)
    (map (fun n => n ++ lit "_gtFine_labelIds.png") train) (map (fun n => n ++ lit "_gtFine_labelIds.png") val) s = (o, s') ->
  o <> Some (Ok tt) /\ (forall split n, s' (label_file root split n) = s (label_file root split n) /\ s' (instance_file root split n) = s (instance_file root split n)).
Proof.
  intros draw nproc scheds root proc ext inst half r ptrain pval train val s o s' split n Hr Hf He Names Hn Miss E. set (src := source root).
  assert (Src : forall split n, src (label_file root split n) /\ src (instance_file root split n)) by (intros sp m; split; exists sp, m; [left|right]; reflexivity).
  assert (G : o <> Some (Ok tt) /\ forall p, src p -> s' p = s p).
  2:{ destruct G as [G1 G2]. split; [exact G1|]. intros sp m. split; apply G2, Src. }
  unfold convert_cityscapes_mp in E. destruct (nonempty proc); [|injection E as <- <-; split; [discriminate|reflexivity]]. cbn [negb] in E.
  replace (text_eqb ext (lit "png") || text_eqb ext (lit "bin") || text_eqb ext (lit "tif")) with true in E by (destruct He as [-> | ->]; reflexivity). cbn [negb] in E.
  destruct val_facts as (Cv & Ov & Ct & Ot). change gtFine with (lit "gtFine") in *.
  assert (Tgt : forall sp v m, component sp -> ~ occurs (lit "gtFine") sp -> sample_name m -> avoids src (convert_prog (label_file root sp m) inst proc label_suffix inst_suffix (variant_suffix v inst ext) (variant_radius r v) (variant_thin v) (variant_scale v) true)).
  { intros sp v m C O Sm. apply convert_avoids. rewrite edge_file_name by assumption. apply edge_not_source. exact He. }
  assert (Edges : forall sp v names, component sp -> ~ occurs (lit "gtFine") sp -> (forall m, In m names -> sample_name m) ->
     map (fun rel => convert_prog (path_join (path_join (path_join root (lit "gtFine")) sp) rel) inst proc label_suffix inst_suffix (variant_suffix v inst ext) (variant_radius r v) (variant_thin v) (variant_scale v) true) (map (fun n => n ++ lit "_gtFine_labelIds.png") names) =
     map (fun n => convert_prog (label_file root sp n) inst proc label_suffix inst_suffix (variant_suffix v inst ext) (variant_radius r v) (variant_thin v) (variant_scale v) true) names).
  { intros sp v names C O Ns. rewrite map_map. apply map_ext_in. intros m Hm. f_equal. apply label_path; auto. }
  assert (Av : forall sp v names, component sp -> ~ occurs (lit "gtFine") sp -> (forall m, In m names -> sample_name m) ->
     Forall (avoids src) (map (fun n => convert_prog (label_file root sp n) inst proc label_suffix inst_suffix (variant_suffix v inst ext) (variant_radius r v) (variant_thin v) (variant_scale v) true) names)).
  { intros sp v names C O Ns. apply Forall_forall. intros q Hq. apply in_map_iff in Hq. destruct Hq as (m & <- & Hm). apply Tgt; auto. }
  assert (Nt : forall m, In m train -> sample_name m) by (intros m Hm; apply Names; rewrite !in_app_iff; auto).
  assert (Nv : forall m, In m val -> sample_name m) by (intros m Hm; apply Names; rewrite !in_app_iff; auto).
  unfold edge_stages in E. cbv zeta in E. rewrite !Edges in E by assumption.
  match type of E with stages _ _ (?js :: ?l) _ = _ => assert (A : Forall (Forall (avoids src)) (js :: l)); [|assert (D : Exists (Exists (doomed src s)) (js :: l))] end.
  - constructor.
    + apply Forall_forall. intros q Hq. apply in_map_iff in Hq. destruct Hq as (f & <- & Hq). unfold json_prog. destruct (draw f); [|exact I].
      assert (X : exists sp m, f = polygon_file root sp m /\ component sp /\ ~ occurs (lit "gtFine") sp /\ sample_name m).
      { apply in_app_or in Hq. destruct Hq as [Hq|Hq]; apply in_map_iff in Hq; destruct Hq as (m & <- & Hm); [exists (lit "train"), m|exists (lit "val"), m]; (split; [reflexivity|]; split; [assumption|]; split; [assumption|]; apply Names; rewrite !in_app_iff; auto). }
      destruct X as (sp & m & -> & C & O & Sm). apply save_avoids; [|exact I]. unfold polygon_file. rewrite train_id_file_name by assumption. apply id_not_source.
    + cbn [app]. repeat (constructor; [apply Av; assumption|]). destruct half; repeat (constructor; [apply Av; assumption|]); constructor.
  - assert (Dm : forall sp v m, component sp -> ~ occurs (lit "gtFine") sp -> sample_name m -> (forall img, s (label_file root sp m) <> Some (Whole (Gray img))) \/ (inst = true /\ forall img, s (instance_file root sp m) <> Some (Whole (Gray img))) ->
      doomed src s (convert_prog (label_file root sp m) inst proc label_suffix inst_suffix (variant_suffix v inst ext) (variant_radius r v) (variant_thin v) (variant_scale v) true)).
    { intros sp v m C O Sm M. apply convert_doomed; [apply Src|rewrite instance_file_name by assumption; apply Src|]. rewrite instance_file_name by assumption. exact M. }
    apply Exists_cons_tl. cbn [app]. destruct Hn as [[-> Hn]|[-> Hn]].
    + apply Exists_cons_hd. apply Exists_exists. eexists. split; [apply in_map_iff; exists n; split; [reflexivity|exact Hn]|]. apply Dm; auto.
    + apply Exists_cons_tl, Exists_cons_hd. apply Exists_exists. eexists. split; [apply in_map_iff; exists n; split; [reflexivity|exact Hn]|]. apply Dm; auto.
  - destruct (stages_doomed src s nproc _ scheds s A (fun _ _ => eq_refl) _ _ E) as (G1 & G2). split; [apply G2; exact D|exact G1].
Qed.
Print Assumptions missing_label_stops_conversion.

(** ** SBD *)
Lemma files_avoid (src : text -> Prop) w : (forall l, w = Ok l -> forall p, src p -> ~ In p (map fst l)) -> avoids src (files_prog w).
Proof.
  intros H. destruct w as [l|e]; [|exact I]. cbn [files_prog]. specialize (H l eq_refl). induction l as [|f l IH]; [exact I|]. cbn [fold_right]. apply save_avoids; [intros X; apply (H _ X); left; reflexivity|].
  apply IH. intros p Hp X. apply (H p Hp). right. exact X.
Qed.
(** *** Theorem 10: a sample list that is missing or empty, or an image whose conversion fails, and the run
    does not succeed, whatever the schedule; a first list that is missing or empty stops it at once. *)
Theorem sbd_failures : forall nproc scheds dirs d root out lists s o s', sbd_splits_mp nproc scheds dirs d root out lists s = (o, s') ->
  (In None lists \/ (exists c, In (Some c) lists /\ get_samples c = []) \/
   (exists c n thin e, In (Some c) lists /\ In n (get_samples c) /\ sbd_routine dirs d root out (n, thin) = Err e)) -> o <> Some (Ok tt).
Proof.
  intros nproc scheds dirs d root out lists. induction lists as [|l lists IH]; intros s o s' E H.
  - exfalso. destruct H as [[]|[(c & [] & _)|(c & n & thin & e & [] & _)]].
  - destruct l as [c|]; [|cbn [sbd_splits_mp] in E; injection E as <- _; discriminate].
    destruct (get_samples c) as [|n0 ns] eqn:Ec; [cbn [sbd_splits_mp] in E; rewrite Ec in E; injection E as <- _; discriminate|].
    rewrite splits_step in E by congruence. match type of E with context [stages nproc ?sch ?l s] => set (st := l) in *; destruct (stages nproc sch st s) as [o1 s1] eqn:E1 end.
    assert (Dm := stages_doomed (fun _ => False) s nproc st _ s ltac:(repeat constructor; apply Forall_forall; intros q Hq; apply in_map_iff in Hq; destruct Hq as (m & <- & _); apply files_avoid; intros ? ? ? []) (fun _ _ => eq_refl) _ _ E1).
    destruct Dm as [_ Dm].
    destruct o1 as [[u|e]|]; [|injection E as <- _; discriminate|injection E as <- _; discriminate].
    assert (K : (exists n thin e, In n (get_samples c) /\ sbd_routine dirs d root out (n, thin) = Err e) -> False).
    { intros (n & thin & e & H1 & H2). apply (fun X => Dm X u eq_refl). assert (Q : doomed (fun _ => False) s (files_prog (sbd_routine dirs d root out (n, thin)))) by (rewrite H2; constructor).
      unfold st. destruct thin; [apply Exists_cons_tl, Exists_cons_hd|apply Exists_cons_hd]; apply Exists_exists; (eexists; split; [apply in_map_iff; exists n; split; [reflexivity|exact H1]|exact Q]). }
    apply (IH s1 o s' E). destruct H as [[H|H]|[(c1 & [H|H] & H1)|(c1 & n & thin & e & [H|H] & H1 & H2)]].
    + discriminate.
    + auto.
    + congruence.
    + eauto.
    + exfalso. apply K. assert (c = c1) as <- by congruence. eauto.
    + right; right; eauto 10.
Qed.
Print Assumptions sbd_failures.
Theorem sbd_list_missing : forall nproc scheds dirs d root out lists s,
  sbd_splits_mp nproc scheds dirs d root out (None :: lists) s = (Some (Err FileNotFoundError), s) /\
  forall c, get_samples c = [] -> sbd_splits_mp nproc scheds dirs d root out (Some c :: lists) s = (Some (Err AssertionError), s).
Proof. intros. split; [reflexivity|]. intros c E. cbn [sbd_splits_mp]. rewrite E. reflexivity. Qed.
(** *** Theorem 11: the re-annotated images, any number of processes, every schedule, up to any moment. *)
Theorem parallel_sbd_reanno : forall nproc scheds dirs d root out raw thin_ s o s',
  directory root -> directory out -> relative out -> reanno_dirs dirs root out -> NoDup raw -> NoDup thin_ ->
  (forall n, In n raw -> relative n /\ n <> [] /\ exists m i, reannotated d root false n m i) ->
  (forall n, In n thin_ -> relative n /\ n <> [] /\ exists m i, reannotated d root true n m i) ->
  sbd_reanno_mp nproc scheds dirs d root out raw thin_ s = (o, s') ->
  (o = None \/ exists names, o = Some (Ok names) /\ (Forall one_line raw -> read_split names = raw)) /\
  (forall n (thin inst : bool) m i, In n (if thin then thin_ else raw) -> reannotated d root thin n m i ->
     let t := sbd_file root out n (reanno_suffix thin inst) in
     exists p, reanno_content m i inst p /\ (s' t = s t \/ s' t = Some Partial \/ s' t = Some (Whole p)) /\ (o <> None -> s' t = Some (Whole p))) /\
  (forall q, (forall n (thin inst : bool), In n (if thin then thin_ else raw) -> q <> sbd_file root out n (reanno_suffix thin inst)) -> s' q = s q).
Proof.
  intros nproc scheds dirs d root out raw thin_ s o s' Root Out OutR Dirs NR NT Hr Ht E.
  set (files := sbd_reanno_routine dirs d root out) in *. set (w := fun job : text * bool => match files job with Ok w => w | Err _ => [] end).
  set (names := fun t : bool => if t then thin_ else raw).
  assert (G : forall n t, In n (names t) -> relative n /\ n <> [] /\ exists m i, reannotated d root t n m i) by (intros n [|] I0; [apply Ht|apply Hr]; exact I0).
  assert (W : forall n t m i, In n (names t) -> reannotated d root t n m i -> files (n, t) = Ok (w (n, t)) /\ exists p q, w (n, t) = [(sbd_file root out n (reanno_suffix t false), p); (sbd_file root out n (reanno_suffix t true), q)] /\ reanno_content m i false p /\ reanno_content m i true q).
  { intros n t m i I0 A. destruct (G n t I0) as (R & N & _). destruct (reanno_files dirs d root out Root Out OutR Dirs n t m i R N A) as (p & q & E0 & C1 & C2). unfold w, files. rewrite E0. split; [reflexivity|]. exists p, q. auto. }
  assert (Inj : forall n x n' x', sbd_file root out n x = sbd_file root out n' x' -> n ++ x = n' ++ x').
  { intros n x n' x' E0. unfold sbd_file in E0. apply app_inv_head, app_inv_head, app_inv_head, app_inv_head in E0. exact E0. }
  set (ws := [map (fun n => w (n, false)) raw; map (fun n => w (n, true)) thin_]).
  assert (Inw : forall t p, In (t, p) (List.concat (List.concat ws)) <-> exists n b, In n (names b) /\ In (t, p) (w (n, b))).
  { intros t p. unfold ws. cbn [List.concat]. rewrite app_nil_r, concat_app, in_app_iff, !in_concat. split.
    - intros [(l & Il & It)|(l & Il & It)]; apply in_map_iff in Il; destruct Il as (n & <- & In_); [exists n, false|exists n, true]; auto.
    - intros (n & [|] & In_ & It); [right|left]; (eexists; split; [apply in_map_iff; exists n; split; [reflexivity|exact In_]|exact It]). }
  assert (Fun : forall t p p', In (t, p) (List.concat (List.concat ws)) -> In (t, p') (List.concat (List.concat ws)) -> p = p').
  { intros t p p' X Y. apply Inw in X. apply Inw in Y. destruct X as (n & b & In_ & X). destruct Y as (n' & b' & In' & Y).
    destruct (G n b In_) as (_ & _ & m & i & A). destruct (G n' b' In') as (_ & _ & m' & i' & A').
    destruct (W n b m i In_ A) as (_ & p1 & q1 & E1 & _). destruct (W n' b' m' i' In' A') as (_ & p2 & q2 & E2 & _). assert (X0 := X). rewrite E1 in X. rewrite E2 in Y.
    assert (Key : forall x y, sbd_file root out n (reanno_suffix b x) = sbd_file root out n' (reanno_suffix b' y) -> n = n' /\ b = b' /\ x = y) by (intros x y Z; apply Inj, reanno_suffix_free in Z; exact Z).
    destruct X as [X|[X|[]]], Y as [Y|[Y|[]]]; injection X as X <-; injection Y as Y <-; rewrite <- Y in X; apply Key in X; destruct X as (<- & <- & Z); try discriminate Z; rewrite E1 in E2; congruence. }
  assert (Nd : forall b l, incl l (names b) -> NoDup l -> NoDup (map fst (List.concat (map (fun n => w (n, b)) l)))).
  { intros b l Sub N. induction N as [|n l Nn N IH]; [constructor|]. cbn [map List.concat]. rewrite map_app. destruct (G n b (Sub n (or_introl eq_refl))) as (_ & _ & m & i & A). destruct (W n b m i (Sub n (or_introl eq_refl)) A) as (_ & p & q & E1 & _).
    apply NoDup_app_intro; [|apply IH; intros x Hx; apply Sub; right; exact Hx|].
    - rewrite E1. cbn [map fst]. constructor; [|constructor; [intros []|constructor]]. intros [Z|[]]. apply Inj, reanno_suffix_free in Z. destruct Z as (_ & _ & Z). discriminate.
    - intros t X Y. rewrite E1 in X. apply in_map_iff in Y. destruct Y as ([t' p'] & Et & Y). cbn [fst] in Et. subst t'. apply in_concat in Y. destruct Y as (l' & Il & Y). apply in_map_iff in Il. destruct Il as (n' & <- & In').
      destruct (G n' b (Sub n' (or_intror In'))) as (_ & _ & m' & i' & A'). destruct (W n' b m' i' (Sub n' (or_intror In')) A') as (_ & p2 & q2 & E2 & _). rewrite E2 in Y.
      assert (Z : n = n'); [|subst n'; contradiction]. cbn [map fst In] in X. destruct X as [X|[X|[]]], Y as [Y|[Y|[]]]; injection Y as Y _; rewrite <- Y in X; apply Inj, reanno_suffix_free in X; apply X. }
  assert (Dl : forall b l, incl l (names b) -> Forall2 (does (fun _ => False) s) (map (fun n => files_prog (files (n, b))) l) (map (fun n => w (n, b)) l)).
  { intros b l. induction l as [|n l IH]; intros Sub; [constructor|]. cbn [map]. constructor; [|apply IH; intros x Hx; apply Sub; right; exact Hx].
    destruct (G n b (Sub n (or_introl eq_refl))) as (_ & _ & m & i & A). destruct (W n b m i (Sub n (or_introl eq_refl)) A) as (Er & _). rewrite Er. apply files_does. }
  unfold sbd_reanno_mp in E. destruct (reanno_paths root Root false (lit "x") ltac:(discriminate) ltac:(discriminate)) as (P0 & _). destruct (reanno_paths root Root true (lit "x") ltac:(discriminate) ltac:(discriminate)) as (P1 & _).
  assert (D2 := proj2 Dirs). cbn [reanno_folder] in P0, P1. rewrite P0, P1 in E. rewrite (proj1 (D2 false) : dirs (root ++ lit "/" ++ lit "gt_reanno_raw") = true), (proj1 (D2 true) : dirs (root ++ lit "/" ++ lit "gt_reanno_thin") = true) in E. cbn [negb] in E.
  fold files in E. match type of E with context [stages nproc scheds ?l s] => destruct (stages nproc scheds l s) as [o1 s1] eqn:E1 end.
  assert (Wr : writes_only (List.concat (List.concat ws)) s o1 s1).
  { eapply (stages_write nproc scheds (fun _ => False) s); [intros p []| | | |exact Fun|exact E1].
    - constructor; [apply (Dl false); apply incl_refl|]. constructor; [apply (Dl true); apply incl_refl|constructor].
    - intros x [<-|[<-|[]]]; [apply (Nd false)|apply (Nd true)]; try apply incl_refl; assumption.
    - intros p []. }
  destruct Wr as (A & B & C & D).
  assert (Eo : s1 = s' /\ (o = None <-> o1 = None) /\ (o = None \/ o = Some (Ok (write_lines raw)))).
  { destruct o1 as [[u|e]|]; [|discriminate (A _ eq_refl)|]; injection E as <- <-; (split; [reflexivity|]; split; [split; (discriminate || reflexivity)|auto]). }
  destruct Eo as (-> & En & Eo). split; [|split].
  - destruct Eo as [-> | ->]; [left; reflexivity|right]. exists (write_lines raw). split; [reflexivity|]. apply split_file_round_trip.
  - intros n thin inst m i In_ An t. destruct (W n thin m i In_ An) as (_ & p & q & Ew & Cp & Cq). exists (if inst then q else p).
    assert (Ia : In (t, if inst then q else p) (List.concat (List.concat ws))) by (apply Inw; exists n, thin; split; [exact In_|]; rewrite Ew; unfold t; destruct inst; [right; left|left]; reflexivity).
    split; [destruct inst; assumption|]. split; [apply C; exact Ia|]. intros No. apply D; [tauto|exact Ia].
  - intros q Q. apply B. intros X. apply in_map_iff in X. destruct X as ([t p] & Et & X). cbn [fst] in Et. subst t. apply Inw in X. destruct X as (n & b & In_ & X).
    destruct (G n b In_) as (_ & _ & m & i & An). destruct (W n b m i In_ An) as (_ & p1 & q1 & Ew & _). rewrite Ew in X. destruct X as [X|[X|[]]]; injection X as X _; [apply (Q n b false In_)|apply (Q n b true In_)]; symmetry; exact X.
Qed.
Print Assumptions parallel_sbd_reanno.

(** *** Theorem 12: re-annotated images: a missing directory is refused, a failing image makes success impossible. *)
Theorem reanno_failures : forall nproc scheds dirs d root out raw thin_ s o s', directory root ->
  sbd_reanno_mp nproc scheds dirs d root out raw thin_ s = (o, s') ->
  ((exists thin, dirs (root ++ lit "/" ++ reanno_folder thin) = false) -> o = Some (Err AssertionError) /\ s' = s) /\
  ((exists n (thin : bool) e, In n (if thin then thin_ else raw) /\ sbd_reanno_routine dirs d root out (n, thin) = Err e) -> forall names, o <> Some (Ok names)).
Proof.
  intros nproc scheds dirs d root out raw thin_ s o s' Root E.
  destruct (reanno_paths root Root false (lit "x") ltac:(discriminate) ltac:(discriminate)) as (P0 & _). destruct (reanno_paths root Root true (lit "x") ltac:(discriminate) ltac:(discriminate)) as (P1 & _).
  cbn [reanno_folder] in P0, P1. unfold sbd_reanno_mp in E. rewrite P0, P1 in E. split.
  - intros ([|] & D); cbn [reanno_folder] in D; rewrite D in E; cbn [negb] in E; [|injection E as <- <-; auto].
    match type of E with (if ?b then _ else _) = _ => destruct b end; injection E as <- <-; auto.
  - intros (n & thin & e & In_ & Er) names.
    match type of E with (if ?b then _ else _) = _ => destruct b end; [injection E as <- _; discriminate|].
    match type of E with (if ?b then _ else _) = _ => destruct b end; [injection E as <- _; discriminate|].
    match type of E with context [stages nproc scheds ?l s] => set (st := l) in *; destruct (stages nproc scheds st s) as [o1 s1] eqn:E1 end.
    assert (Dm := stages_doomed (fun _ => False) s nproc st _ s ltac:(repeat constructor; apply Forall_forall; intros q Hq; apply in_map_iff in Hq; destruct Hq as (m & <- & _); apply files_avoid; intros ? ? ? []) (fun _ _ => eq_refl) _ _ E1).
    destruct Dm as [_ Dm]. destruct o1 as [[u|e1]|]; [|injection E as <- _; discriminate|injection E as <- _; discriminate].
    exfalso. apply (fun X => Dm X u eq_refl). assert (Q : doomed (fun _ => False) s (files_prog (sbd_reanno_routine dirs d root out (n, thin)))) by (rewrite Er; constructor).
    unfold st. destruct thin; [apply Exists_cons_tl, Exists_cons_hd|apply Exists_cons_hd]; apply Exists_exists; (eexists; split; [apply in_map_iff; exists n; split; [reflexivity|exact In_]|exact Q]).
Qed.
Print Assumptions reanno_failures.
(** *** Theorem 13: a polygon file that cannot be drawn: the run does not succeed and no edge file is written. *)
Theorem bad_polygons_stop_conversion : forall draw nproc scheds root proc ext inst half r polys train val s o s' f e,
  In f polys -> draw f = Err e ->
  convert_cityscapes_mp draw nproc scheds proc root true inst ext half r polys train val s = (o, s') ->
  o <> Some (Ok tt) /\ forall p, (forall g, In g polys -> p <> trainid_target g proc) -> s' p = s p.
Proof.
  intros draw nproc scheds root proc ext inst half r polys train val s o s' f e If Ef E. unfold convert_cityscapes_mp in E.
  destruct (nonempty proc); [|injection E as <- <-; split; [discriminate|reflexivity]]. cbn [negb] in E.
  match type of E with (if ?b then _ else _) = _ => destruct b end; [injection E as <- <-; split; [discriminate|reflexivity]|].
  cbn [stages] in E. match type of E with context [track nproc ?sch ?l s] => set (jobs := l) in *; destruct (track_is_interleaving nproc sch jobs s) as (sched & qs & I0 & C); destruct (track nproc sch jobs s) as [o1 s1] end.
  cbn [fst snd] in *. set (src := fun p => forall g, In g polys -> p <> trainid_target g proc).
  destruct (pool_avoids src s sched jobs s) with (qs' := qs) (s' := s1) as (_ & B2 & B3); [|reflexivity|exact I0|].
  - apply Forall_forall. intros q Hq. apply in_map_iff in Hq. destruct Hq as (g & <- & Hg). unfold json_prog. destruct (draw g); [|exact I]. apply save_avoids; [|exact I]. intros X. exact (X g Hg eq_refl).
  - assert (D : Exists (doomed src s) jobs).
    { apply Exists_exists. eexists. split; [apply in_map_iff; exists f; split; [reflexivity|exact If]|]. unfold json_prog. rewrite Ef. constructor. }
    destruct o1 as [[u|e1]|]; [destruct (collect_doomed _ _ _ (B3 D) _ C)|injection E as <- <-|injection E as <- <-]; (split; [discriminate|exact B2]).
Qed.
Print Assumptions bad_polygons_stop_conversion.

(** ** The hypotheses are met *)
(** The disk of PropertiesPrepare.v without one label image. *)
Example ex_missing : forall nproc scheds o s',
  convert_cityscapes_mp (fun _ => Ok (Gray demo_labels)) nproc scheds (lit "gtEval") demo_root true false (lit "png") true (mkRadii 2 2 1)
    (map (polygon_file demo_root (lit "train")) [lit "ulm/u"] ++ map (polygon_file demo_root (lit "val")) [lit "bonn/a"; lit "bonn/b"])
    (map (fun n => n ++ lit "_gtFine_labelIds.png") [lit "ulm/u"]) (map (fun n => n ++ lit "_gtFine_labelIds.png") [lit "bonn/a"; lit "bonn/b"])
    (fun p => if text_eqb p (label_file demo_root (lit "val") (lit "bonn/b")) then None else demo_store p) = (o, s') -> o <> Some (Ok tt).
Proof.
  intros nproc scheds o s' E. destruct ex_prepare as (Hr & Hf & Ht & Hv).
  apply (missing_label_stops_conversion _ _ _ demo_root (lit "gtEval") (lit "png") false true (mkRadii 2 2 1) [lit "ulm/u"] [lit "bonn/a"; lit "bonn/b"] [lit "ulm/u"] [lit "bonn/a"; lit "bonn/b"] _ o s' (lit "val") (lit "bonn/b")) in E; [apply E|exact Hr|exact Hf|left; reflexivity| | |].
  - intros n Hn. rewrite !in_app_iff in Hn. destruct Hn as [Hn|[Hn|[Hn|Hn]]]; first [apply (Ht n Hn)|apply (Hv n Hn)].
  - right. split; [reflexivity|]. right. left. reflexivity.
  - left. intros img. rewrite text_eqb_refl. discriminate.
Qed.
Example ex_parallel_reanno : forall nproc scheds s o s',
  sbd_reanno_mp nproc scheds (fun _ => true) ex_mats ex_root (lit "gtEval") [lit "img"] [] s = (o, s') -> o <> None ->
  exists p, reanno_content ex_cls ex_inst true p /\ s' (lit "/data/sbd/gtEval/img_reanno_raw_isedge.png") = Some (Whole p).
Proof.
  intros nproc scheds s o s' E No. destruct ex_annotated as (_ & A & _).
  assert (Dir : forall t : text, t <> [] -> nth 0 (rev t) "x"%char <> "/"%char -> directory t).
  { intros t Nt X. split; [exact Nt|]. intros d Ed. apply X. rewrite Ed, rev_app_distr. reflexivity. }
  destruct (parallel_sbd_reanno nproc scheds (fun _ => true) ex_mats ex_root (lit "gtEval") [lit "img"] [] s o s') as (_ & F & _).
  - apply Dir; discriminate.
  - apply Dir; discriminate.
  - discriminate.
  - split; [reflexivity|]. intros thin. repeat split.
  - repeat constructor; intros [].
  - constructor.
  - intros n [<-|[]]. split; [discriminate|]. split; [discriminate|]. eauto.
  - intros n [].
  - exact E.
  - destruct (F (lit "img") false true ex_cls ex_inst (or_introl eq_refl) A) as (p & C & _ & W). exists p. split; [exact C|]. apply W. exact No.
Qed.
(** A polygon file that cannot be drawn. *)
Example ex_bad_polygons : forall nproc scheds s o s',
  convert_cityscapes_mp (fun f => if text_eqb f (lit "b.json") then Err ValueError else Ok (Gray demo_labels)) nproc scheds (lit "gtEval") demo_root true false (lit "png") true (mkRadii 2 2 1)
    [lit "a.json"; lit "b.json"] [lit "ulm/u_gtFine_labelIds.png"] [] s = (o, s') -> o <> Some (Ok tt).
Proof. intros nproc scheds s o s' E. eapply (bad_polygons_stop_conversion _ _ _ _ _ _ _ _ _ _ _ _ _ _ _ (lit "b.json") ValueError) in E; [apply E|right; left; reflexivity|reflexivity]. Qed.
