(** Proofs about BSDS runs. *)
From Verif Require Export ProofsSession.
From Verif Require Import ProofsWorkers PropertiesCategory PropertiesPrepare ProofsImage ProofsThin ProofsEval ProofsPaths ProofsText PropertiesMetrics PropertiesEval PropertiesSamples PropertiesResults PropertiesCLI PropertiesFiles.
From Coq Require Import Lia ZifyBool ZifyNat Lqa.
Open Scope Z_scope.
Open Scope list_scope.

Lemma rfind_lt c t : -1 <= rfind c t < Z.of_nat (List.length t) \/ t = [] /\ rfind c t = -1.
Proof.
  induction t as [|a t IH]; [right; split; reflexivity|]. left. cbn [rfind List.length]. destruct (Z.leb_spec 0 (rfind c t)); [|destruct (Ascii.eqb a c); lia]. destruct IH as [IH|[-> E]]; [lia|cbn in *; lia].
Qed.
Lemma splitext_base e b x : ~ In "/"%char e -> splitext e = (b, x) -> x <> [] -> exists c, In c b /\ c <> "."%char.
Proof.
  intros N E Nx. unfold splitext in E. rewrite (rfind_none "/"%char e N) in E.
  destruct ((-1 <? rfind "." e) && _)%bool eqn:B; [|injection E as _ <-; congruence]. apply andb_true_iff in B. destruct B as [B1 B2]. injection E as Eb _.
  apply existsb_exists in B2. destruct B2 as (i & I & Hi). apply in_map_iff in I. destruct I as (k & Ek & Ik). apply in_zseq in Ik.
  assert (Hd : 0 <= i < rfind "." e) by lia. assert (Hl : rfind "." e < Z.of_nat (List.length e)) by (destruct (rfind_lt "."%char e) as [A|[-> A]]; [lia|cbn in *; lia]).
  exists (nth (Z.to_nat i) e "."%char). split; [|intros C; rewrite C in Hi; discriminate]. subst b.
  assert (Nb : nth (Z.to_nat i) (firstn (Z.to_nat (rfind "." e)) e) "."%char = nth (Z.to_nat i) e "."%char).
  { assert (K : (Z.to_nat i < Z.to_nat (rfind "." e))%nat) by lia. revert K. generalize (Z.to_nat i) (Z.to_nat (rfind "." e)). clear. induction e as [|a e IH]; intros [|n] [|k] K; try lia; try reflexivity. cbn. apply IH. lia. }
  rewrite <- Nb. apply nth_In. rewrite firstn_length. lia.
Qed.
Lemma names_of_mats split entries ids : directory split -> mat_ids entries ids -> bsds_names split entries = map (fun i => split ++ lit "/" ++ i) ids.
Proof.
  intros D M. induction M as [|i es ids C X M IH|e es ids C X M IH]; [reflexivity| |].
  - assert (E := bsds_mat_files_are_found split i [] es D C X). cbn [app] in E. rewrite E, IH. reflexivity.
  - unfold bsds_names in *. cbn [flat_map]. rewrite basename_component by apply C. destruct (splitext e) as [b x] eqn:S. destruct (text_eqb (lower_text x) (lit ".mat")) eqn:T; [|exact IH].
    exfalso. apply text_eqb_spec in T. assert (A := PropertiesFiles.splitext_app e). rewrite S in A. cbn [fst snd] in A. assert (F := X b x (eq_sym A) T).
    assert (Nx : x <> []) by (intros ->; discriminate). destruct (splitext_base e b x (proj2 C) S Nx) as (c & Ic & Nc). rewrite Forall_forall in F. exact (Nc (F c Ic)).
Qed.
Lemma mats_in entries ids i : mat_ids entries ids -> In i ids -> component i /\ In (i ++ lit ".mat") entries.
Proof.
  intros M. induction M as [|j es ids C X M IH|e es ids C X M IH]; [intros []| |].
  - intros [<-|I]; [split; [exact C|left; reflexivity]|]. destruct (IH I). split; [assumption|right; assumption].
  - intros I. destruct (IH I). split; [assumption|right; assumption].
Qed.
Lemma thresholds_argument t thr : thresholds_given t thr -> exists c, cli_thresholds t = Parsed c /\ arg_of c = Some thr.
Proof.
  intros [(n & H & ->)|(items & qs & L & F & ->)].
  - exists (TInt n). split; [apply (proj1 (cli_thresholds_parsed t)), H|reflexivity].
  - exists (TList (map Fin qs)). split.
    + apply (proj2 (cli_thresholds_parsed t)). exists items. split; [exact L|]. clear - F. induction F; cbn [map]; constructor; assumption.
    + cbn [arg_of]. assert (E : finite (map Fin qs) = Some qs) by (clear; induction qs as [|q qs IH]; [reflexivity|cbn [map finite]; rewrite IH; reflexivity]). rewrite E. reflexivity.
Qed.
(** The counts of an image are plausible. *)
Lemma bsds_counts_sane lib thin nms md th gts p c : wf p -> Forall (fun gt => wf gt /\ binary gt /\ same_shape p gt) gts ->
  bsds_counts lib thin nms md th gts p c -> sane c /\ shaped (List.length th) c.
Proof.
  intros W Hg (gs & q & Fg & Sq & L1 & L2 & L3 & L4 & H). split; [|split; [exact L1|]; split; [exact L2|]; split; assumption].
  destruct (strengths_shape _ _ _ _ _ _ _ Sq) as [Wq [Q1 Q2]].
  intros i. destruct (Nat.lt_ge_cases i (List.length th)) as [Hi|Hi]; [|rewrite !nth_overflow by lia; lia].
  destruct (nth_error th i) as [t|] eqn:E; [|apply nth_error_None in E; lia]. destruct (H i t E) as (b & Hp & C). destruct (predicted_wf _ _ _ _ Hp) as [Wb [B1 B2]].
  assert (G : Forall (fun g => wf g /\ same_shape b g) gs).
  { clear - Fg Hg B1 B2 Q1 Q2. induction Fg as [|gt g gts gs (Wg & [S1 S2] & _) Fg IH]; [constructor|]. inversion Hg as [|? ? (A & B & [C1 C2]) Hg']; subst. constructor; [|apply IH, Hg']. split; [exact Wg|]. split; congruence. }
  destruct (annotator_counts_are_consistent b gs _ _ _ _ _ Wb G C) as (A1 & _ & A2 & _). split; assumption.
Qed.
Lemma edge_maps gts : Forall wf gts -> Forall2 edge_pixels gts (map nonzero gts).
Proof. induction 1; cbn [map]; constructor; [apply edge_pixels_nonzero; assumption|assumption]. Qed.

Lemma split_component uv : component (bsds_split uv).
Proof. unfold bsds_split. destruct uv; split; [discriminate|vm_compute; intuition discriminate|discriminate|vm_compute; intuition discriminate]. Qed.
Lemma gt_dir root : directory root -> path_join root (lit "groundTruth") = root ++ lit "/groundTruth".
Proof. intros H. rewrite join_directory; [reflexivity|exact H|cbn; discriminate]. Qed.
Lemma dir_exists m p : m_dirs m p <> None -> path_exists m p = true.
Proof. intros H. unfold path_exists. destruct (m_dirs m p); [reflexivity|congruence]. Qed.

Section BSDS.
Variables (lib : libm) (m : machine) (pl : plan) (root pred out : text) (use_val no_split_dir : bool) (o : options) (thr : tharg) (th : list Q) (entries ids : list text).
Hypothesis Hroot : directory root.
Hypothesis Hpred : directory pred.
Hypothesis Hout : directory out.
Hypothesis Hthr : thresholds_given (o_thresholds o) thr.
Hypothesis Eth : check_thresholds thr = Ok th.
Hypothesis Nth : th <> [].
Hypothesis Droot : m_dirs m root <> None.
Hypothesis Dgt : m_dirs m (root ++ lit "/groundTruth") <> None.
Hypothesis Dpred : m_dirs m pred <> None.
Hypothesis Dsplit : m_dirs m (root ++ lit "/groundTruth/" ++ bsds_split use_val) = Some entries.
Hypothesis Hids : mat_ids entries ids.
Hypothesis Nids : ids <> [].
Let split := bsds_split use_val.
Let name i := split ++ lit "/" ++ i.
Let params := mkEP 1 (negb (o_raw o)) (o_nms o) (o_max_dist o) None None None.
(** The script up to the loop over the samples. *)
Lemma script_prefix F P f r : bsds_script F P lib m pl root pred out use_val no_split_dir o f r =
  match bsds_prepare m root pred split no_split_dir (map name ids) (snd (set_eval_params BSDS (mkCall None 1 (negb (o_raw o)) (o_nms o) true (o_max_dist o) false false) fresh)) with
  | Err e => (Err e, f)
  | Ok (data, e) =>
      match then_ (each (by_plan (o_nproc o) pl) (bsds_eval_sample F P lib m thr e) data) (fun metrics => fun r =>
              bind (summarise thr (combine (map (fun s => name_string (fst (fst s))) data) metrics)) (fun c => Ok (Some (c, r)))) r with
      | Err e => (Err e, f)
      | Ok None => (Ok None, f)
      | Ok (Some ((rows, ths, ov), r)) => (Ok (Some (Some ov, r)), save_results out rows ths (Some ov) f)
      end
  end.
Proof.
  destruct (thresholds_argument _ _ Hthr) as (ct & Ec & Ea). unfold bsds_script, cli_bsds. rewrite Ec. cbn [j_ths j_kind j_call j_nproc]. rewrite Ea.
  assert (Es : (if use_val then lit "val" else lit "test") = split) by reflexivity. rewrite Es.
  assert (Ei : bsds_init m root split = Ok (Some (map name ids))).
  { unfold bsds_init. replace (text_eqb split (lit "val") || text_eqb split (lit "test"))%bool with true by (unfold split, bsds_split; destruct use_val; reflexivity).
    assert (Ep : path_join (path_join root (lit "groundTruth")) split = root ++ lit "/groundTruth/" ++ split).
    { rewrite (gt_dir root Hroot). rewrite join_directory; [rewrite <- app_assoc; reflexivity| |apply component_relative, (split_component use_val)].
      change (directory (root ++ lit "/" ++ lit "groundTruth")). apply directory_join, component_directory. split; [discriminate|vm_compute; intuition discriminate]. }
    rewrite Ep. assert (Ds : m_dirs m (root ++ lit "/groundTruth/" ++ split) = Some entries) by exact Dsplit. rewrite Ds. cbn [option_map].
    rewrite (names_of_mats split entries ids (component_directory _ (split_component use_val)) Hids). fold name. unfold set_sample_names. destruct ids as [|i l]; [congruence|]. reflexivity. }
  rewrite Ei. cbn [set_eval_params]. unfold bsds_set at 1. cbn [c_scale]. replace (scale_ok 1) with true by reflexivity. cbn [negb].
  set (a := mkAttrs _ _ _ _ _ _ _).
  replace (snd (bsds_set _ fresh)) with a by reflexivity.
  unfold bsds_evaluate. rewrite (dir_exists m root Droot), (gt_dir root Hroot), (dir_exists m _ Dgt), (dir_exists m pred Dpred). cbn [andb negb].
  replace (save_to out) with (Some out) by (unfold save_to; destruct out as [|c t]; [destruct Hout; congruence|reflexivity]).
  destruct (bsds_prepare m root pred split no_split_dir (map name ids) a) as [[data e]|e]; [|reflexivity].
  match goal with |- context [match ?x with Ok _ => _ | Err _ => _ end] => destruct x as [[[[[rows ths] ov] r']|]|e'] end; reflexivity.
Qed.
Let there i := (path_exists m (bsds_truth root use_val i) && path_exists m (bsds_guess pred use_val no_split_dir i))%bool.
Lemma prepared : bsds_prepare m root pred split no_split_dir (map name ids) (snd (set_eval_params BSDS (mkCall None 1 (negb (o_raw o)) (o_nms o) true (o_max_dist o) false false) fresh)) =
  if forallb there ids then Ok (map (fun i => (name i, bsds_truth root use_val i, bsds_guess pred use_val no_split_dir i)) ids, params) else Err AssertionError.
Proof.
  assert (K : forall l, (forall i, In i l -> In i ids) -> bsds_samples (path_exists m) root pred split no_split_dir (map name l) =
    if forallb there l then Ok (map (fun i => (name i, bsds_truth root use_val i, bsds_guess pred use_val no_split_dir i)) l) else Err AssertionError).
  { intros l Hl. assert (E := bsds_samples_and_their_files (path_exists m) root pred split no_split_dir l Hroot Hpred (split_component use_val)). cbv zeta in E. apply E.
    intros i I. destruct (mats_in entries ids i Hids (Hl i I)) as [[Ni Nsl] _]. split; [apply component_relative; split; assumption|]. split; [exact Ni|].
    intros (a & b & ->). apply Nsl. apply in_or_app. right. apply in_or_app. left. apply in_or_app. right. left. reflexivity. }
  destruct ids as [|i l] eqn:El; [congruence|]. unfold bsds_prepare. cbn [map].
  change [name i] with (map name [i]). rewrite K by (intros j [<-|[]]; left; reflexivity). cbn [forallb]. rewrite andb_true_r.
  change (name i :: map name l) with (map name (i :: l)). destruct (there i) eqn:Ti; cbn [andb bind]; [|reflexivity].
  replace (eval_params BSDS false _) with (Ok params : res eparams) by reflexivity. cbn [bind]. rewrite K by auto. cbn [forallb]. rewrite Ti. cbn [andb]. destruct (forallb there l); reflexivity.
Qed.
(** *** A complete run. *)
Lemma bsds_run_delivers f s : all_finished (List.length ids) (by_plan (o_nproc o) pl) -> (0 < o_max_dist o)%Q ->
  (forall i, In i ids -> exists gts p, bsds_sample m root pred use_val no_split_dir i gts p /\ bsds_usable (o_nms o) gts p) -> raw_values s ->
  session_delivers (fun F P => bsds_script F P lib m pl root pred out use_val no_split_dir o) f s (fun answer f' => exists result,
    answer = Some (snd result) /\
    category_result thr th (map name ids) (fun n c => exists i gts p, n = name i /\ bsds_sample m root pred use_val no_split_dir i gts p /\
       bsds_counts lib (negb (o_raw o)) (o_nms o) (o_max_dist o) th gts p c) result /\
    reports f' out result /\ only_writes (result_files out) f f').
Proof.
  intros Fin Pd Files V. set (per := fun n c => exists i gts p, n = name i /\ bsds_sample m root pred use_val no_split_dir i gts p /\ bsds_usable (o_nms o) gts p /\
       bsds_counts lib (negb (o_raw o)) (o_nms o) (o_max_dist o) th gts p c).
  set (entry := fun i => (name i, bsds_truth root use_val i, bsds_guess pred use_val no_split_dir i)).
  assert (T : forallb there ids = true).
  { apply forallb_forall. intros i I. destruct (Files i I) as (gts & p & [A B] & _). unfold there, path_exists. rewrite A, B. cbn [is_some]. rewrite !orb_true_r. reflexivity. }
  eapply (sdelivers_ext (fun F P f r => match then_ (each (by_plan (o_nproc o) pl) (fun i => bsds_eval_sample F P lib m thr params (entry i)) ids) (fun metrics => fun r =>
      bind (summarise thr (combine (map name_string (map name ids)) metrics)) (fun c => Ok (Some (c, r)))) r with
      | Err e => (Err e, f) | Ok None => (Ok None, f)
      | Ok (Some (c, r)) => (Ok (Some (Some (snd c), r)), (fun c f => save_results out (fst (fst c)) (snd (fst c)) (Some (snd c)) f) c f)
      end)).
  { intros F P. rewrite script_prefix, prepared, T. rewrite map_map. unfold then_. rewrite each_map. rewrite map_map. fold entry. cbn [fst].
    replace (map (fun x => name_string (fst (fst (entry x)))) ids) with (map (fun x => name_string (name x)) ids) by reflexivity.
    match goal with |- match ?x with Ok _ => _ | Err _ => _ end = match ?y with Ok _ => _ | Err _ => _ end => change y with x; destruct x as [[[[[rows ths] ov] r']|]|e'] end; reflexivity. }
  apply (sdelivers_lift (fun F P => then_ (each (by_plan (o_nproc o) pl) (fun i => bsds_eval_sample F P lib m thr params (entry i)) ids) (fun metrics => fun r =>
      bind (summarise thr (combine (map name_string (map name ids)) metrics)) (fun c => Ok (Some (c, r))))) (fun c => Some (snd c)) _ f s (category_result thr th (map name ids) per)).
  - apply (delivers_then (fun F P => each (by_plan (o_nproc o) pl) (fun i => bsds_eval_sample F P lib m thr params (entry i)) ids) _ s (fun cs => Forall2 (fun i c => per (name i) c) ids cs)).
    + apply (each_delivers (by_plan (o_nproc o) pl) (fun F P i => bsds_eval_sample F P lib m thr params (entry i)) (fun i c => per (name i) c) ids s Fin V). intros i s' I V'.
      destruct (Files i I) as (gts & p & [A B] & U). assert (U' := U). destruct U' as (Wp & H1 & H2 & Hn & Hg).
      assert (Wg : Forall wf gts) by (eapply Forall_impl; [|exact Hg]; intros g (X & _); exact X).
      destruct (bsds_evaluation_counts lib gts (map nonzero gts) p (o_max_dist o) thr th (negb (o_raw o)) (o_nms o) s' Eth Wp Hg (edge_maps gts Wg) (or_introl H1) Hn Pd V') as (q & Sq & D).
      eapply delivers_weaken.
      * eapply delivers_ext; [|exact D]. intros F P. unfold bsds_eval_sample, entry. rewrite Eth. unfold open_gray. rewrite A, B. reflexivity.
      * intros c C. exists i, gts, p. split; [reflexivity|]. split; [split; assumption|]. split; [exact U|]. exists (map nonzero gts), q. split; [apply edge_maps, Wg|]. split; [exact Sq|exact C].
    + intros cs s' V' F2.
      assert (F2' : Forall2 per (map name ids) cs) by (clear - F2; induction F2; cbn [map]; constructor; assumption).
      destruct (result_of_counts thr th Eth Nth (map name ids) per cs) as (result & E & R); [destruct ids; [congruence|discriminate]|exact F2'| |].
      { intros n c (i & gts & p & _ & _ & (Wp & _ & _ & _ & Hg) & C). exact (bsds_counts_sane _ _ _ _ _ _ _ _ Wp Hg C). }
      apply (delivers_ext (fun _ _ => ret result)); [intros F P; rewrite E; reflexivity|]. apply delivers_ret; assumption.
  - intros c R. exists c. split; [reflexivity|]. split; [|split; [|apply saved_only, Hout]].
    + destruct R as (cs & F2 & R). exists cs. split; [|exact R]. clear - F2. induction F2 as [|n c l l' (i & gts & p & E & A & _ & C) F2 IH]; constructor; [|exact IH]. exists i, gts, p. auto.
    + destruct c as [[rows trs] ov]. destruct R as (cs & F2 & Sc & En & [Lt _] & _). apply saved_reports; [exact Hout| |].
      * intros ->. cbn in En. destruct ids; [congruence|discriminate].
      * intros ->. cbn in Lt. destruct th; [congruence|discriminate].
Qed.
(** *** A missing file. *)
Lemma bsds_missing F P f s i : In i ids -> (path_exists m (bsds_truth root use_val i) = false \/ path_exists m (bsds_guess pred use_val no_split_dir i) = false) ->
  bsds_script F P lib m pl root pred out use_val no_split_dir o f s = (Err AssertionError, f).
Proof.
  intros I H. rewrite script_prefix, prepared. replace (forallb there ids) with false; [reflexivity|]. symmetry. apply not_true_iff_false. intros C. rewrite forallb_forall in C. specialize (C i I).
  unfold there in C. destruct H as [H|H]; rewrite H in C; [discriminate|rewrite andb_false_r in C; discriminate].
Qed.
End BSDS.
