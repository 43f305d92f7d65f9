(** C61: a whole BSDS run, from the command line to the result files. *)
From Verif Require Import ProofsWorkers ProofsSession2 ProofsImage ProofsPaths ProofsText PropertiesSamples PropertiesFiles PropertiesResults PropertiesCLI.
From Coq Require Import Permutation Lia ZifyBool ZifyNat.
Open Scope Z_scope.
Open Scope list_scope.

(** *** Theorem 1: a complete run.  With the directories in place, a prediction for every .mat file of the split and usable
    images, the script ends without exception whatever the random generator, the number of processes and their order; its result is that of exactly the .mat files
    of the split (in the order of the listing) with the counts of each image against all its annotators; the three result
    files show that result; no other text file changes. *)
Theorem bsds_run : forall lib m pl root pred out use_val no_split_dir o thr th entries ids f s,
  directory root -> directory pred -> directory out ->
  thresholds_given (o_thresholds o) thr -> check_thresholds thr = Ok th -> th <> [] -> (0 < o_max_dist o)%Q ->
  m_dirs m root <> None -> m_dirs m (root ++ lit "/groundTruth") <> None -> m_dirs m pred <> None ->
  m_dirs m (root ++ lit "/groundTruth/" ++ bsds_split use_val) = Some entries -> mat_ids entries ids -> ids <> [] ->
  (forall i, In i ids -> exists gts p, bsds_sample m root pred use_val no_split_dir i gts p /\ bsds_usable (o_nms o) gts p) ->
  all_finished (List.length ids) (by_plan (o_nproc o) pl) -> raw_values s ->
  let name i := bsds_split use_val ++ lit "/" ++ i in
  session_delivers (fun F P => bsds_script F P lib m pl root pred out use_val no_split_dir o) f s (fun answer f' => exists result,
    answer = Some (snd result) /\
    category_result thr th (map name ids) (fun n c => exists i gts p, n = name i /\ bsds_sample m root pred use_val no_split_dir i gts p /\
       bsds_counts lib (negb (o_raw o)) (o_nms o) (o_max_dist o) th gts p c) result /\
    reports f' out result /\ only_writes (result_files out) f f').
Proof. intros. eapply bsds_run_delivers; eassumption. Qed.
Print Assumptions bsds_run.

(** *** Theorem 2: a ground truth or prediction file that does not exist stops the run before anything is evaluated or written. *)
Theorem bsds_missing_file : forall F P lib m pl root pred out use_val no_split_dir o thr entries ids i f s,
  directory root -> directory pred -> directory out -> thresholds_given (o_thresholds o) thr ->
  m_dirs m root <> None -> m_dirs m (root ++ lit "/groundTruth") <> None -> m_dirs m pred <> None ->
  m_dirs m (root ++ lit "/groundTruth/" ++ bsds_split use_val) = Some entries -> mat_ids entries ids ->
  In i ids -> path_exists m (bsds_truth root use_val i) = false \/ path_exists m (bsds_guess pred use_val no_split_dir i) = false ->
  bsds_script F P lib m pl root pred out use_val no_split_dir o f s = (Err AssertionError, f).
Proof. intros. eapply bsds_missing; try eassumption. intros ->. contradiction. Qed.
Print Assumptions bsds_missing_file.

(** *** Theorem 3: whatever goes wrong, the text files are those before the run. *)
Theorem bsds_failure_writes_nothing : forall F P lib m pl root pred out use_val no_split_dir o f s e f',
  bsds_script F P lib m pl root pred out use_val no_split_dir o f s = (Err e, f') -> f' = f.
Proof.
  intros F P lib m pl root pred out uv ns o f s e f' H. unfold bsds_script in H.
  destruct (cli_bsds o) as [[|j]|]; [injection H as _ <-; reflexivity| |injection H as _ <-; reflexivity].
  destruct (arg_of (j_ths j)) as [thr|]; [|injection H as _ <-; reflexivity].
  destruct (bsds_init m root _) as [names|]; [|injection H as _ <-; reflexivity].
  destruct (set_eval_params _ _ _) as [[u|] a]; [|injection H as _ <-; reflexivity].
  unfold bsds_evaluate in H. destruct (negb _); [injection H as _ <-; reflexivity|]. destruct names as [names|]; [|injection H as _ <-; reflexivity].
  destruct (bsds_prepare _ _ _ _ _ _ _) as [[data ep]|]; [|injection H as _ <-; reflexivity].
  match type of H with context [match ?x with Ok _ => _ | Err _ => _ end] => destruct x as [[[[[rows ths] ov] r']|]|e'] end; [discriminate H|injection H as _ <-; reflexivity|injection H as _ <-; reflexivity].
Qed.
Print Assumptions bsds_failure_writes_nothing.

(** The script with the names it finds in the directory. *)
Lemma script_with_names F P lib m pl root pred out use_val no_split_dir o thr f s : directory root -> thresholds_given (o_thresholds o) thr ->
  m_dirs m root <> None -> m_dirs m (root ++ lit "/groundTruth") <> None -> m_dirs m pred <> None ->
  let split := bsds_split use_val in let found := m_dirs m (root ++ lit "/groundTruth/" ++ split) in
  let a := snd (set_eval_params BSDS (mkCall None 1 (negb (o_raw o)) (o_nms o) true (o_max_dist o) false false) fresh) in
  (match found with None => True | Some es => bsds_names split es = [] end ->
     bsds_script F P lib m pl root pred out use_val no_split_dir o f s = (Err TypeError, f)) /\
  (forall es e, found = Some es -> bsds_names split es <> [] -> bsds_prepare m root pred split no_split_dir (bsds_names split es) a = Err e ->
     bsds_script F P lib m pl root pred out use_val no_split_dir o f s = (Err e, f)).
Proof.
  intros Hroot Hthr D1 D2 D3 split found a.
  assert (Ep : path_join (path_join root (lit "groundTruth")) split = root ++ lit "/groundTruth/" ++ split).
  { rewrite (gt_dir root Hroot). rewrite join_directory; [rewrite <- app_assoc; reflexivity| |apply component_relative, split_component].
    change (directory (root ++ lit "/" ++ lit "groundTruth")). apply directory_join, component_directory. split; [discriminate|vm_compute; intuition discriminate]. }
  destruct (thresholds_argument _ _ Hthr) as (ct & Ec & Ea). unfold bsds_script, cli_bsds. rewrite Ec. cbn [j_ths j_kind j_call j_nproc]. rewrite Ea.
  assert (Es : (if use_val then lit "val" else lit "test") = split) by reflexivity. rewrite Es.
  assert (Ei : bsds_init m root split = Ok (snd (set_sample_names (option_map (bsds_names split) found) None None))).
  { unfold bsds_init. replace (text_eqb split (lit "val") || text_eqb split (lit "test"))%bool with true by (unfold split, bsds_split; destruct use_val; reflexivity). rewrite Ep. reflexivity. }
  rewrite Ei. match goal with |- context [set_eval_params BSDS ?c fresh] => change (set_eval_params BSDS c fresh) with ((Ok tt : res unit), a) end.
  unfold bsds_evaluate. rewrite (dir_exists m root D1), (gt_dir root Hroot), (dir_exists m _ D2), (dir_exists m pred D3). cbn [andb negb]. split.
  - intros H. destruct found as [es|]; cbn [option_map]; [rewrite H|]; reflexivity.
  - intros es e Ef Hne Hp. rewrite Ef. cbn [option_map]. unfold set_sample_names. destruct (bsds_names split es) as [|n l] eqn:En; [congruence|]. cbn [snd].
    rewrite Hp. reflexivity.
Qed.

(** *** Theorem 4: without a directory for the split, or without .mat files in it, the run ends with a TypeError (the constructor
    hides the real reason). *)
Theorem bsds_no_samples : forall F P lib m pl root pred out use_val no_split_dir o thr f s, directory root -> thresholds_given (o_thresholds o) thr ->
  m_dirs m root <> None -> m_dirs m (root ++ lit "/groundTruth") <> None -> m_dirs m pred <> None ->
  (m_dirs m (root ++ lit "/groundTruth/" ++ bsds_split use_val) = None \/
   exists entries, m_dirs m (root ++ lit "/groundTruth/" ++ bsds_split use_val) = Some entries /\ mat_ids entries []) ->
  bsds_script F P lib m pl root pred out use_val no_split_dir o f s = (Err TypeError, f).
Proof.
  intros F P lib m pl root pred out uv ns o thr f s Hroot Hthr D1 D2 D3 H. destruct (script_with_names F P lib m pl root pred out uv ns o thr f s Hroot Hthr D1 D2 D3) as [A _]. cbv zeta in A. apply A.
  destruct H as [H|(es & H & M)]; rewrite H; [exact I|]. rewrite (names_of_mats _ es [] (component_directory _ (split_component uv)) M). reflexivity.
Qed.
Print Assumptions bsds_no_samples.

(** *** Theorem 5: a file whose extension is not lower case (id.MAT) is taken for a sample, but looked for as id.mat: unless that
    exists too, the run fails. *)
Lemma samples_missing there root pred split ns names n : In n names -> there (bsds_gt_path root n) = false -> bsds_samples there root pred split ns names = Err AssertionError.
Proof.
  induction names as [|k names IH]; [intros []|]. intros [->|I] H; cbn [bsds_samples].
  - rewrite H. reflexivity.
  - destruct (negb _); [reflexivity|]. rewrite (IH I H). reflexivity.
Qed.
Theorem bsds_upper_case_extension_stops_the_run : forall F P lib m pl root pred out use_val no_split_dir o thr entries i x f s,
  directory root -> thresholds_given (o_thresholds o) thr ->
  m_dirs m root <> None -> m_dirs m (root ++ lit "/groundTruth") <> None -> m_dirs m pred <> None ->
  m_dirs m (root ++ lit "/groundTruth/" ++ bsds_split use_val) = Some entries ->
  In (i ++ "."%char :: x) entries -> component i -> (exists c, In c i /\ c <> "."%char) -> ~ In "/"%char x -> lower_text ("."%char :: x) = lit ".mat" ->
  path_exists m (bsds_truth root use_val i) = false ->
  bsds_script F P lib m pl root pred out use_val no_split_dir o f s = (Err AssertionError, f).
Proof.
  intros F P lib m pl root pred out uv ns o thr entries i x f s Hroot Hthr D1 D2 D3 De Ie Ci Cd Nx Lx Gone.
  destruct (script_with_names F P lib m pl root pred out uv ns o thr f s Hroot Hthr D1 D2 D3) as [_ A]. cbv zeta in A.
  set (split := bsds_split uv) in *.
  assert (Nd : ~ In "."%char x).
  { intros I. assert (J : In (lower_char "."%char) (lit "mat")); [|vm_compute in J; intuition discriminate]. unfold lower_text in Lx. cbn [map] in Lx. injection Lx as Lx.
    change (lit "mat") with (["m"; "a"; "t"]%char). rewrite <- Lx. apply in_map. exact I. }
  assert (In_ : In (split ++ lit "/" ++ i) (bsds_names split entries)).
  { unfold bsds_names. apply in_flat_map. exists (i ++ "."%char :: x). split; [exact Ie|]. rewrite basename_component.
    2:{ intros I. apply in_app_or in I. destruct I as [I|[I|I]]; [exact (proj2 Ci I)|discriminate I|exact (Nx I)]. }
    assert (Sx := splitext_spec [] i x (or_introl eq_refl) (proj2 Ci) Cd Nd Nx). cbn [app] in Sx. rewrite Sx, Lx. rewrite (proj2 (text_eqb_spec _ _) eq_refl).
    left. apply join_directory; [apply component_directory, split_component|apply component_relative, Ci]. }
  assert (Eg : bsds_gt_path root (split ++ lit "/" ++ i) = bsds_truth root uv i).
  { unfold bsds_gt_path, bsds_truth. fold split. rewrite (join_directory root (lit "groundTruth") Hroot) by (cbn; discriminate).
    rewrite join_directory; [rewrite <- !app_assoc; reflexivity|apply directory_join, component_directory; split; [discriminate|vm_compute; intuition discriminate]|].
    rewrite <- !app_assoc. apply relative_app; [apply split_component|apply component_relative, split_component]. }
  apply (A entries AssertionError De); [intros C; rewrite C in In_; destruct In_|].
  unfold bsds_prepare. destruct (bsds_names split entries) as [|n l] eqn:En; [destruct In_|].
  destruct (bsds_samples (path_exists m) root pred split ns [n]) as [d|e] eqn:E1; cbn [bind].
  - replace (eval_params BSDS false _) with (Ok (mkEP 1 (negb (o_raw o)) (o_nms o) (o_max_dist o) None None None) : res eparams) by reflexivity. cbn [bind].
    rewrite (samples_missing (path_exists m) root pred split ns (n :: l) (split ++ lit "/" ++ i) In_) by (rewrite Eg; exact Gone). reflexivity.
  - clear - E1. cbn [bsds_samples] in E1. match type of E1 with (if ?b then _ else _) = _ => destruct b end; [congruence|discriminate E1].
Qed.
Print Assumptions bsds_upper_case_extension_stops_the_run.

(** *** Theorem 6: without the dataset, its ground truth or the prediction directory the run fails with an AssertionError; so does an
    evaluation of no samples. *)
Theorem bsds_missing_directory : forall F P lib m pl root pred out use_val no_split_dir o thr f s, directory root -> thresholds_given (o_thresholds o) thr ->
  (exists d, In d [root; root ++ lit "/groundTruth"; pred] /\ path_exists m d = false) ->
  bsds_script F P lib m pl root pred out use_val no_split_dir o f s = (Err AssertionError, f).
Proof.
  intros F P lib m pl root pred out uv ns o thr f s Hroot Hthr (d & I & N). destruct (thresholds_argument _ _ Hthr) as (ct & Ec & Ea). unfold bsds_script, cli_bsds. rewrite Ec. cbn [j_ths j_kind j_call j_nproc]. rewrite Ea.
  unfold bsds_init. replace (text_eqb (if uv then lit "val" else lit "test") (lit "val") || text_eqb (if uv then lit "val" else lit "test") (lit "test"))%bool with true by (destruct uv; reflexivity).
  match goal with |- context [set_eval_params BSDS ?c fresh] => destruct (set_eval_params BSDS c fresh) as [x a] eqn:E; assert (X : x = Ok tt) by (cbn in E; congruence); subst x end.
  unfold bsds_evaluate. rewrite (gt_dir root Hroot). cbn [In] in I. destruct I as [<-|[<-|[<-|[]]]]; rewrite N, ?andb_false_r; reflexivity.
Qed.
Print Assumptions bsds_missing_directory.
Theorem bsds_no_names_rejected : forall F P lib m w root pred split a thr out no_split_dir f s, bsds_evaluate F P lib m w root pred split (Some []) a thr out no_split_dir f s = (Err AssertionError, f).
Proof. intros. unfold bsds_evaluate. destruct (negb _); reflexivity. Qed.
Print Assumptions bsds_no_names_rejected.
(** *** Theorem 7: a ground truth file that is no MATLAB file, or a prediction that is no grey image, means no result. *)
Theorem bsds_unreadable_file_no_result : forall F P lib m pl root pred out use_val no_split_dir o thr entries ids i f s,
  directory root -> directory pred -> directory out -> thresholds_given (o_thresholds o) thr ->
  m_dirs m root <> None -> m_dirs m (root ++ lit "/groundTruth") <> None -> m_dirs m pred <> None ->
  m_dirs m (root ++ lit "/groundTruth/" ++ bsds_split use_val) = Some entries -> mat_ids entries ids -> In i ids -> all_finished (List.length ids) (by_plan (o_nproc o) pl) ->
  m_mats m (bsds_truth root use_val i) = None \/ (forall p, m_images m (bsds_guess pred use_val no_split_dir i) <> Some (Gray p)) ->
  forall v f', bsds_script F P lib m pl root pred out use_val no_split_dir o f s <> (Ok (Some v), f').
Proof.
  intros F P lib m pl root pred out uv ns o thr entries ids i f s Hr Hp Ho Ht D1 D2 D3 De Hi I Fin Bad v f'.
  assert (Ni : ids <> []) by (intros ->; contradiction).
  erewrite script_prefix by eassumption. rewrite prepared with (entries := entries) by assumption.
  match goal with |- context [if ?b then _ else _] => destruct b end; [|discriminate].
  match goal with |- context [then_ ?a ?b ?r] => destruct (then_ a b r) as [[[[[rows ths] ov] r']|]|e'] eqn:E end; try discriminate.
  exfalso. unfold then_ in E. match type of E with context [each ?w ?g ?l ?r] => destruct (each w g l r) as [[[x r1]|]|e] eqn:Ef end; cbn [bind] in E; try discriminate E.
  revert Ef. eapply each_no_value; [rewrite map_length; exact Fin|apply in_map, I|]. intros r0 v0 C. cbn beta iota in C. unfold bsds_eval_sample in C.
  destruct (check_thresholds thr); [|discriminate C]. cbn [bind] in C. unfold open_gray in C.
  destruct (m_images m (bsds_guess pred uv ns i)) as [[p|c]|] eqn:Ei; cbn [bind] in C; try discriminate C.
  destruct Bad as [B|B]; [rewrite B in C; discriminate C|exact (B p eq_refl)].
Qed.
Print Assumptions bsds_unreadable_file_no_result.

(** ** The hypotheses are met *)
Definition ex_bsds_gt : image Z := tab 6 6 (fun y x => if x =? 2 then 1 else 0).
Definition ex_bsds_gt2 : image Z := tab 6 6 (fun y x => if x =? 3 then 1 else 0).
Definition ex_bsds_pred : image Z := tab 6 6 (fun y x => if x =? 2 then 250 else 3).
Definition ex_bsds_machine : machine := mkMachine
  (fun t => if text_eqb t (lit "/data/groundTruth/test") then Some [lit "2018.mat"; lit "notes.txt"; lit "3063.mat"; lit ".mat"]
            else if text_eqb t (lit "/data") || text_eqb t (lit "/data/groundTruth") || text_eqb t (lit "out") then Some [] else None)
  (fun t => if text_eqb t (lit "/data/groundTruth/test/2018.mat") then Some [ex_bsds_gt; ex_bsds_gt2]
            else if text_eqb t (lit "/data/groundTruth/test/3063.mat") then Some [ex_bsds_gt2] else None)
  (fun t => if text_eqb t (lit "out/2018.png") || text_eqb t (lit "out/3063.png") then Some (Gray ex_bsds_pred) else None)
  (fun _ => None).
Definition ex_bsds_options : options := mkOpt None (lit " 99 ") (75 # 10000) false false false false 1 false 2.
Lemma lower_length x : List.length (lower_text x) = List.length x.
Proof. apply map_length. Qed.
Lemma suffix4 (e b x : text) : e = b ++ x -> lower_text x = lit ".mat" -> b = firstn (List.length e - 4) e /\ x = skipn (List.length e - 4) e.
Proof.
  intros -> L. assert (Lx : List.length x = 4%nat) by (rewrite <- lower_length, L; reflexivity). rewrite app_length, Lx, Nat.add_sub. rewrite firstn_app, skipn_app, Nat.sub_diag, firstn_all, skipn_all. cbn. rewrite app_nil_r. auto.
Qed.
Example ex_mat_ids : mat_ids [lit "2018.mat"; lit "notes.txt"; lit "3063.mat"; lit ".mat"] [lit "2018"; lit "3063"].
Proof.
  assert (C : forall t, t <> [] -> forallb (fun c => negb (Ascii.eqb c "/")) t = true -> component t).
  { intros t N F. split; [exact N|]. intros I. rewrite forallb_forall in F. specialize (F _ I). discriminate. }
  apply (mi_mat (lit "2018")); [apply C; [discriminate|reflexivity]|exists "2"%char; split; [left; reflexivity|discriminate]|].
  apply mi_other; [apply C; [discriminate|reflexivity]|intros b x E L; destruct (suffix4 _ _ _ E L) as [_ ->]; discriminate L|].
  apply (mi_mat (lit "3063")); [apply C; [discriminate|reflexivity]|exists "3"%char; split; [left; reflexivity|discriminate]|].
  apply mi_other; [apply C; [discriminate|reflexivity]|intros b x E L; destruct (suffix4 _ _ _ E L) as [-> _]; constructor|]. constructor.
Qed.
Example ex_thresholds : thresholds_given (o_thresholds ex_bsds_options) (AInt 99).
Proof.
  left. exists 99. split; [|reflexivity]. exists [" "%char], None, [[9; 9]], [" "%char]. split; [repeat constructor|]. split; [repeat constructor|]. split; [discriminate|].
  split; [constructor; [split; [repeat constructor; lia|discriminate]|constructor]|]. split; reflexivity.
Qed.
Lemma ex_dir t : t <> [] -> nth 0 (rev t) "x"%char <> "/"%char -> directory t.
Proof. intros H K. split; [exact H|]. intros d ->. apply K. rewrite rev_app_distr. reflexivity. Qed.
(** Two processes; the second sample is finished first. *)
Definition ex_plan : plan := mkPlan (fun i => i) [1%nat; 0%nat].
Example ex_bsds_run : forall lib f s, raw_values s ->
  session_delivers (fun F P => bsds_script F P lib ex_bsds_machine ex_plan (lit "/data") (lit "out") (lit "out/results") false true ex_bsds_options) f s (fun answer f' => exists result th,
    check_thresholds (AInt 99) = Ok th /\ answer = Some (snd result) /\
    category_result (AInt 99) th [lit "test/2018"; lit "test/3063"] (fun n c => exists i gts p, n = lit "test/" ++ i /\ bsds_sample ex_bsds_machine (lit "/data") (lit "out") false true i gts p /\
       bsds_counts lib true false (75 # 10000) th gts p c) result /\
    reports f' (lit "out/results") result /\ only_writes (result_files (lit "out/results")) f f').
Proof.
  intros lib f s V. destruct (check_thresholds (AInt 99)) as [th|] eqn:E; [|discriminate].
  eapply sdelivers_weaken.
  - apply (bsds_run lib ex_bsds_machine ex_plan (lit "/data") (lit "out") (lit "out/results") false true ex_bsds_options (AInt 99) th [lit "2018.mat"; lit "notes.txt"; lit "3063.mat"; lit ".mat"] [lit "2018"; lit "3063"] f s);
      try exact E; try exact V; try (apply ex_dir; discriminate); try discriminate; try reflexivity.
    + exact ex_thresholds.
    + intros ->. discriminate E.
    + exact ex_mat_ids.
    + assert (B : forall k, binary (tab 6 6 (fun _ x => if x =? k then 1 else 0))).
      { intros k y x. rewrite px_tab. destruct (inb 6 6 y x); [destruct (x =? k)|]; auto. }
      intros i [<-|[<-|[]]]; [exists [ex_bsds_gt; ex_bsds_gt2], ex_bsds_pred|exists [ex_bsds_gt2], ex_bsds_pred]; (split; [split; reflexivity|]);
        (split; [apply wf_tab|]; split; [cbn; lia|]; split; [cbn; lia|]; split; [discriminate|]); repeat (constructor; [split; [apply wf_tab|split; [apply B|split; reflexivity]]|]); constructor.
    + intros _. apply perm_swap.
  - intros a f' (r & A & B & C & D). exists r, th. split; [reflexivity|]. split; [exact A|]. split; [exact B|]. split; [exact C|exact D].
Qed.
