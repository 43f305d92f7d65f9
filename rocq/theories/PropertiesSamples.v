(** C49: which files an evaluation reads. *)
From Verif Require Import SpecSamples ProofsWorkers ProofsPaths ProofsText ProofsEval PropertiesResults PropertiesUtils PropertiesFiles PropertiesMetrics.
From Coq Require Import Lia ZifyBool ZifyNat.
Open Scope Z_scope.
Open Scope list_scope.

(** ** Paths *)
Lemma class_name c : 1 <= c <= 99 -> lit "class_" ++ str_zfill 3 c = lit "class_0" ++ [digit (c / 10); digit (c mod 10)].
Proof.
  intros H. assert (D : forallb (fun c => text_eqb (lit "class_" ++ str_zfill 3 c) (lit "class_0" ++ [digit (c / 10); digit (c mod 10)])) (map (fun i => i + 1) (zseq 99)) = true) by (vm_compute; reflexivity).
  rewrite forallb_forall in D. apply text_eqb_spec. apply D. apply in_map_iff. exists (c - 1). split; [lia|]. apply ProofsImage.in_zseq. lia.
Qed.
Lemma digit_not_slash c : 0 <= c <= 9 -> digit c <> slash.
Proof.
  intros H. assert (D : forallb (fun c => negb (Ascii.eqb (digit c) slash)) (zseq 10) = true) by (vm_compute; reflexivity).
  rewrite forallb_forall in D. assert (X := D c). rewrite ProofsImage.in_zseq in X. specialize (X ltac:(lia)).
  destruct (Ascii.eqb_spec (digit c) slash); [discriminate|assumption].
Qed.
Lemma class_component c : 1 <= c <= 99 -> component (lit "class_0" ++ [digit (c / 10); digit (c mod 10)]).
Proof.
  intros H. split; [discriminate|]. intros I. apply in_app_or in I. destruct I as [I|[I|[I|[]]]].
  - revert I. vm_compute. intuition discriminate.
  - revert I. apply digit_not_slash. split; [apply Z.div_pos; lia|]. apply Z.lt_succ_r. apply Z.div_lt_upper_bound; lia.
  - revert I. apply digit_not_slash. assert (X := Z.mod_pos_bound c 10). lia.
Qed.
Lemma pred_path_eq k p c name suffix : k <> BSDS -> 1 <= c <= 99 -> directory (p_pred p) -> relative name -> name <> [] -> suffix_used k (p_pred_suffix p) suffix ->
  pred_path k p c name = prediction (p_pred p) c name suffix.
Proof.
  intros Hk Hc Hp Hn Hne Hs. unfold pred_path, prediction. rewrite class_name by exact Hc.
  assert (C := class_component c Hc). rewrite (join_directory (p_pred p)); [|exact Hp|apply component_relative; exact C].
  rewrite join_directory; [|apply directory_join, component_directory; exact C|apply relative_app; assumption].
  assert (E : pred_suffix_of k p = suffix).
  { unfold pred_suffix_of. destruct Hs as [[-> N]|[-> ->]]; [destruct suffix; [congruence|reflexivity]|destruct k; congruence]. }
  rewrite E. rewrite <- !app_assoc. reflexivity.
Qed.
Lemma edge_name_eq k thin inst : k <> BSDS -> edge_suffix k thin inst = edge_name k thin inst.
Proof. intros H. destruct k; [congruence|..]; destruct thin, inst; reflexivity. Qed.
Lemma gt_eq k p inst name gt : k <> BSDS -> directory (p_root p) -> directory_used (p_gt_dir p) gt -> component (p_split p) -> relative name -> name <> [] ->
  gt_of k p inst name = ground_truth k (p_root p) gt (p_split p) (p_thin p) inst name.
Proof.
  intros Hk Hr Hg Hs Hn Hne.
  assert (E : gt_dir_of p = gt) by (unfold gt_dir_of; destruct Hg as [[-> [[N _] _]]|[-> ->]]; [destruct gt; [congruence|reflexivity]|reflexivity]).
  assert (G : directory gt /\ relative gt).
  { destruct Hg as [[_ G]|[_ ->]]; [exact G|]. assert (C : component (lit "gtEval")) by (split; [discriminate|vm_compute; intuition discriminate]). split; [apply component_directory; exact C|apply component_relative; exact C]. }
  destruct G as [G1 G2].
  assert (J : path_join (p_root p) gt = p_root p ++ slash :: gt) by (apply join_directory; assumption).
  assert (S : path_join (p_root p ++ slash :: gt) (p_split p) = (p_root p ++ slash :: gt) ++ slash :: p_split p) by (apply join_directory; [apply directory_join; exact G1|apply component_relative; exact Hs]).
  assert (R : forall x, relative (name ++ x)) by (intros x; apply relative_app; assumption).
  assert (F : gtFine_root p = (p_root p ++ slash :: lit "gtFine") ++ slash :: p_split p).
  { unfold gtFine_root. assert (C : component (lit "gtFine")) by (split; [discriminate|vm_compute; intuition discriminate]).
    rewrite (join_directory (p_root p)) by (auto; apply component_relative; exact C). apply join_directory; [apply directory_join, component_directory; exact C|apply component_relative; exact Hs]. }
  assert (DF : directory (gtFine_root p)) by (rewrite F; apply directory_join, component_directory; exact Hs).
  assert (D1 : directory (p_root p ++ slash :: gt)) by (apply directory_join; exact G1).
  assert (D2 : directory ((p_root p ++ slash :: gt) ++ slash :: p_split p)) by (apply directory_join, component_directory; exact Hs).
  unfold gt_of, gtEval_root, ground_truth. rewrite E, J, S. rewrite (edge_name_eq k) by exact Hk. rewrite F in *.
  destruct k; [congruence|..]; rewrite ?join_directory by (auto; exact (R _)); rewrite <- ?app_assoc; destruct inst; reflexivity.
Qed.

(** ** The list of samples *)
Section List.
Variables (k : kind) (root pred split gt_arg gt suffix : text) (suffix_arg : option text) (thin inst : bool) (category : Z) (e : eparams).
Hypothesis Hk : k <> BSDS.
Hypothesis Hroot : directory root.
Hypothesis Hpred : directory pred.
Hypothesis Hsplit : component split.
Hypothesis Hgt : directory_used gt_arg gt.
Hypothesis Hsuffix : suffix_used k suffix_arg suffix.
Hypothesis Hcat : 1 <= category <= 99.
Let place := mkPlace root pred split thin gt_arg suffix_arg.
Let truth := ground_truth k root gt split thin inst.

Lemma gt_paths_files g : gt_paths g = files_of g.
Proof. destruct g as [|s [i|]]; reflexivity. Qed.
Lemma samples_ok there names : (forall n, In n names -> relative n /\ n <> []) ->
  (forall n f, In n names -> In f (files_of (truth n)) -> there f = true) ->
  build_samples there (Ok e) k place inst category names = Ok (map (fun n => mkSample n (truth n) (prediction pred category n suffix)) names).
Proof.
  intros Hn. induction names as [|n names IH]; intros Hf; [reflexivity|]. cbn [build_samples].
  destruct (Hn n (or_introl eq_refl)) as [R N].
  rewrite (gt_eq k place inst n gt) by assumption. fold truth. cbn [p_root p_split p_thin place]. change (ground_truth k root gt split thin inst n) with (truth n).
  rewrite gt_paths_files. replace (forallb there (files_of (truth n))) with true.
  2:{ symmetry. apply forallb_forall. intros f F. apply (Hf n f); [left; reflexivity|exact F]. }
  cbn [negb bind]. rewrite IH; [|intros m M; apply Hn; right; exact M|intros m f M F; apply (Hf m f); [right; exact M|exact F]].
  cbn [bind map]. rewrite (pred_path_eq k place category n suffix) by assumption. reflexivity.
Qed.
Lemma samples_missing there names n f : (forall n, In n names -> relative n /\ n <> []) ->
  In n names -> In f (files_of (truth n)) -> there f = false -> build_samples there (Ok e) k place inst category names = Err AssertionError.
Proof.
  intros Hn I F T. induction names as [|m names IH]; [destruct I|]. cbn [build_samples]. destruct (Hn m (or_introl eq_refl)) as [R N].
  rewrite (gt_eq k place inst m gt) by assumption. cbn [p_root p_split p_thin place]. change (ground_truth k root gt split thin inst m) with (truth m). rewrite gt_paths_files.
  destruct (forallb there (files_of (truth m))) eqn:A; [|reflexivity]. cbn [negb bind]. destruct I as [->|I].
  - rewrite forallb_forall in A. rewrite (A f F) in T. discriminate.
  - rewrite IH; [reflexivity|intros x X; apply Hn; right; exact X|exact I].
Qed.

(** *** C49, theorem 1: the list of samples is the list of names in order, each with its full file names;
    it is built exactly when all ground truth files exist, and otherwise the evaluation stops before
    anything is read. *)
Theorem samples_and_their_files there names : (forall n, In n names -> relative n /\ n <> []) ->
  build_samples there (Ok e) k place inst category names =
    if forallb (fun n => forallb there (files_of (ground_truth k root gt split thin inst n))) names
    then Ok (map (fun n => mkSample n (ground_truth k root gt split thin inst n) (prediction pred category n suffix)) names)
    else Err AssertionError.
Proof.
  intros Hn. destruct (forallb _ names) eqn:A.
  - apply samples_ok; [exact Hn|]. intros n f I F. rewrite forallb_forall in A. assert (X := A n I). rewrite forallb_forall in X. apply X. exact F.
  - assert (X : exists n f, In n names /\ In f (files_of (truth n)) /\ there f = false).
    { clear Hn. induction names as [|m names IH]; [discriminate|]. cbn [forallb] in A. apply andb_false_iff in A. destruct A as [A|A].
      - assert (Y : exists f, In f (files_of (truth m)) /\ there f = false).
        { clear IH. unfold truth. induction (files_of (ground_truth k root gt split thin inst m)) as [|f l IH]; [discriminate|]. cbn [forallb] in A. apply andb_false_iff in A. destruct A as [A|A].
          - exists f. split; [left; reflexivity|exact A].
          - destruct (IH A) as (g & G & T). exists g. split; [right; exact G|exact T]. }
        destruct Y as (f & F & T). exists m, f. split; [left; reflexivity|]. split; assumption.
      - destruct (IH A) as (n & f & N & F & T). exists n, f. split; [right; exact N|]. split; assumption. }
    destruct X as (n & f & N & F & T). eapply samples_missing; eassumption.
Qed.
End List.

(** *** C49, theorem 2: different samples or categories have different prediction files, whatever the
    prediction directory (also an empty one or one ending with slashes) and the suffix. *)
Lemma digits_inj c c' : 0 <= c <= 99 -> 0 <= c' <= 99 -> digit (c / 10) = digit (c' / 10) -> digit (c mod 10) = digit (c' mod 10) -> c = c'.
Proof.
  assert (D : forall a b, 0 <= a <= 9 -> 0 <= b <= 9 -> digit a = digit b -> a = b).
  { intros a b A B E. unfold digit in E. apply (f_equal nat_of_ascii) in E. rewrite !nat_ascii_embedding in E by lia. lia. }
  intros H H' E F. apply D in E; [|split; [apply Z.div_pos; lia|apply Z.lt_succ_r, Z.div_lt_upper_bound; lia]..].
  apply D in F; [|assert (X := Z.mod_pos_bound c 10); lia|assert (X := Z.mod_pos_bound c' 10); lia].
  rewrite (Z.div_mod c 10), (Z.div_mod c' 10) by lia. congruence.
Qed.
Lemma pred_path_shape k p : exists q, forall c n, 1 <= c <= 99 -> relative n -> n <> [] ->
  pred_path k p c n = q ++ lit "class_0" ++ [digit (c / 10); digit (c mod 10)] ++ slash :: n ++ pred_suffix_of k p.
Proof.
  destruct (join_cases (p_pred p) [] eq_refl) as (q & _ & J). exists q. intros c n Hc R N. unfold pred_path. rewrite class_name by exact Hc.
  assert (C := class_component c Hc).
  rewrite (J (lit "class_0" ++ [digit (c / 10); digit (c mod 10)])) by (apply relative_spec, component_relative; exact C).
  rewrite join_directory; [rewrite <- !app_assoc; reflexivity| |apply relative_app; assumption].
  destruct (component_directory _ C) as [CN CT]. split; [destruct q; discriminate|]. intros d E.
  replace (q ++ lit "class_0" ++ [digit (c / 10); digit (c mod 10)]) with ((q ++ lit "class_0" ++ [digit (c / 10)]) ++ [digit (c mod 10)]) in E by (rewrite <- !app_assoc; reflexivity).
  apply app_inj_tail in E. destruct E as [_ E]. revert E. apply digit_not_slash. assert (X := Z.mod_pos_bound c 10). lia.
Qed.
Theorem prediction_files_are_distinct k p c c' n n' :
  1 <= c <= 99 -> 1 <= c' <= 99 -> relative n -> n <> [] -> relative n' -> n' <> [] ->
  pred_path k p c n = pred_path k p c' n' -> c = c' /\ n = n'.
Proof.
  intros Hc Hc' R N R' N' E. destruct (pred_path_shape k p) as (q & S). rewrite !S in E by assumption.
  apply app_inv_head, app_inv_head in E. cbn [app] in E. injection E as E1 E2 E3. split; [apply digits_inj; auto; lia|].
  apply app_inv_tail in E3. exact E3.
Qed.
(** An absolute sample name replaces the directories: all categories then read the same file. *)
Theorem absolute_names_ignore_the_category k p c c' n : pred_path k p c ("/"%char :: n) = pred_path k p c' ("/"%char :: n).
Proof.
  unfold pred_path, path_join at 1. cbn [app]. rewrite starts_slash, Ascii.eqb_refl. unfold path_join at 1. rewrite starts_slash, Ascii.eqb_refl. reflexivity.
Qed.

(** ** One category *)
Section Category.
Variables (fuel pfuel : nat) (lib : libm) (w : workers).
Variables (k : kind) (root pred split gt_arg gt suffix : text) (suffix_arg : option text) (thin inst : bool) (category : Z) (a : attrs) (e : eparams) (thr : tharg).
Hypothesis Hk : k <> BSDS.
Hypothesis Hroot : directory root.
Hypothesis Hpred : directory pred.
Hypothesis Hsplit : component split.
Hypothesis Hgt : directory_used gt_arg gt.
Hypothesis Hsuffix : suffix_used k suffix_arg suffix.
(** The parameters have been set. *)
Hypothesis Hinst : a_inst a = Some inst.
Hypothesis Hready : eval_params k thin a = Ok e.
Hypothesis Hcat : 1 <= category <= (match k with SBD | Reanno => 20 | _ => 19 end).
Let place := mkPlace root pred split thin gt_arg suffix_arg.
Let evaluation d names := evaluate_category_run fuel pfuel lib w d k place true (Some names) a thr category.
Let truth := ground_truth k root gt split thin inst.

Lemma category_run d names r : names <> [] -> (forall n, In n names -> relative n /\ n <> []) ->
  evaluation d names r =
    if forallb (fun n => forallb (on_disk d) (files_of (truth n))) names then
      then_ (each w (eval_sample fuel pfuel lib d k (Z.of_nat (n_classes_of k)) category thr e) (map (fun n => mkSample n (truth n) (prediction pred category n suffix)) names))
        (fun metrics r => bind (summarise thr (combine (map name_string names) metrics)) (fun c => Ok (Some (c, r)))) r
    else Err AssertionError.
Proof.
  intros Hne Hn. unfold evaluation, evaluate_category_run. cbn [negb].
  replace ((0 <? category) && (category <? Z.of_nat (n_classes_of k) + 1)) with true by (destruct k; try congruence; cbn [n_classes_of]; lia).
  cbn [negb]. replace (match names with [] => Ok false | _ :: _ => getattr (a_inst a) end) with (Ok inst) by (rewrite Hinst; destruct names; [congruence|reflexivity]).
  cbn [bind]. change (p_thin place) with thin. rewrite Hready.
  assert (Hcat' : 1 <= category <= 99) by (destruct k; lia).
  assert (S := samples_and_their_files k root pred split gt_arg gt suffix suffix_arg thin inst category e Hk Hroot Hpred Hsplit Hgt Hsuffix Hcat' (on_disk d) names Hn).
  fold place in S. rewrite S. fold truth. destruct (forallb _ names); [|reflexivity]. cbn [bind].
  destruct names as [|n names]; [congruence|]. cbn [map]. rewrite map_map. reflexivity.
Qed.

(** *** C49, theorem 3: without all its ground truth files the evaluation of a category fails, and
    nothing is read or counted. *)
Theorem missing_ground_truth_is_reported d names n f : (forall n, In n names -> relative n /\ n <> []) ->
  In n names -> In f (files_of (ground_truth k root gt split thin inst n)) -> d f = None ->
  forall r, evaluation d names r = Err AssertionError.
Proof.
  intros Hn I F D r. rewrite category_run; [|intros ->; destruct I|exact Hn].
  replace (forallb _ names) with false; [reflexivity|]. symmetry. apply not_true_iff_false. intros A. rewrite forallb_forall in A. assert (X := A n I). rewrite forallb_forall in X. assert (Y := X f F). unfold on_disk in Y. rewrite D in Y. discriminate.
Qed.
(** *** C49, theorem 4: without the prediction of one of its samples a category has no result; if it is
    the first sample (and the ground truth is readable), the exception is FileNotFoundError. *)
Lemma no_prediction d s : d (sm_pred s) = None -> forall r, exists x, eval_sample fuel pfuel lib d k (Z.of_nat (n_classes_of k)) category thr e s r = Err x.
Proof.
  intros D r. unfold eval_sample. destruct (sm_gt s) as [edge seg|seg i].
  - destruct (check_thresholds thr); cbn [bind]; [|eauto]. destruct (open_colour d edge); cbn [bind]; [|eauto]. unfold open_gray at 1. rewrite D. cbn [bind]. eauto.
  - destruct (check_thresholds thr); cbn [bind]; [|eauto]. destruct (trainId2label (category - 1)); cbn [bind]; [|eauto]. destruct (open_gray d seg); cbn [bind]; [|eauto]. unfold open_gray at 1. rewrite D. cbn [bind]. eauto.
Qed.
Theorem missing_prediction_means_no_result d names n : all_finished (List.length names) w -> (forall n, In n names -> relative n /\ n <> []) ->
  In n names -> d (prediction pred category n suffix) = None ->
  forall r v, evaluation d names r <> Ok (Some v).
Proof.
  intros Fin Hn I D r v. rewrite category_run; [|intros ->; destruct I|exact Hn]. destruct (forallb _ names); [|discriminate].
  unfold then_. intros E. match type of E with bind ?X _ = _ => destruct X as [[[m r']|]|] eqn:Fl end; cbn [bind] in E; try discriminate.
  revert Fl. apply each_no_value with (a := mkSample n (truth n) (prediction pred category n suffix)).
  - rewrite map_length. exact Fin.
  - apply in_map_iff. exists n. auto.
  - intros s x0. destruct (no_prediction d (mkSample n (truth n) (prediction pred category n suffix)) D s) as (x & ->). discriminate.
Qed.
(** *** C49, theorem 5: the result of a category depends on nothing but the listed files. *)
Theorem only_the_listed_files_matter d d' names : (forall n, In n names -> relative n /\ n <> []) -> names <> [] ->
  (forall n f, In n names -> In f (prediction pred category n suffix :: files_of (ground_truth k root gt split thin inst n)) -> d f = d' f) ->
  forall r, evaluation d names r = evaluation d' names r.
Proof.
  intros Hn Hne A r. rewrite !category_run by assumption.
  assert (X : forallb (fun n => forallb (on_disk d) (files_of (truth n))) names = forallb (fun n => forallb (on_disk d') (files_of (truth n))) names).
  { apply eq_true_iff_eq. rewrite !forallb_forall. split; intros H n I; specialize (H n I); rewrite forallb_forall in *; intros f F; specialize (H f F); unfold on_disk in *.
    - rewrite <- (A n f I (or_intror F)). exact H.
    - rewrite (A n f I (or_intror F)). exact H. }
  rewrite X. clear X. destruct (forallb (fun n => forallb (on_disk d') (files_of (truth n))) names); [|reflexivity]. unfold then_.
  rewrite (each_ext w _ (eval_sample fuel pfuel lib d' k (Z.of_nat (n_classes_of k)) category thr e)); [reflexivity|].
  intros s q I. apply in_map_iff in I. destruct I as (n & <- & I).
  assert (G : forall f, In f (prediction pred category n suffix :: files_of (truth n)) -> open_gray d f = open_gray d' f) by (intros f F; unfold open_gray; rewrite (A n f I F); reflexivity).
  assert (C : forall f, In f (prediction pred category n suffix :: files_of (truth n)) -> open_colour d f = open_colour d' f) by (intros f F; unfold open_colour; rewrite (A n f I F); reflexivity).
  unfold eval_sample. cbn [sm_gt sm_pred]. destruct (truth n) as [edge seg|seg [i|]].
  - rewrite (G _ (or_introl eq_refl)), (C edge) by (right; left; reflexivity). rewrite (G seg) by (right; right; left; reflexivity). reflexivity.
  - rewrite (G _ (or_introl eq_refl)), (G seg) by (right; left; reflexivity). rewrite (G i) by (right; right; left; reflexivity). reflexivity.
  - rewrite (G _ (or_introl eq_refl)), (G seg) by (right; left; reflexivity). reflexivity.
Qed.
(** *** C49, theorem 6: a result has one row per sample, in the order of the sample names. *)
Theorem one_row_per_sample d names r rows ths ov r' : all_finished (List.length names) w -> (forall n, In n names -> relative n /\ n <> []) -> names <> [] ->
  evaluation d names r = Ok (Some ((rows, ths, ov), r')) -> map r_name rows = map name_string names.
Proof.
  intros Fin Hn Hne. rewrite category_run by assumption. destruct (forallb _ names); [|discriminate]. unfold then_.
  match goal with |- bind ?X _ = _ -> _ => destruct X as [[[m r1]|]|] eqn:Fl end; cbn [bind]; try discriminate.
  apply each_length in Fl; [|rewrite map_length; exact Fin]. rewrite map_length in Fl.
  destruct (summarise thr (combine (map name_string names) m)) as [[[x y] z]|] eqn:S; cbn [bind]; [|discriminate]. intros E. injection E as <- <- <- <-.
  assert (M : forall (l : list string) (m : list counts), List.length m = List.length l -> map fst (combine l m) = l).
  { clear. induction l as [|a l IH]; intros [|b m] L; try discriminate; [reflexivity|]. cbn [combine map fst]. f_equal. apply IH. injection L as L. exact L. }
  rewrite <- (M (map name_string names) m) by (rewrite map_length; exact Fl). eapply sample_rows_follow_samples. exact S.
Qed.
End Category.
(** The first sample without prediction: FileNotFoundError, when its ground truth is readable. *)
Theorem first_missing_prediction fuel pfuel lib w k root pred split gt_arg gt suffix suffix_arg thin inst category a e thr d n names :
  k <> BSDS -> directory root -> directory pred -> component split -> directory_used gt_arg gt -> suffix_used k suffix_arg suffix ->
  a_inst a = Some inst -> eval_params k thin a = Ok e -> 1 <= category <= (match k with SBD | Reanno => 20 | _ => 19 end) ->
  (forall m, In m (n :: names) -> relative m /\ m <> []) ->
  (forall m f, In m (n :: names) -> In f (files_of (ground_truth k root gt split thin inst m)) -> d f <> None) ->
  (exists th, check_thresholds thr = Ok th) ->
  match ground_truth k root gt split thin inst n with
  | EdgeSeg edge _ => exists im, d edge = Some (Colour im)
  | SegInst seg _ => exists im, d seg = Some (Gray im)
  end ->
  d (prediction pred category n suffix) = None -> all_finished (S (List.length names)) w ->
  forall r, evaluate_category_run fuel pfuel lib w d k (mkPlace root pred split thin gt_arg suffix_arg) true (Some (n :: names)) a thr category r = Err FileNotFoundError.
Proof.
  intros Hk Hr Hp Hs Hg Hx Hi He Hc Hn Hf (th & Ht) G D Fin r.
  rewrite (category_run fuel pfuel lib w k root pred split gt_arg gt suffix suffix_arg thin inst category a e thr) by (assumption || discriminate).
  match goal with |- (if ?b then _ else _) = _ => replace b with true end.
  2:{ symmetry. apply forallb_forall. intros m M. apply forallb_forall. intros f F. unfold on_disk. assert (X := Hf m f M F). destruct (d f); [reflexivity|congruence]. }
  unfold then_. cbn [map]. rewrite (each_first_error w _ _ _ FileNotFoundError); [reflexivity|rewrite map_length; exact Fin|]. clear r. intros r. unfold eval_sample. cbn [sm_gt sm_pred]. rewrite Ht. cbn [bind].
  destruct (ground_truth k root gt split thin inst n) as [edge seg|seg i] eqn:GT; destruct G as (im & G).
  - unfold open_colour. rewrite G. cbn [bind]. unfold open_gray at 1. rewrite D. reflexivity.
  - assert (K : k = OTF) by (destruct k; try discriminate GT; reflexivity). subst k.
    destruct (trainId2label (category - 1)) as [x|x] eqn:T; cbn [bind].
    + unfold open_gray at 1. rewrite G. cbn [bind]. unfold open_gray at 1. rewrite D. reflexivity.
    + exfalso. assert (A : forallb (fun c => match trainId2label (c - 1) with Ok _ => true | Err _ => false end) (map (fun i => i + 1) (zseq 19)) = true) by (vm_compute; reflexivity).
      rewrite forallb_forall in A. assert (Y := A category). cbv beta in Y. rewrite T in Y. assert (false = true); [|discriminate]. apply Y. apply in_map_iff. exists (category - 1). split; [lia|]. apply ProofsImage.in_zseq. lia.
Qed.

(** ** BSDS *)
(** *** C49, theorem 7: the samples of BSDS, with [no_split_dir] and without. *)
Theorem bsds_samples_and_their_files (there : text -> bool) (root pred split : text) (no_split_dir : bool) (ids : list text) :
  directory root -> directory pred -> component split ->
  (forall i, In i ids -> relative i /\ i <> [] /\ ~ occurs (split ++ lit "/") i) ->
  let gt i := root ++ lit "/groundTruth/" ++ split ++ lit "/" ++ i ++ lit ".mat" in
  let map_file i : text := pred ++ lit "/" ++ (if no_split_dir then [] else split ++ lit "/") ++ i ++ lit ".png" in
  bsds_samples there root pred split no_split_dir (map (fun i => split ++ lit "/" ++ i) ids) =
    if forallb (fun i => there (gt i) && there (map_file i)) ids
    then Ok (map (fun i => (split ++ lit "/" ++ i, gt i, map_file i)) ids)
    else Err AssertionError.
Proof.
  intros Hr Hp Hs Hi gt mf.
  assert (SN : split <> []) by apply Hs.
  assert (RS : forall x, relative (split ++ x)) by (intros x; apply relative_app; [exact SN|apply component_relative; exact Hs]).
  assert (CG : component (lit "groundTruth")) by (split; [discriminate|vm_compute; intuition discriminate]).
  assert (G : forall i, bsds_gt_path root (split ++ lit "/" ++ i) = gt i).
  { intros i. unfold bsds_gt_path, gt. rewrite (join_directory root) by (auto; apply component_relative; exact CG).
    rewrite join_directory; [rewrite <- !app_assoc; reflexivity|apply directory_join, component_directory; exact CG|rewrite <- !app_assoc; apply RS]. }
  assert (F : forall i, In i ids -> bsds_pred_path pred split (split ++ lit "/" ++ i) no_split_dir = mf i).
  { intros i I. destruct (Hi i I) as (R & N & O). unfold bsds_pred_path, mf. destruct no_split_dir.
    - rewrite (app_assoc split (lit "/") i). rewrite remove_front; [|destruct split; discriminate|exact O].
      rewrite join_directory; [reflexivity|exact Hp|apply relative_app; assumption].
    - rewrite join_directory; [rewrite <- !app_assoc; reflexivity|exact Hp|rewrite <- !app_assoc; apply RS]. }
  clear Hi. induction ids as [|i ids IH]; [reflexivity|]. cbn [map bsds_samples forallb]. rewrite G, (F i (or_introl eq_refl)).
  destruct (there (gt i) && there (mf i)); cbn [negb andb]; [|reflexivity]. rewrite IH by (intros j J; apply F; right; exact J).
  match goal with |- context [if ?b then _ else _] => destruct b end; reflexivity.
Qed.
(** With [no_split_dir], names that contain the split twice lose it twice, and different samples can
    then read the same prediction. *)
Theorem no_split_dir_can_merge_samples_refuted : exists there root pred split n n' s s' g g' f,
  n <> n' /\ bsds_samples there root pred split true [n; n'] = Ok [(s, g, f); (s', g', f)].
Proof.
  exists (fun _ => true), (lit "data"), (lit "out"), (lit "test"), (lit "test/a"), (lit "test/test/a"). repeat eexists. discriminate.
Qed.
(** *** C49, theorem 8: the samples found in the directory of a split: the .mat files (in the order of
    the directory listing), nothing else. *)
Theorem bsds_mat_files_are_found split base a b : directory split -> component base -> (exists c, In c base /\ c <> "."%char) ->
  bsds_names split (a ++ [base ++ lit ".mat"] ++ b) = bsds_names split a ++ [split ++ lit "/" ++ base] ++ bsds_names split b.
Proof.
  intros Hs (Hn & Hb) Hd. unfold bsds_names. rewrite !flat_map_app. f_equal. f_equal. cbn [flat_map]. rewrite app_nil_r.
  rewrite basename_component.
  2:{ intros I. apply in_app_or in I. destruct I as [I|I]; [exact (Hb I)|revert I; vm_compute; intuition discriminate]. }
  change (base ++ lit ".mat") with ([] ++ base ++ "."%char :: lit "mat"). rewrite (splitext_spec [] base (lit "mat")); [|left; reflexivity|exact Hb|exact Hd|vm_compute; intuition discriminate|vm_compute; intuition discriminate].
  replace (text_eqb (lower_text ("."%char :: lit "mat")) (lit ".mat")) with true by reflexivity.
  rewrite join_directory; [reflexivity|exact Hs|apply component_relative; split; [|exact Hb]]. cbn [app]. exact Hn.
Qed.
Theorem only_mat_files_are_found split entries n : (forall fn, In fn entries -> component fn) -> In n (bsds_names split entries) ->
  exists base ext, In (base ++ ext) entries /\ lower_text ext = lit ".mat" /\ SpecPaths.inside split base n.
Proof.
  intros S I. unfold bsds_names in I. apply in_flat_map in I. destruct I as (fn & F & I).
  assert (Nf : ~ In slash fn) by apply (S fn F).
  rewrite basename_component in I by exact Nf. destruct (splitext fn) as [base ext] eqn:E. destruct (text_eqb (lower_text ext) (lit ".mat")) eqn:T; [|destruct I].
  destruct I as [<-|[]]. exists base, ext. assert (A := splitext_app fn). rewrite E in A. cbn [fst snd] in A. rewrite A. split; [exact F|]. split; [apply text_eqb_spec; exact T|].
  apply join_inside. destruct base as [|c base]; [exact Logic.I|]. intros ->. apply Nf. rewrite <- A. left. reflexivity.
Qed.
(** A ground truth file with an upper case extension is listed, but then looked up with ".mat". *)
Example upper_case_mat : bsds_names (lit "test") [lit "100007.MAT"; lit "notes.txt"; lit "2018.mat"] = [lit "test/100007"; lit "test/2018"]
  /\ bsds_samples (text_eqb (lit "data/groundTruth/test/100007.MAT")) (lit "data") (lit "out") (lit "test") false [lit "test/100007"] = Err AssertionError.
Proof. split; reflexivity. Qed.

(** ** The hypotheses are met *)
Definition demo_params : eparams := mkEP 1 true false (35 # 10000) (Some false) (Some true) None.
Example ex_directories : directory (lit "/data/cityscapes") /\ directory_used [] (lit "gtEval") /\ suffix_used City None (lit "_leftImg8bit.png") /\ component (lit "val")
  /\ relative (lit "frankfurt/frankfurt_000000_000294").
Proof.
  split; [split; [discriminate|]|split; [right; split; reflexivity|split; [right; split; reflexivity|split; [split; [discriminate|vm_compute; intuition discriminate]|discriminate]]]].
  intros d E. assert (X := f_equal (fun t => nth 0 (rev t) "x"%char) E). cbv beta in X. rewrite rev_app_distr in X. discriminate X.
Qed.
Example ex_samples : build_samples (fun _ => true) (Ok demo_params) City (mkPlace (lit "/data/city") (lit "out") (lit "val") true [] None) true 14 [lit "frankfurt/f_0_1"]
  = Ok [mkSample (lit "frankfurt/f_0_1")
          (EdgeSeg (lit "/data/city/gtEval/val/frankfurt/f_0_1_gtProc_thin_isedge.png") (lit "/data/city/gtEval/val/frankfurt/f_0_1_gtFine_labelTrainIds.png"))
          (lit "out/class_014/frankfurt/f_0_1_leftImg8bit.png")].
Proof. reflexivity. Qed.
Print Assumptions samples_and_their_files.
Print Assumptions prediction_files_are_distinct.
Print Assumptions absolute_names_ignore_the_category.
Print Assumptions missing_ground_truth_is_reported.
Print Assumptions missing_prediction_means_no_result.
Print Assumptions only_the_listed_files_matter.
Print Assumptions one_row_per_sample.
Print Assumptions first_missing_prediction.
Print Assumptions bsds_samples_and_their_files.
Print Assumptions no_split_dir_can_merge_samples_refuted.
Print Assumptions bsds_mat_files_are_found.
Print Assumptions only_mat_files_are_found.
