(** What a whole evaluation run leaves on the disk. *)
From Verif Require Export SpecCategory SpecResults SpecCLI SpecUtils ModelSession.
Open Scope Z_scope.
Open Scope list_scope.

(** As [delivers] of SpecEval.v, for a computation that also writes text files. *)
Definition session_delivers {A} (m : nat -> nat -> session A) (f : fs) (s : stream) (post : A -> fs -> Prop) : Prop :=
  (forall fuel pfuel, exists r f', m fuel pfuel f s = (Ok r, f') /\ forall a s', r = Some (a, s') -> raw_values s' /\ post a f') /\
  (exists F P a s' f', forall fuel pfuel, (F <= fuel)%nat -> (P <= pfuel)%nat -> m fuel pfuel f s = (Ok (Some (a, s')), f')).

(** ** Result files *)
Definition in_dir (dir name : text) : text := dir ++ lit "/" ++ name.
(** A row of cells shows numbers, each within half a unit in the sixth decimal. *)
Definition shows_numbers (l : list Q) (row : list text) : Prop := Forall2 shows l row.
(** The nine numbers of a result. *)
Definition nine (o : overall) : list Q :=
  [ODS_threshold o; ODS_recall o; ODS_precision o; ODS_f1 o; OIS_recall o; OIS_precision o; OIS_f1 o; AUC o; AP o].
(** The file contains a single row with these numbers. *)
Definition single_row (f : fs) (path : text) (l : list Q) : Prop :=
  exists t row, f path = Some t /\ table t = [row] /\ shows_numbers l row.
(** The three files of a result in directory [dir] (the sample file can be read if no name has white space). *)
Definition reports (f : fs) (dir : text) (result : list sample_row * list score * overall) : Prop :=
  let '(rows, trs, ov) := result in
  single_row f (in_dir dir (lit "eval_bdry.txt")) (nine ov) /\
  (exists t, f (in_dir dir (lit "eval_bdry_thr.txt")) = Some t /\
     Forall2 (fun sc row => shows_numbers [sc_t sc; sc_r sc; sc_p sc; sc_f sc] row) trs (table t)) /\
  (Forall (fun r => one_word (lit (r_name r))) rows -> exists t, f (in_dir dir (lit "eval_bdry_img.txt")) = Some t /\
     Forall2 (fun r row => exists cells, row = lit (r_name r) :: cells /\ shows_numbers [r_thr r; r_rec r; r_prec r; r_f1 r] cells) rows (table t)).
Definition result_files (dir : text) : list text := map (in_dir dir) [lit "eval_bdry.txt"; lit "eval_bdry_thr.txt"; lit "eval_bdry_img.txt"].
(** Only these files may have changed. *)
Definition only_writes (paths : list text) (f f' : fs) : Prop := forall q, ~ In q paths -> f' q = f q.

(** ** The command line *)
(** The thresholds denoted by the option: an integer, or a bracketed list of finite numbers. *)
Definition thresholds_given (t : text) (thr : tharg) : Prop :=
  (exists n, int_numeral t n /\ thr = AInt n) \/
  (exists items qs, list_text t items /\ Forall2 (fun i q => py_float i = Ok (Fin q)) items qs /\ thr = AList (map INum qs)).

(** ** BSDS *)
(** [entries] of a directory and, in the same order, the [ids] of its files [id].mat: every other entry is no
    .mat file, whatever the case of the extension (names that consist of leading dots have no extension). *)
Inductive mat_ids : list text -> list text -> Prop :=
| mi_nil : mat_ids [] []
| mi_mat i es ids : component i -> (exists c, In c i /\ c <> "."%char) -> mat_ids es ids -> mat_ids ((i ++ lit ".mat") :: es) (i :: ids)
| mi_other e es ids : component e -> (forall b x, e = b ++ x -> lower_text x = lit ".mat" -> Forall (fun c => c = "."%char) b) ->
    mat_ids es ids -> mat_ids (e :: es) ids.
Definition bsds_split (use_val : bool) : text := if use_val then lit "val" else lit "test".
(** The files of a sample. *)
Definition bsds_truth (root : text) (use_val : bool) (i : text) : text := root ++ lit "/groundTruth/" ++ bsds_split use_val ++ lit "/" ++ i ++ lit ".mat".
Definition bsds_guess (pred : text) (use_val no_split_dir : bool) (i : text) : text :=
  pred ++ lit "/" ++ (if no_split_dir then [] else bsds_split use_val ++ lit "/") ++ i ++ lit ".png".
Definition bsds_sample (m : machine) (root pred : text) (use_val no_split_dir : bool) (i : text) (gts : list (image Z)) (p : image Z) : Prop :=
  m_mats m (bsds_truth root use_val i) = Some gts /\ m_images m (bsds_guess pred use_val no_split_dir i) = Some (Gray p).
Definition bsds_usable (nms : bool) (gts : list (image Z)) (p : image Z) : Prop :=
  wf p /\ (0 < ht p)%nat /\ (0 < wd p)%nat /\ (nms = true -> (2 <= ht p)%nat /\ (2 <= wd p)%nat) /\
  Forall (fun gt => wf gt /\ binary gt /\ same_shape p gt) gts.
(** The counts of one image: per threshold, the strong pixels of the (non-maximum suppressed) prediction,
    thinned if asked, against all annotators. *)
Definition bsds_counts (lib : libm) (thin nms : bool) (max_dist : Q) (th : list Q) (gts : list (image Z)) (p : image Z) (c : counts) : Prop :=
  exists gs q, Forall2 edge_pixels gts gs /\ strengths (l_orient lib) (l_cos lib) (l_sin lib) false nms p q /\
    per_threshold th c (fun t cr sr cp sp => exists b, predicted thin q t b /\ counted_all b gs (tolerance2 max_dist b) cr sr cp sp).

(** ** Several categories *)
Definition class_dir (out : text) (c : Z) : text := out ++ lit "/class_0" ++ [digit (c / 10); digit (c mod 10)].
(** The averages of the nine numbers over the categories. *)
Definition nine_averages (ovs : list overall) (l : list Q) : Prop :=
  Forall2 (fun g a => average (map g ovs) a) [ODS_threshold; ODS_recall; ODS_precision; ODS_f1; OIS_recall; OIS_precision; OIS_f1; AUC; AP] l.
(** The row shown for a category: its number, recall, precision and F1 in percent, the threshold. *)
Definition table_row (co : Z * overall) (row : Z * Q * Q * Q * Q) : Prop :=
  let '(n, r, p, g, t) := row in let (c, o) := co in
  n = c /\ shown 3 (100 * ODS_recall o) r /\ shown 3 (100 * ODS_precision o) p /\ shown 3 (100 * ODS_f1 o) g /\ shown 2 (ODS_threshold o) t.
(** The two tables of an evaluation: a row per category, and the averages in percent. *)
Definition tables (cats : list Z) (ovs : list overall) (t : list (Z * Q * Q * Q * Q) * list Q) : Prop :=
  Forall2 table_row (combine cats ovs) (fst t) /\
  Forall2 (fun g x => forall a, average (map g ovs) a -> shown 3 (100 * a) x) [ODS_recall; ODS_precision; ODS_f1; OIS_recall; OIS_precision; OIS_f1; AUC; AP] (snd t).
(** What is on the disk after the evaluation of these categories with these results: for each category the
    three files of its (last) result, the averages, the two tables as drawn by the table printer; no other text
    file has changed. *)
Definition run_reports (pp : printer) (out : text) (cats : list Z) (results : list (list sample_row * list score * overall))
    (t : list (Z * Q * Q * Q * Q) * list Q) (f f' : fs) : Prop :=
  (forall i c r, nth_error cats i = Some c -> nth_error results i = Some r -> ~ In c (skipn (S i) cats) -> reports f' (class_dir out c) r) /\
  (exists l, nine_averages (map snd results) l /\ single_row f' (in_dir out (lit "overall_eval_bdry.txt")) l) /\
  (exists recall precision f1 ois_recall ois_precision ois_f1 auc ap, snd t = [recall; precision; f1; ois_recall; ois_precision; ois_f1; auc; ap] /\
     f' (in_dir out (lit "results.txt")) = Some (lit "Per Class Results:" ++ [LF] ++ show_classes pp (fst t) ++ [LF] ++ lit "Summary:" ++ [LF] ++ show_summary pp [recall; precision; f1; auc])) /\
  only_writes (in_dir out (lit "overall_eval_bdry.txt") :: in_dir out (lit "results.txt") :: flat_map (fun c => result_files (class_dir out c)) cats) f f'.
(** A text whose lines are these names. *)
Definition lists_names (content : text) (names : list text) : Prop :=
  exists eol, In eol [[LF]; [CR; LF]; [CR]] /\ Forall one_line names /\ content = List.concat (map (fun n => n ++ eol) names).
(** The directories an evaluator with stored ground truth needs. *)
Definition needed_dirs (k : kind) (root gt split pred : text) : list text :=
  root :: pred :: match k with
                  | SBD | Reanno => [in_dir root gt]
                  | _ => [in_dir (in_dir root gt) split; in_dir (in_dir root (lit "gtFine")) split]
                  end.

(** ** Several processes *)
(** In every parallel loop over the [n] samples, each is finished once (in any order, by any worker). *)
Definition every_loop_finishes (n : nat) (nproc : Z) (pls : nat -> plan) : Prop := forall i, all_finished n (by_plan nproc (pls i)).
