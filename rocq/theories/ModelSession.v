(** Whole evaluation runs, from the command line and the files to the result files:
    pyEdgeEval/helpers/evaluate_{bsds500,sbd,cityscapes}.py and pyEdgeEval/evaluators.

    Simplifications (also in DESIGN.md): see ModelSamples.v for the files read; the log file and what is
    printed are not modelled; how the tables are drawn in results.txt is a parameter; creating directories always succeeds;
    text files are kept apart from directories, images and MATLAB files, so that writing results never
    destroys an input; the output directory is given (by default the helpers derive it from the clock). *)
From Verif Require Export ModelSamples ModelCLI ModelUtils.
Open Scope Z_scope.
Open Scope list_scope.

(** The machine before the run: its directories with what [os.listdir] returns, its MATLAB files (a file is
    the list of its boundary maps), images and texts. *)
Record machine := mkMachine {
  m_dirs : text -> option (list text); m_mats : text -> option (list (image Z)); m_images : disk; m_texts : fs }.
Definition is_some {A} (o : option A) : bool := match o with Some _ => true | None => false end.
(** [osp.exists]. *)
Definition path_exists (m : machine) (p : text) : bool :=
  is_some (m_dirs m p) || is_some (m_mats m p) || is_some (m_images m p) || is_some (m_texts m p).
(** A computation that also writes text files; it keeps them when an exception is raised. *)
Definition session (A : Type) : Type := fs -> stream -> res (option (A * stream)) * fs.
(** [if save_dir]. *)
Definition save_to (out : text) : option text := if nonempty out then Some out else None.
(** The parsed thresholds as the argument of [check_thresholds]; infinities and NaN are not modelled
    (no result). *)
Fixpoint finite (l : list pyfloat) : option (list Q) :=
  match l with
  | [] => Some []
  | Fin q :: l => option_map (cons q) (finite l)
  | _ :: _ => None
  end.
Definition arg_of (t : cli_th) : option tharg :=
  match t with TInt n => Some (AInt n) | TList l => option_map (fun qs => AList (map INum qs)) (finite l) end.

(** What the operating system decides in one parallel loop over samples (see [workers]). *)
Record plan := mkPlan { pl_taker : nat -> nat; pl_finished : list nat }.
Definition by_plan (nproc : Z) (pl : plan) : workers := mkWorkers nproc (pl_taker pl) (pl_finished pl).

Section Run.
Variables (fuel pfuel : nat) (lib : libm) (m : machine).

(** ** BSDS *)
(** bsds.py:23-73: the constructor; the value is [_sample_names] (exceptions of [set_sample_names] are
    swallowed). *)
Definition bsds_init (root split : text) : res (option (list text)) :=
  if text_eqb split (lit "val") || text_eqb split (lit "test")
  then Ok (snd (set_sample_names (option_map (bsds_names split) (m_dirs m (path_join (path_join root (lit "groundTruth")) split))) None None))
  else Err AssertionError.
(** datasets/bsds.py:16-78 on one entry of [data]. *)
Definition bsds_eval_sample (thr : tharg) (e : eparams) (s : text * text * text) : run counts := fun r =>
  let '(_, gt_path, pred_path) := s in
  bind (check_thresholds thr) (fun _ =>
  bind (open_gray (m_images m) pred_path) (fun pred =>
  bind (match m_mats m gt_path with Some gts => Ok gts | None => Err FileNotFoundError end) (fun gts =>
    bsds_eval_single fuel pfuel lib gts pred (e_dist e) thr (e_thinning e) (e_nms e) r))).
(** bsds.py:118-148: the list [data] and the parameters; [eval_params] is first read after the files of the
    first sample were found. *)
Definition bsds_prepare (root pred split : text) (no_split_dir : bool) (names : list text) (a : attrs) : res (list (text * text * text) * eparams) :=
  match names with
  | [] => Err AssertionError
  | n :: _ =>
    bind (bsds_samples (path_exists m) root pred split no_split_dir [n]) (fun _ =>
    bind (eval_params BSDS false a) (fun e =>
    bind (bsds_samples (path_exists m) root pred split no_split_dir names) (fun data => Ok (data, e))))
  end.
(** bsds.py:99-185 [evaluate] (lines 99-106: [_before_evaluation]; looping over [None] is a TypeError). *)
Definition bsds_evaluate (w : workers) (root pred split : text) (names : option (list text)) (a : attrs) (thr : tharg) (save_dir : option text) (no_split_dir : bool) : session overall := fun f r =>
  if negb (path_exists m root && path_exists m (path_join root (lit "groundTruth")) && path_exists m pred) then (Err AssertionError, f)
  else match names with
  | None => (Err TypeError, f)
  | Some names =>
    match bsds_prepare root pred split no_split_dir names a with
    | Err e => (Err e, f)
    | Ok (data, e) =>
      match then_ (each w (bsds_eval_sample thr e) data) (fun metrics => fun r =>
              bind (summarise thr (combine (map (fun s => name_string (fst (fst s))) data) metrics)) (fun c => Ok (Some (c, r)))) r with
      | Err e => (Err e, f)
      | Ok None => (Ok None, f)
      | Ok (Some ((rows, ths, o), r)) =>
        (Ok (Some (o, r)), match save_dir with Some d => save_results d rows ths (Some o) f | None => f end)
      end
    end
  end.
(** evaluate_bsds500.py:68-176; the value is [None] when the script only prints a message. *)
Definition bsds_script (pl : plan) (root pred out : text) (use_val no_split_dir : bool) (o : options) : session (option overall) := fun f r =>
  match cli_bsds o with
  | Err e => (Err e, f)
  | Ok Printed => (Ok (Some (None, r)), f)
  | Ok (Parsed j) =>
    match arg_of (j_ths j) with
    | None => (Ok None, f)
    | Some thr =>
      let split := if use_val then lit "val" else lit "test" in
      match bsds_init root split with
      | Err e => (Err e, f)
      | Ok names =>
        match set_eval_params (j_kind j) (j_call j) fresh with
        | (Err e, _) => (Err e, f)
        | (Ok _, a) =>
          match bsds_evaluate (by_plan (j_nproc j) pl) root pred split names a thr (save_to out) no_split_dir f r with
          | (Err e, f) => (Err e, f)
          | (Ok None, f) => (Ok None, f)
          | (Ok (Some (o, r)), f) => (Ok (Some (Some o, r)), f)
          end
        end
      end
    end
  end.

(** ** The evaluators with categories *)
(** cityscapes.py:213-229, sbd.py:194-206: the directories that have to exist. *)
Definition roots_ok (k : kind) (p : place_of) : bool :=
  path_exists m (p_root p) && path_exists m (gtEval_root k p) &&
  (match k with SBD | Reanno => true | _ => path_exists m (gtFine_root p) end) && path_exists m (p_pred p).
(** cityscapes.py:231-312 and its copies, with the saving. *)
Definition evaluate_category_session (w : workers) (k : kind) (p : place_of) (names : option (list text)) (a : attrs) (thr : tharg) (save_dir : option text) (category : Z) : session overall := fun f r =>
  match evaluate_category_run fuel pfuel lib w (m_images m) k p (roots_ok k p) names a thr category r with
  | Err e => (Err e, f)
  | Ok None => (Ok None, f)
  | Ok (Some ((rows, ths, o), r)) =>
    (Ok (Some (o, r)), match save_dir with Some d => save_category_results d category rows ths (Some o) f | None => f end)
  end.
(** base.py:108-121: the loop over the categories; [one] also gets the number of categories left, which tells the
    parallel loops of a run apart. *)
Fixpoint categories_session (one : nat -> Z -> session overall) (cats : list Z) : session (list overall) := fun f r =>
  match cats with
  | [] => (Ok (Some ([], r)), f)
  | c :: cats =>
    match one (List.length cats) c f r with
    | (Err e, f) => (Err e, f)
    | (Ok None, f) => (Ok None, f)
    | (Ok (Some (o, r)), f) =>
      match categories_session one cats f r with
      | (Ok (Some (os, r)), f) => (Ok (Some (o :: os, r)), f)
      | other => other
      end
    end
  end.
(** [PrettyTable.get_string] for the two tables: external, any function of the cells. *)
Record printer := mkPrinter { show_classes : list (Z * Q * Q * Q * Q) -> text; show_summary : list Q -> text }.
(** base.py:174-177: the columns of the summary table: [ODS_recall], [ODS_precision], [ODS_f1] and [AUC]. *)
Definition summary_columns (l : list Q) : list Q := firstn 3 l ++ [nth 6 l 0%Q].
(** common/multi_label/io.py:65-80 [save_pretty_metrics]. *)
Definition save_pretty_metrics (root class_table summary_table : text) (f : fs) : fs :=
  write (path_join root (lit "results.txt")) (lit "Per Class Results:" ++ [LF] ++ class_table ++ [LF] ++ lit "Summary:" ++ [LF] ++ summary_table) f.
Section Tables.
Variable pp : printer.
(** base.py:76-188: as [ModelEvaluator.evaluate], with the computation of the categories filled in and the formatted tables saved. *)
Definition evaluate_session (nproc : Z) (pls : nat -> plan) (k : kind) (p : place_of) (names : option (list text)) (a : attrs) (thr : tharg) (save_dir : option text) (arg : cat_arg)
    : session (list (Z * Q * Q * Q * Q) * list Q) := fun f r =>
  match ready k (p_thin p) names (roots_ok k p) a with
  | Err e => (Err e, f)
  | Ok _ =>
    match categories_of (n_classes_of k) arg with
    | Err e => (Err e, f)
    | Ok cats =>
      match categories_session (fun n => evaluate_category_session (by_plan nproc (pls n)) k p names a thr save_dir) cats f r with
      | (Err e, f) => (Err e, f)
      | (Ok None, f) => (Ok None, f)
      | (Ok (Some (l, r)), f) =>
        let t := (class_rows cats l, summary l) in
        (Ok (Some (t, r)),
         match save_dir with
         | Some d => save_pretty_metrics d (show_classes pp (fst t)) (show_summary pp (summary_columns (snd t)))
                       (save_overall_metric d (mean_overall (round_to 6) l) (lit "overall_eval_bdry.txt") f)
         | None => f
         end)
      end
    end
  end.
(** cityscapes.py:116-131, sbd.py:112-125: the names in the split file. *)
Definition split_file (k : kind) (root split : text) : text :=
  match k with SBD | Reanno => path_join root (split ++ lit ".txt") | _ => path_join root (lit "splits/" ++ split ++ lit ".txt") end.
Definition names_found (k : kind) (root split : text) : option (list text) := option_map read_split (m_texts m (split_file k root split)).
(** evaluate_sbd.py:84-214, evaluate_cityscapes.py:111-252: the split is the default "val", if the
    constructor found no names, [set_sample_names] is called again, now with its exceptions. *)
Definition script (pls : nat -> plan) (parse : options -> res (cli job)) (root pred gt_dir out : text) (o : options) : session (option (list (Z * Q * Q * Q * Q) * list Q)) := fun f r =>
  match parse o with
  | Err e => (Err e, f)
  | Ok Printed => (Ok (Some (None, r)), f)
  | Ok (Parsed j) =>
    match arg_of (j_ths j) with
    | None => (Ok None, f)
    | Some thr =>
      let k := j_kind j in
      let p := mkPlace root pred (lit "val") (j_thin j) gt_dir None in
      match snd (set_sample_names (names_found k root (lit "val")) None None) with
      | None => (match fst (set_sample_names (names_found k root (lit "val")) None None) with Err e => Err e | Ok _ => Err AssertionError end, f)
      | Some names =>
        match set_eval_params k (j_call j) fresh with
        | (Err e, _) => (Err e, f)
        | (Ok _, a) =>
          match evaluate_session (j_nproc j) pls k p (Some names) a thr (save_to out) (match j_cats j with Some l => CList l | None => CNone end) f r with
          | (Err e, f) => (Err e, f)
          | (Ok None, f) => (Ok None, f)
          | (Ok (Some (t, r)), f) => (Ok (Some (Some t, r)), f)
          end
        end
      end
    end
  end.
(** evaluate_sbd.py:84-230: [--pred-suffix] is logged but not passed on. *)
Definition sbd_script (pls : nat -> plan) (root pred pred_suffix gt_dir out : text) (o : options) := script pls cli_sbd root pred gt_dir out o.
End Tables.
End Run.
