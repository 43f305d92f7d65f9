(** From file names to results: the list of samples built by the evaluators
    (pyEdgeEval/evaluators/{bsds,sbd,cityscapes,half_cityscapes,otf_cityscapes}.py), reading the files
    (pyEdgeEval/datasets) and [calculate_metrics] over them, in one process or several.

    Simplifications (also in DESIGN.md): see ModelConvert.v for image files; a MATLAB file is the list of
    its boundary maps; [os.path.exists] is "there is such a file". *)
From Verif Require Export ModelConvert.
Open Scope Z_scope.
Open Scope list_scope.

(** ** The evaluator object *)
(** The constructor arguments (cityscapes.py:58-104, sbd.py:55-100); [None]/empty: use the default. *)
Record place_of := mkPlace { p_root : text; p_pred : text; p_split : text; p_thin : bool; p_gt_dir : text; p_pred_suffix : option text }.
(** cityscapes.py:84-86, sbd.py:83-85: [if gt_dir]. *)
Definition gt_dir_of (p : place_of) : text := if nonempty (p_gt_dir p) then p_gt_dir p else lit "gtEval".
(** cityscapes.py:87-91, sbd.py:86-96 (SBD also accepts an empty suffix). *)
Definition pred_suffix_of (k : kind) (p : place_of) : text :=
  let default := match k with City | Half | OTF => lit "_leftImg8bit.png" | _ => lit ".png" end in
  match p_pred_suffix p with
  | None => default
  | Some s => if nonempty s then s else match k with SBD | Reanno => s | _ => default end
  end.
(** cityscapes.py:94-97, sbd.py:91: [gtEval_root] and [gtFine_root] (SBD has no split directory). *)
Definition gtEval_root (k : kind) (p : place_of) : text :=
  match k with
  | SBD | Reanno => path_join (p_root p) (gt_dir_of p)
  | _ => path_join (path_join (p_root p) (gt_dir_of p)) (p_split p)
  end.
Definition gtFine_root (p : place_of) : text := path_join (path_join (p_root p) (lit "gtFine")) (p_split p).
(** sbd.py:52, cityscapes.py:55, otf_cityscapes.py:32. *)
Definition seg_suffix (k : kind) : text :=
  match k with SBD | Reanno => lit "_labelIds.png" | OTF => lit "_gtFine_labelIds.png" | _ => lit "_gtFine_labelTrainIds.png" end.
(** cityscapes.py:243, 264-269 and its copies. *)
Definition pred_path (k : kind) (p : place_of) (category : Z) (name : text) : text :=
  path_join (path_join (p_pred p) (lit "class_" ++ str_zfill 3 category)) (name ++ pred_suffix_of k p).

(** ** The sample list *)
Inductive gt_files := EdgeSeg (edge seg : text) | SegInst (seg : text) (inst : option text).
Record sample := mkSample { sm_name : text; sm_gt : gt_files; sm_pred : text }.
(** cityscapes.py:246-261, sbd.py:222-239, otf_cityscapes.py:76-89: the ground truth files of a sample, and
    the order in which their existence is asserted. *)
Definition gt_of (k : kind) (p : place_of) (inst : bool) (name : text) : gt_files :=
  match k with
  | OTF => SegInst (path_join (gtFine_root p) (name ++ lit "_gtFine_labelIds.png"))
                   (if inst then Some (path_join (gtFine_root p) (name ++ lit "_gtFine_instanceIds.png")) else None)
  | _ => EdgeSeg (path_join (gtEval_root k p) (name ++ edge_suffix k (p_thin p) inst))
                 (path_join (gtEval_root k p) (name ++ seg_suffix k))
  end.
Definition gt_paths (g : gt_files) : list text :=
  match g with EdgeSeg e s => [e; s] | SegInst s i => s :: match i with Some i => [i] | None => [] end end.
(** cityscapes.py:240-283: the list [data]; [e] is the dictionary [self.eval_params] (or the AttributeError
    raised by reading it). *)
Fixpoint build_samples (there : text -> bool) (e : res eparams) (k : kind) (p : place_of) (inst : bool) (category : Z) (names : list text) : res (list sample) :=
  match names with
  | [] => Ok []
  | n :: names =>
    let g := gt_of k p inst n in
    if negb (forallb there (gt_paths g)) then Err AssertionError
    else bind e (fun _ => bind (build_samples there e k p inst category names) (fun l => Ok (mkSample n g (pred_path k p category n) :: l)))
  end.

(** ** Several processes *)
(** [nproc] and what the operating system decides: which worker takes each sample (the queue is first in,
    first out, so a worker takes its samples in their order) and in which order they are finished. *)
Record workers := mkWorkers { w_nproc : Z; w_taker : nat -> nat; w_finished : list nat }.
(** The outcomes of the samples from number [i] on; [state]: the random generator of each worker, a copy made
    by fork (Random.cc:28 is a global).  The state after an exception is not modelled: what is computed after
    it is never looked at. *)
Fixpoint outcomes {A B} (task : A -> run B) (taker : nat -> nat) (i : nat) (l : list A) (state : nat -> stream) : list (res (option B)) :=
  match l with
  | [] => []
  | a :: l =>
    let w := taker i in
    match task a (state w) with
    | Ok (Some (b, s)) => Ok (Some b) :: outcomes task taker (S i) l (fun v => if Nat.eqb v w then s else state v)
    | Ok None => Ok None :: outcomes task taker (S i) l state
    | Err e => Err e :: outcomes task taker (S i) l state
    end
  end.
(** The parent waits for the results one by one; the first exception is raised. *)
Fixpoint gather {B} (l : list (res (option B))) : res (option (list B)) :=
  match l with
  | [] => Ok (Some [])
  | Err e :: _ => Err e
  | Ok None :: _ => Ok None
  | Ok (Some b) :: l => bind (gather l) (fun o => Ok (option_map (cons b) o))
  end.
(** progressbar.py:129-204 with [chunksize] = 1 and [keep_order] (see ModelProgress.v for the pool and the
    progress bar); the generator of the parent is not used. *)
Definition pooled {A B} (taker : nat -> nat) (finished : list nat) (task : A -> run B) (l : list A) : run (list B) := fun s =>
  bind (gather (deliver true finished (outcomes task taker 0 l (fun _ => s)))) (fun o => Ok (option_map (fun bs => (bs, s)) o)).
(** calculate_metrics.py:36-48. *)
Definition each {A B} (w : workers) (task : A -> run B) (l : list A) : run (list B) :=
  if 1 <? w_nproc w then pooled (w_taker w) (w_finished w) task l else forM task l.

(** ** One sample *)
Section Solver.
Variables fuel pfuel : nat.
(** datasets/cityscapes.py:13-78, datasets/sbd.py:15-85, datasets/otf_cityscapes.py:122-225, with the
    files read from the disk.  [num_classes] is the number of classes of the evaluator. *)
Definition eval_sample (lib : libm) (d : disk) (k : kind) (num_classes : Z) (category : Z) (thr : tharg) (e : eparams) (s : sample) : run counts := fun r =>
  let kill := match e_kill e with Some b => b | None => false end in
  let skip := match e_skip e with Some b => b | None => false end in
  match sm_gt s with
  | EdgeSeg edge seg =>
    bind (check_thresholds thr) (fun _ =>
    bind (open_colour d edge) (fun edge =>
    bind (open_gray d (sm_pred s)) (fun pred =>
    bind (if kill then open_gray d seg else Ok pred) (fun seg => (* not read unless needed *)
      evaluate_single_png fuel pfuel lib (match k with SBD | Reanno => true | _ => false end) edge seg pred category
        (e_scale e) (e_dist e) thr (e_thinning e) (e_nms e) kill skip num_classes r))))
  | SegInst seg inst =>
    bind (check_thresholds thr) (fun _ =>
    bind (trainId2label (category - 1)) (fun _ =>
    bind (open_gray d seg) (fun seg =>
    bind (open_gray d (sm_pred s)) (fun pred =>
    bind (match inst with Some i => bind (open_gray d i) (fun i => Ok (Some i)) | None => Ok None end) (fun inst =>
      otf_eval_single fuel pfuel lib seg inst pred category (e_scale e) (e_dist e) thr (e_thinning e) (e_nms e) kill skip
        (match e_radius e with Some r => r | None => 0 end) r)))))
  end.

(** ** One category *)
Definition n_classes_of (k : kind) : nat := match k with SBD | Reanno => 20 | BSDS => 0 | _ => 19 end.
(** cityscapes.py:231-312 [evaluate_category] (and its copies) up to the saving of the results; [roots]: the
    directories exist.  The name of a sample is kept as a string in the result rows. *)
Definition name_string (t : text) : string := String.string_of_list_ascii t.
Definition evaluate_category_run (lib : libm) (w : workers) (d : disk) (k : kind) (p : place_of) (roots : bool) (names : option (list text)) (a : attrs)
    (thr : tharg) (category : Z) : run cat_result := fun r =>
  match names with
  | None => Err AssertionError
  | Some names =>
    if negb roots then Err AssertionError
    else if negb ((0 <? category) && (category <? Z.of_nat (n_classes_of k) + 1)) then Err AssertionError
    else
      bind (match names with [] => Ok false | _ => getattr (a_inst a) end) (fun inst =>
      let e := eval_params k (p_thin p) a in
      bind (build_samples (on_disk d) e k p inst category names) (fun samples =>
        match samples with
        | [] => Err AssertionError
        | _ =>
          bind e (fun e =>
            then_ (each w (eval_sample lib d k (Z.of_nat (n_classes_of k)) category thr e) samples) (fun metrics =>
              fun r => bind (summarise thr (combine (map (fun s => name_string (sm_name s)) samples) metrics)) (fun c => Ok (Some (c, r)))) r)
        end))
  end.
End Solver.

(** ** BSDS *)
(** bsds.py:60-68: the names found in the directory of a split, given its entries. *)
Definition bsds_names (split : text) (entries : list text) : list text :=
  flat_map (fun fn => let '(name, ext) := splitext (basename fn) in
                      if text_eqb (lower_text ext) (lit ".mat") then [path_join split name] else []) entries.
(** bsds.py:112-125: the two files of a sample; [no_split_dir] removes "split/" everywhere in the name. *)
Definition bsds_gt_path (root name : text) : text := path_join (path_join root (lit "groundTruth")) (name ++ lit ".mat").
Definition bsds_pred_path (pred split name : text) (no_split_dir : bool) : text :=
  path_join pred ((if no_split_dir then str_remove name (split ++ lit "/") else name) ++ lit ".png").
(** bsds.py:108-139: the list [data] as (name, ground truth file, prediction file). *)
Fixpoint bsds_samples (there : text -> bool) (root pred split : text) (no_split_dir : bool) (names : list text) : res (list (text * text * text)) :=
  match names with
  | [] => Ok []
  | n :: names =>
    let g := bsds_gt_path root n in let f := bsds_pred_path pred split n no_split_dir in
    if negb (there g && there f) then Err AssertionError
    else bind (bsds_samples there root pred split no_split_dir names) (fun l => Ok ((n, g, f) :: l))
  end.
