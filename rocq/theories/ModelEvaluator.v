(** Evaluator objects: pyEdgeEval/evaluators/{base,bsds,sbd,cityscapes,half_cityscapes,otf_cityscapes}.py. *)
From Verif Require Export ModelResults.
Open Scope Z_scope.
Open Scope list_scope.

(** The evaluator classes. *)
Inductive kind := BSDS | SBD | Reanno | City | Half | OTF.

(** The attributes set by [set_eval_params]; [None]: not yet set. *)
Record attrs := mkAttrs {
  a_scale : option Q; a_thinning : option bool; a_nms : option bool; a_dist : option Q;
  a_kill : option bool; a_skip : option bool; a_inst : option bool }.
Definition fresh : attrs := mkAttrs None None None None None None None.
(** The arguments of one call. *)
Record call := mkCall {
  c_mode : option text; c_scale : Q; c_thinning : bool; c_nms : bool; c_inst : bool; c_dist : Q; c_skip : bool; c_kill : bool }.

Definition pre_seal : text := lit "pre-seal".
Definition post_seal : text := lit "post-seal".
Definition mode_is (m : option text) (t : text) : bool := match m with Some m => text_eqb m t | None => false end.

(** [assert 0 < scale <= 1]. *)
Definition scale_ok (s : Q) : bool := negb (Qle_bool s 0) && Qle_bool s 1.

(** The assignments before the mode is examined: sbd.py:145-147, cityscapes.py:158-160. *)
Definition set_common (c : call) (a : attrs) : attrs :=
  mkAttrs (Some (c_scale c)) (Some (c_thinning c)) (Some (c_nms c)) (a_dist a) (a_kill a) (a_skip a) (a_inst a).
(** half_cityscapes.py:41-43: the same without [scale]. *)
Definition set_common_half (c : call) (a : attrs) : attrs :=
  mkAttrs (a_scale a) (Some (c_thinning c)) (Some (c_nms c)) (a_dist a) (a_kill a) (a_skip a) (a_inst a).
(** The assignments made by the modes. *)
Definition set_mode (dist : Q) (kill skip inst : bool) (a : attrs) : attrs :=
  mkAttrs (a_scale a) (a_thinning a) (a_nms a) (Some dist) (Some kill) (Some skip) (Some inst).

(** A method call: the outcome and the object afterwards (also when an exception is raised). *)
Definition method : Type := attrs -> res unit * attrs.

(** sbd.py:131-180 [SBDEvaluator.set_eval_params]. *)
Definition sbd_set (c : call) : method := fun a =>
  if negb (scale_ok (c_scale c)) then (Err AssertionError, a)
  else
    let a := set_common c a in
    if mode_is (c_mode c) pre_seal then (Ok tt, set_mode (2 # 100) true true false a)
    else if mode_is (c_mode c) post_seal then
      (Ok tt, if c_inst c then set_mode (2 # 100) false false true a else set_mode (2 # 100) true true false a)
    else (Ok tt, set_mode (c_dist c) (c_kill c) (c_skip c) (c_inst c) a).
(** sbd.py:354-381 [ReannoSBDEvaluator.set_eval_params]. *)
Definition reanno_set (c : call) : method := fun a =>
  if negb (scale_ok (c_scale c)) then (Err AssertionError, a)
  else (Ok tt, set_mode (c_dist c) false false (c_inst c) (set_common c a)).
(** cityscapes.py:162-193, also half_cityscapes.py:45-76: the mode dependent part. *)
Definition city_mode (c : call) : method := fun a =>
  if mode_is (c_mode c) pre_seal then
    if c_inst c then (Err AssertionError, a) else (Ok tt, set_mode (2 # 100) true true false a)
  else if mode_is (c_mode c) post_seal then
    (Ok tt, if c_inst c then set_mode (c_dist c) false false true a else set_mode (c_dist c) true true false a)
  else (Ok tt, set_mode (c_dist c) (c_kill c) (c_skip c) (c_inst c) a).
(** cityscapes.py:144-199 [CityscapesEvaluator.set_eval_params] (inherited by the on-the-fly evaluator). *)
Definition city_set (c : call) : method := fun a =>
  if negb (scale_ok (c_scale c)) then (Err AssertionError, a) else city_mode c (set_common c a).
(** half_cityscapes.py:30-82 [HalfCityscapesEvaluator.set_eval_params]: [scale] is swallowed by **kwargs. *)
Definition half_set (c : call) : method := fun a => city_mode c (set_common_half c a).
(** bsds.py:75-88 [BSDS500Evaluator.set_eval_params]. *)
Definition bsds_set (c : call) : method := fun a =>
  if negb (scale_ok (c_scale c)) then (Err AssertionError, a)
  else (Ok tt, mkAttrs (Some (c_scale c)) (Some (c_thinning c)) (Some (c_nms c)) (Some (c_dist c)) (a_kill a) (a_skip a) (a_inst a)).
Definition set_eval_params (k : kind) : call -> method :=
  match k with BSDS => bsds_set | SBD => sbd_set | Reanno => reanno_set | City => city_set | Half => half_set | OTF => city_set end.

(** A history of calls whose exceptions are caught by the caller. *)
Definition after (k : kind) (h : list call) (a : attrs) : attrs := fold_left (fun a c => snd (set_eval_params k c a)) h a.

(** Reading an attribute that was never set. *)
Definition getattr {A} (o : option A) : res A := match o with Some a => Ok a | None => Err AttributeError end.
(** The dictionary [eval_params]: sbd.py:182-192, cityscapes.py:201-211, half_cityscapes.py:84-94,
    otf_cityscapes.py:34-54, bsds.py:90-97.  The entries [kill_internal] and [skip_if_nonexistent] are
    absent for BSDS ([None]); [radius] is only present on the fly. *)
Record eparams := mkEP { e_scale : Q; e_thinning : bool; e_nms : bool; e_dist : Q; e_kill : option bool; e_skip : option bool; e_radius : option Z }.
Definition eval_params (k : kind) (thin : bool) (a : attrs) : res eparams :=
  bind (match k with Half => Ok 1%Q | _ => getattr (a_scale a) end) (fun s =>
  bind (getattr (a_thinning a)) (fun t => bind (getattr (a_nms a)) (fun n => bind (getattr (a_dist a)) (fun d =>
  match k with
  | BSDS => Ok (mkEP s t n d None None None)
  | _ => bind (getattr (a_kill a)) (fun ki => bind (getattr (a_skip a)) (fun sk =>
           Ok (mkEP s t n d (Some ki) (Some sk) (match k with OTF => Some (if thin then 1 else 2) | _ => None end))))
  end)))).

(** ** Sample names *)
(** bsds.py:48-73, sbd.py:112-129, cityscapes.py:114-135 [set_sample_names], given what is found on
    disk when no list is passed ([None]: the split file or directory is missing).  The result is the
    outcome and the new value of [_sample_names]. *)
Definition set_sample_names (found : option (list text)) (arg : option (list text)) (old : option (list text)) : res unit * option (list text) :=
  match match arg with Some l => Some l | None => found end with
  | None => (Err AssertionError, old)
  | Some [] => (Err AssertionError, old)
  | Some l => (Ok tt, Some l)
  end.

(** ** File names *)
(** sbd.py:45-53,289-295; cityscapes.py:48-56; half_cityscapes.py:24-28: the suffix of the edge file. *)
Definition edge_suffix (k : kind) (thin inst : bool) : text :=
  let t := if thin then lit "thin" else lit "raw" in
  let e := if inst then lit "_isedge.png" else lit "_edge.png" in
  match k with
  | SBD => lit "_" ++ t ++ e
  | Reanno => lit "_reanno_" ++ t ++ e
  | City | OTF => lit "_gtProc_" ++ t ++ e
  | Half => lit "_gtProc_half_" ++ t ++ e
  | BSDS => lit ".mat"
  end.

(** ** evaluate *)
(** base.py:90-95: [_before_evaluation] (sbd.py:194-206, cityscapes.py:213-229; [roots]: the directories
    exist), then the dictionary [eval_params] is read to print it. *)
Definition ready (k : kind) (thin : bool) (names : option (list text)) (roots : bool) (a : attrs) : res unit :=
  match names with
  | None => Err AssertionError
  | Some _ => if roots then bind (eval_params k thin a) (fun _ => Ok tt) else Err AssertionError
  end.
(** The argument [categories] (an int includes a bool, which the model does not distinguish). *)
Inductive cat_arg := CNone | CInt (n : Z) | CList (l : list Z) | COther.
(** base.py:98-106. *)
Definition categories_of (n_classes : nat) (c : cat_arg) : res (list Z) :=
  match c with
  | CNone => match n_classes with O => Err AssertionError | _ => Ok (map (fun i => i + 1) (zseq n_classes)) end
  | CInt n => Ok [n]
  | CList [] => Err AssertionError
  | CList l => Ok l
  | COther => Err AssertionError
  end.
(** The result of evaluating one category: sample rows, threshold rows, overall. *)
Definition cat_result : Type := (list sample_row * list score * overall)%type.
Definition r_overall (r : cat_result) : overall := snd r.

Section Evaluate.
(** [n_classes] is [len(self.CLASSES)]; [compute c] is everything between the range check and saving in
    [evaluate_category] (sbd.py:220-273, cityscapes.py:242-296, otf_cityscapes.py:68-119): building the
    list of samples and [calculate_metrics]. *)
Variables (n_classes : nat) (compute : Z -> res cat_result).
(** sbd.py:208-286 [evaluate_category]; [save_dir] is [None] when empty. *)
Definition evaluate_category (save_dir : option text) (c : Z) (s : fs) : res overall * fs :=
  if negb ((0 <? c) && (c <? Z.of_nat n_classes + 1)) then (Err AssertionError, s)
  else match compute c with
       | Err e => (Err e, s)
       | Ok (rows, ths, o) =>
         (Ok o, match save_dir with Some d => save_category_results d c rows ths (Some o) s | None => s end)
       end.
(** base.py:108-121: the loop over the categories. *)
Fixpoint category_loop (save_dir : option text) (cats : list Z) (s : fs) : res (list overall) * fs :=
  match cats with
  | [] => (Ok [], s)
  | c :: cats =>
    match evaluate_category save_dir c s with
    | (Err e, s) => (Err e, s)
    | (Ok o, s) => match category_loop save_dir cats s with
                   | (Ok os, s) => (Ok (o :: os), s)
                   | (Err e, s) => (Err e, s)
                   end
    end
  end.
(** [np.nanmean] of a non-empty list (the values are never NaN in the model). *)
Definition mean (l : list Q) : Q := (qsum l / inject_Z (Z.of_nat (List.length l)))%Q.
(** [np.round(v, d)] with [d] decimals. *)
Definition round_to (d : Z) (v : Q) : Q := (inject_Z (round_half_even (v * inject_Z (10 ^ d))) / inject_Z (10 ^ d))%Q.
(** base.py:125-130: the nine metrics averaged over the categories. *)
Definition mean_overall (f : Q -> Q) (l : list overall) : overall :=
  mkOverall (f (mean (map ODS_threshold l))) (f (mean (map ODS_recall l))) (f (mean (map ODS_precision l))) (f (mean (map ODS_f1 l)))
            (f (mean (map OIS_recall l))) (f (mean (map OIS_precision l))) (f (mean (map OIS_f1 l))) (f (mean (map AUC l))) (f (mean (map AP l))).
(** base.py:141-146: the summary table, percentages with three decimals, without the threshold. *)
Definition summary (l : list overall) : list Q :=
  map (fun g => round_to 3 (mean (map g l) * 100)%Q) [ODS_recall; ODS_precision; ODS_f1; OIS_recall; OIS_precision; OIS_f1; AUC; AP].
(** base.py:153-163: the per class rows: class index, recall, precision, F1 (percentages), threshold. *)
Definition class_rows (cats : list Z) (l : list overall) : list (Z * Q * Q * Q * Q) :=
  map (fun co => let '(c, o) := co in
    (c, round_to 3 (ODS_recall o * 100), round_to 3 (ODS_precision o * 100), round_to 3 (ODS_f1 o * 100), round_to 2 (ODS_threshold o))%Q) (combine cats l).
(** base.py:76-188 [BaseMultilabelEvaluator.evaluate]: [ready] is the outcome of [_before_evaluation]
    and of reading [eval_params] (lines 90-95).  Printing and the formatted table file results.txt are
    not modelled; the value is the content of the two tables. *)
Definition evaluate (ready : res unit) (save_dir : option text) (arg : cat_arg) (s : fs) : res (list (Z * Q * Q * Q * Q) * list Q) * fs :=
  match ready with
  | Err e => (Err e, s)
  | Ok _ =>
    match categories_of n_classes arg with
    | Err e => (Err e, s)
    | Ok cats =>
      match category_loop save_dir cats s with
      | (Err e, s) => (Err e, s)
      | (Ok l, s) =>
        (Ok (class_rows cats l, summary l),
         match save_dir with
         | Some d => save_overall_metric d (mean_overall (round_to 6) l) (lit "overall_eval_bdry.txt") s
         | None => s
         end)
      end
    end
  end.
End Evaluate.
