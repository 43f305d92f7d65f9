(** The command line helpers: pyEdgeEval/helpers/evaluate_{bsds500,sbd,cityscapes}.py. *)
From Verif Require Export ModelEvaluator.
Open Scope Z_scope.
Open Scope list_scope.

(** [t[1:-1]]. *)
Definition inner (t : text) : text := removelast (tl t).
Definition bracketed (t : text) : bool := startswith t (lit "[") && endswith t (lit "]").
(** [\[int(c.strip()) for c in t.split(",")\]]. *)
Fixpoint mapM {A B} (f : A -> res B) (l : list A) : res (list B) :=
  match l with [] => Ok [] | a :: l => bind (f a) (fun b => bind (mapM f l) (fun bs => Ok (b :: bs))) end.
Definition comma_list {A} (f : text -> res A) (t : text) : res (list A) := mapM (fun c => f (strip c)) (split_by (Ascii.eqb ",") t).

(** The outcome of a helper: it prints a message and returns, or goes on with a value. *)
Inductive cli (A : Type) := Printed | Parsed (a : A).
Arguments Printed {A}.
Arguments Parsed {A} a.

(** evaluate_sbd.py:101-125 (the same text in evaluate_cityscapes.py:130-154 and evaluate_sbd.py:248-272). *)
Definition cli_categories (n_classes : nat) (arg : option text) : cli (list Z) :=
  match arg with
  | None => Parsed (map (fun i => i + 1) (zseq n_classes))
  | Some t =>
    let t := strip t in
    match py_int t with
    | Ok n => Parsed [n]
    | Err _ => if bracketed t then match comma_list py_int (inner t) with Ok l => Parsed l | Err _ => Printed end else Printed
    end
  end.
(** evaluate_sbd.py:132-151 (also evaluate_bsds500.py:82-100, evaluate_cityscapes.py:161-180). *)
Inductive cli_th := TInt (n : Z) | TList (l : list pyfloat).
Definition cli_thresholds (t : text) : cli cli_th :=
  let t := strip t in
  match py_int t with
  | Ok n => Parsed (TInt n)
  | Err _ => if bracketed t then match comma_list py_float (inner t) with Ok l => Parsed (TList l) | Err _ => Printed end else Printed
  end.

(** What the helper asks the evaluator to do. *)
Record job := mkJob {
  j_kind : kind; j_thin : bool; (* constructor argument [thin] *)
  j_call : call; (* set_eval_params *)
  j_cats : option (list Z); j_ths : cli_th; j_nproc : Z }.

(** evaluate_sbd.py:127-130, evaluate_cityscapes.py:156-159: [assert 0 < cat < bound]. *)
Definition cats_ok (bound : Z) (l : list Z) : bool := forallb (fun c => (0 <? c) && (c <? bound)) l.

(** The options common to all scripts. *)
Record options := mkOpt {
  o_categories : option text; o_thresholds : text; o_max_dist : Q; o_pre_seal : bool; o_nonIS : bool; o_nms : bool;
  o_raw : bool; o_scale : Q; o_half : bool; o_nproc : Z }.
Definition mode_of (pre : bool) : option text := Some (if pre then pre_seal else post_seal).

(** Parsing in the order of the code: categories, range check, thresholds. *)
Definition cli_run (n_classes : nat) (bound : Z) (categories : option text) (thresholds : text) (k : list Z -> cli_th -> job) : res (cli job) :=
  match cli_categories n_classes categories with
  | Printed => Ok Printed
  | Parsed cats =>
    if cats_ok bound cats
    then match cli_thresholds thresholds with Printed => Ok Printed | Parsed th => Ok (Parsed (k cats th)) end
    else Err AssertionError
  end.
(** evaluate_sbd.py:84-230 [evaluate_sbd]. *)
Definition cli_sbd (o : options) : res (cli job) :=
  cli_run 20 21 (o_categories o) (o_thresholds o) (fun cats th =>
    mkJob SBD (negb (o_raw o)) (mkCall (mode_of (o_pre_seal o)) 1 (negb (o_raw o)) (o_nms o) (negb (o_nonIS o)) (o_max_dist o) false false)
          (Some cats) th (o_nproc o)).
(** evaluate_sbd.py:233-351 [evaluate_reanno] without the parameter [max_dist]; the mode is None. *)
Definition evaluate_reanno (o : options) : res (cli job) :=
  cli_run 20 21 (o_categories o) (o_thresholds o) (fun cats th =>
    mkJob Reanno (negb (o_raw o)) (mkCall None 1 (negb (o_raw o)) (o_nms o) (negb (o_nonIS o)) (75 # 10000) false false)
          (Some cats) th (o_nproc o)).
(** A call with keyword arguments: a keyword that is not a parameter is a TypeError. *)
Definition call_with {A} (params keywords : list text) (f : res A) : res A :=
  if forallb (fun k => existsb (text_eqb k) params) keywords then f else Err TypeError.
(** evaluate_sbd.py:233-245: the parameters of [evaluate_reanno]. *)
Definition reanno_params : list text := map lit
  ["gt_dir"; "sbd_path"; "pred_path"; "pred_suffix"; "output_path"; "categories"; "apply_thinning"; "apply_nms"; "nonIS"; "thresholds"; "nproc"]%string.
(** evaluate_sbd.py:360-373: the keywords of the call in [evaluate_reanno_sbd]. *)
Definition reanno_keywords : list text := map lit
  ["gt_dir"; "sbd_path"; "pred_path"; "pred_suffix"; "output_path"; "categories"; "apply_thinning"; "apply_nms"; "nonIS"; "max_dist"; "thresholds"; "nproc"]%string.
(** evaluate_sbd.py:354-373 [evaluate_reanno_sbd]. *)
Definition cli_reanno (o : options) : res (cli job) := call_with reanno_params reanno_keywords (evaluate_reanno o).
(** evaluate_cityscapes.py:111-252 [evaluate]. *)
Definition city_evaluate (thin : bool) (scale : Q) (apply_thinning half : bool) (o : options) : res (cli job) :=
  cli_run 19 20 (o_categories o) (o_thresholds o) (fun cats th =>
    mkJob (if half then Half else City) thin
          (mkCall (mode_of (o_pre_seal o)) scale apply_thinning (o_nms o) (negb (o_nonIS o)) (o_max_dist o) false false)
          (Some cats) th (o_nproc o)).
(** evaluate_cityscapes.py:255-273 and 276-294. *)
Definition cli_city_raw (o : options) : res (cli job) := city_evaluate false (o_scale o) false (o_half o) o.
Definition cli_city_thin (o : options) : res (cli job) := city_evaluate true (1 # 2) true true o.
(** evaluate_bsds500.py:68-162. *)
Definition cli_bsds (o : options) : res (cli job) :=
  match cli_thresholds (o_thresholds o) with
  | Printed => Ok Printed
  | Parsed th => Ok (Parsed (mkJob BSDS false (mkCall None 1 (negb (o_raw o)) (o_nms o) true (o_max_dist o) false false) None th (o_nproc o)))
  end.
