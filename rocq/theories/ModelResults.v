(** Result files: pyEdgeEval/common/binary_label/io.py, pyEdgeEval/common/multi_label/io.py, and the
    part of pyEdgeEval/visualization/pr_curve.py (and common/binary_label/visualize.py, which uses it)
    that reads them. *)
From Verif Require Export ModelText ModelMetrics.
Open Scope Z_scope.
Open Scope list_scope.

(** A file system: the contents of the files that exist. *)
Definition fs : Type := text -> option text.
Definition write (p c : text) (s : fs) : fs := fun q => if text_eqb p q then Some c else s q.

(** The fields of one line, separated by one space. *)
Fixpoint join_fields (l : list text) : text :=
  match l with [] => [] | [a] => a | a :: l => a ++ " "%char :: join_fields l end.

(** binary_label/io.py:12 and 16-22: one line per sample. *)
Definition sample_line (r : sample_row) : text :=
  join_fields (lit (r_name r) :: map field [r_thr r; r_rec r; r_prec r; r_f1 r]) ++ [LF].
(** binary_label/io.py:8-23 [save_sample_metrics]. *)
Definition save_sample_metrics (root : text) (l : list sample_row) : fs -> fs :=
  write (path_join root (lit "eval_bdry_img.txt")) (List.concat (map sample_line l)).
(** binary_label/io.py:30, 34-39: one line per threshold. *)
Definition threshold_line (s : score) : text :=
  join_fields (map field [sc_t s; sc_r s; sc_p s; sc_f s]) ++ [LF].
(** binary_label/io.py:26-40 [save_threshold_metrics]. *)
Definition save_threshold_metrics (root : text) (l : list score) : fs -> fs :=
  write (path_join root (lit "eval_bdry_thr.txt")) (List.concat (map threshold_line l)).
(** binary_label/io.py:43-62 [save_overall_metric]: nine fields, no line end. *)
Definition overall_fields (o : overall) : list Q :=
  [ODS_threshold o; ODS_recall o; ODS_precision o; ODS_f1 o; OIS_recall o; OIS_precision o; OIS_f1 o; AUC o; AP o].
Definition save_overall_metric (root : text) (o : overall) (file_name : text) : fs -> fs :=
  write (path_join root file_name) (join_fields (map field (overall_fields o))).
(** binary_label/io.py:65-79 [save_results] (directory creation is not modelled); the overall result
    is a dictionary, [None] stands for an empty one. *)
Definition save_results (root : text) (samples : list sample_row) (ths : list score) (o : option overall) (s : fs) : fs :=
  let s := if nonempty samples then save_sample_metrics root samples s else s in
  let s := if nonempty ths then save_threshold_metrics root ths s else s in
  match o with Some o => save_overall_metric root o (lit "eval_bdry.txt") s | None => s end.
(** multi_label/io.py:91-92: the directory of a category. *)
Definition category_dir (root : text) (category : Z) : text := path_join root (lit "class_" ++ str_zfill 3 category).
(** multi_label/io.py:83-100 [save_category_results]. *)
Definition save_category_results (root : text) (category : Z) := save_results (category_dir root category).

(** ** np.loadtxt *)
(** The array it returns: [squeeze]d to the smallest number of dimensions. *)
Inductive nd := A0 (v : pyfloat) | A1 (l : list pyfloat) | A2 (l : list (list pyfloat)).
Definition not_hash (c : ascii) : bool := negb (Ascii.eqb c "#").
Fixpoint take_while (p : ascii -> bool) (t : text) : text :=
  match t with c :: r => if p c then c :: take_while p r else [] | [] => [] end.
(** The cells of one line: the comment is dropped, cells are separated by white space. *)
Definition cells (line : text) : list text := words (take_while not_hash line).
Fixpoint floats (l : list text) : res (list pyfloat) :=
  match l with [] => Ok [] | c :: l => bind (py_float c) (fun v => bind (floats l) (fun vs => Ok (v :: vs))) end.
Fixpoint floats_rows (l : list (list text)) : res (list (list pyfloat)) :=
  match l with [] => Ok [] | c :: l => bind (floats c) (fun v => bind (floats_rows l) (fun vs => Ok (v :: vs))) end.
Definition squeeze (rows : list (list pyfloat)) : nd :=
  match rows with
  | [] => A1 []
  | [[v]] => A0 v
  | [r] => A1 r
  | r :: _ => if Nat.eqb (List.length r) 1 then A1 (List.concat rows) else A2 rows
  end.
(** [np.loadtxt(path)]: lines without cells are skipped; rows of different lengths are an error. *)
Definition loadtxt (t : text) : res nd :=
  let rows := filter nonempty (map cells (split_by (Ascii.eqb LF) (universal_newlines t))) in
  bind (floats_rows rows) (fun rows =>
    match rows with
    | [] => Ok (squeeze [])
    | r :: _ => if forallb (fun x => Nat.eqb (List.length x) (List.length r)) rows then Ok (squeeze rows) else Err ValueError
    end).

(** ** visualization/pr_curve.py *)
(** [v >= c]; comparisons with NaN are false. *)
Definition pf_ge (v : pyfloat) (c : Q) : bool :=
  match v with Fin q => Qle_bool c q | Inf neg => negb neg | NaN => false end.
Definition open_text (s : fs) (p : text) : res text := match s p with Some t => Ok t | None => Err AssertionError end.
(** pr_curve.py:54-58 [_load_threshold_data]. *)
Definition load_threshold_data (s : fs) (p : text) : res (list (list pyfloat)) :=
  bind (open_text s p) (fun t => bind (loadtxt t) (fun a =>
    match a with
    | A2 rows => if forallb (fun r => Nat.ltb 1 (List.length r)) rows
                 then Ok (filter (fun r => pf_ge (nth 1 r NaN) (1 # 1000)) rows) else Err IndexError
    | _ => Err IndexError
    end)).
(** pr_curve.py:61-64 [_load_overall_results] and the assignment [res[i, :8] = ...] of line 108, which
    broadcasts scalars and vectors of length 1 or 8. *)
Definition load_overall_row (s : fs) (p : text) : res (list pyfloat) :=
  bind (open_text s p) (fun t => bind (loadtxt t) (fun a =>
    match a with
    | A0 v => Ok (repeat v 8)
    | A1 [v] => Ok (repeat v 8)
    | A1 l => if Nat.eqb (List.length l) 8 then Ok l else Err ValueError
    | A2 _ => Err ValueError
    end)).
(** pr_curve.py:106-108 for one algorithm: both files are loaded (for what follows see
    ModelPlot.v). *)
Definition load_algorithm (s : fs) (thr_path overall_path : text) : res (list (list pyfloat) * list pyfloat) :=
  bind (load_threshold_data s thr_path) (fun pr => bind (load_overall_row s overall_path) (fun o => Ok (pr, o))).

(** pr_curve.py:38-42: the curves of constant F1.  For each f = 0.1, ..., 0.9 the points
    (r, f r / (2 r - f)) with r = f, f + 0.01, ... below 1.01, and the mirrored points. *)
Definition iso_p (f r : Q) : Q := (f * r / (2 * r - f))%Q.
Definition iso_levels : list Q := map (fun k => inject_Z (Z.of_nat k) / 10)%Q (seq 1 9).
(** [np.arange(f, 1.01, 0.01)], computed exactly: ceil((1.01 - f) / 0.01) values. *)
Definition iso_recalls (f : Q) : list Q :=
  map (fun k => f + inject_Z (Z.of_nat k) / 100)%Q (seq 0 (Z.to_nat (Qceiling (((101 # 100) - f) / (1 # 100))))).
Definition iso_curve (f : Q) : list (Q * Q) := map (fun r => (r, iso_p f r)) (iso_recalls f).
Definition iso_mirror (f : Q) : list (Q * Q) := map (fun r => (iso_p f r, r)) (iso_recalls f).
