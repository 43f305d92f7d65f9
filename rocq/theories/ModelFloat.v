(** pyEdgeEval/common/metrics.py and the summary of
    pyEdgeEval/common/{binary_label,multi_label}/calculate_metrics.py again (see ModelMetrics.v), this time
    with the rounding of numpy's float64: every operation returns the real result rounded to the nearest
    binary64 number, ties to even.

    Simplifications: numbers are real numbers and [rnd] rounds to the binary64 numbers without an upper
    bound on the exponent (no operation here leaves [0, 2^54], so nothing overflows); the area under the
    curve (lines 126-139) is left out. *)
From Verif Require Export ModelMetrics.
From Coq Require Export Reals.
From Flocq Require Export Core.
Open Scope R_scope.
Open Scope list_scope.

(** Rounding to binary64 (53 bits of precision, smallest exponent -1074), and the four operations. *)
Definition rnd (x : R) : R := round radix2 (FLT_exp (-1074) 53) ZnearestE x.
Definition fadd (a b : R) : R := rnd (a + b).
Definition fsub (a b : R) : R := rnd (a - b).
Definition fmul (a b : R) : R := rnd (a * b).
Definition fdiv (a b : R) : R := rnd (a / b).
(** [x == 0] as a number (False is 0, True is 1). *)
Definition fzero (x : R) : R := if Req_EM_T x 0 then 1 else 0.

(** metrics.py:15-26 ([recall] and [precision] are the same formula). *)
Definition fratio (count sum : R) : R := fdiv count (fadd sum (fzero sum)).
(** metrics.py:29-34. *)
Definition ff1 (prec rec : R) : R := fdiv (fmul (fmul 2 prec) rec) (fadd (fadd prec rec) (fzero (fadd prec rec))).

(** The 101 values of [np.linspace(0, 1, num=101)] ([arange(101) * 0.01], the last one set to 1) and the
    100 values of [np.arange(0, 1, 0.01)]. *)
Definition hundredth : R := rnd (1 / 100).
Definition fstep (k : Z) : R := if (k =? 100)%Z then 1 else fmul (IZR k) hundredth.
Definition fgrid : list R := map fstep (zseq 100).

(** metrics.py:64-66: [x[i] * d + x[i-1] * (1 - d)]. *)
Definition flerp (x : list R) (i : nat) (k : Z) : R :=
  fadd (fmul (nth i x 0) (fstep k)) (fmul (nth (i - 1) x 0) (fsub 1 (fstep k))).
Record fscore := mkFS { fs_t : R; fs_r : R; fs_p : R; fs_f : R }.
(** metrics.py:64-72. *)
Definition fims_step (th rec prec : list R) (best : fscore) (ik : nat * Z) : fscore :=
  let (i, k) := ik in
  let r := flerp rec i k in let p := flerp prec i k in let f := ff1 p r in
  if Rlt_dec (fs_f best) f then mkFS (flerp th i k) r p f else best.
(** metrics.py:52-74. *)
Definition finterpolated_max_scores (th rec prec : list R) : fscore :=
  fold_left (fims_step th rec prec) (ims_points (List.length th))
    (mkFS (nth 0 th 0) (nth 0 rec 0) (nth 0 prec 0) (ff1 (nth 0 prec 0) (nth 0 rec 0))).

(** [np.argmax]. *)
Fixpoint fargmax_from (best : nat) (bv : R) (i : nat) (l : list R) : nat :=
  match l with
  | [] => best
  | v :: l => if Rlt_dec bv v then fargmax_from i v (S i) l else fargmax_from best bv (S i) l
  end.
Definition fargmax (l : list R) : option nat := match l with [] => None | v :: l => Some (fargmax_from 0 v 1 l) end.

(** calculate_metrics.py:52-64: the running totals, as float64 arrays and numbers. *)
Record fcounts := mkFC { fcount_r : list R; fsum_r : list R; fcount_p : list R; fsum_p : list R }.
Definition freal (c : counts) : fcounts := mkFC (map IZR (count_r c)) (map IZR (sum_r c)) (map IZR (count_p c)) (map IZR (sum_p c)).
Definition fzeros (n : nat) : fcounts := mkFC (repeat 0 n) (repeat 0 n) (repeat 0 n) (repeat 0 n).
Definition fadd_counts (a b : fcounts) : fcounts :=
  mkFC (map2 fadd (fcount_r a) (fcount_r b)) (map2 fadd (fsum_r a) (fsum_r b)) (map2 fadd (fcount_p a) (fcount_p b)) (map2 fadd (fsum_p a) (fsum_p b)).
Record fbest := mkFB { fb_cr : R; fb_sr : R; fb_cp : R; fb_sp : R }.
Definition fadd_best (b : fbest) (c : fcounts) (i : nat) : fbest :=
  mkFB (fadd (fb_cr b) (nth i (fcount_r c) 0)) (fadd (fb_sr b) (nth i (fsum_r c) 0)) (fadd (fb_cp b) (nth i (fcount_p c) 0)) (fadd (fb_sp b) (nth i (fsum_p c) 0)).
Record frow := mkFRow { f_name : string; f_thr : R; f_rec : R; f_prec : R; f_f1 : R }.

(** metrics.py:37-49 on arrays. *)
Definition frecs (c : fcounts) : list R := map2 fratio (fcount_r c) (fsum_r c).
Definition fprecs (c : fcounts) : list R := map2 fratio (fcount_p c) (fsum_p c).
Definition ff1s (c : fcounts) : list R := map2 ff1 (fprecs c) (frecs c).

(** calculate_metrics.py:68-99 (the shape checks are as in [sample_loop]). *)
Fixpoint fsample_loop (th : list R) (samples : list (string * counts)) (tot : fcounts) (best : fbest) (rows : list frow) : res (fcounts * fbest * list frow) :=
  match samples with
  | [] => Ok (tot, best, rows)
  | (name, c) :: rest =>
    let n := List.length th in
    if negb (Nat.eqb (List.length (count_r c)) n && Nat.eqb (List.length (sum_r c)) n
             && Nat.eqb (List.length (count_p c)) n && Nat.eqb (List.length (sum_p c)) n)
    then Err ValueError
    else
      match fargmax (ff1s (freal c)) with
      | None => Err ValueError
      | Some i =>
        fsample_loop th rest (fadd_counts tot (freal c)) (fadd_best best (freal c) i)
          (rows ++ [mkFRow name (nth i th 0) (nth i (frecs (freal c)) 0) (nth i (fprecs (freal c)) 0) (nth i (ff1s (freal c)) 0)])
      end
  end.

(** calculate_metrics.py:141-146. *)
Definition fmax0 (l : list R) : R := fold_left (fun m v => if Rlt_dec m v then v else m) l 0.
Definition fap_at (t : R) (rec prec : list R) : R :=
  fmax0 (map snd (filter (fun rp => if Rle_dec t (fst rp) then true else false) (combine rec prec))).
Definition faverage_precision (rec prec : list R) : R :=
  fold_left (fun a t => fadd a (fdiv (fap_at t rec prec) 101)) fgrid 0.

Record foverall := mkFO { fODS : fscore; fOIS_recall : R; fOIS_precision : R; fOIS_f1 : R; fAP : R }.
(** calculate_metrics.py:50-168, from the thresholds (as float64 numbers) and the per-image counts. *)
Definition fsummarise (th : list R) (samples : list (string * counts)) : res (list frow * list fscore * foverall) :=
  bind (fsample_loop th samples (fzeros (List.length th)) (mkFB 0 0 0 0) []) (fun acc =>
  let '(tot, best, rows) := acc in
  match th with
  | [] => Err IndexError
  | _ =>
    let rec := frecs tot in let prec := fprecs tot in let f := ff1s tot in
    let thr_rows := map (fun i => mkFS (nth i th 0) (nth i rec 0) (nth i prec 0) (nth i f 0)) (seq 0 (List.length th)) in
    let r := fratio (fb_cr best) (fb_sr best) in let p := fratio (fb_cp best) (fb_sp best) in
    Ok (rows, thr_rows, mkFO (finterpolated_max_scores th rec prec) r p (ff1 p r) (faverage_precision rec prec))
  end).
