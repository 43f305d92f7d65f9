(** pyEdgeEval/common/metrics.py, pyEdgeEval/common/utils.py and
    pyEdgeEval/common/{binary_label,multi_label}/calculate_metrics.py (the two copies of
    calculate_metrics are identical up to comments).

    Floats are exact rationals; counts are integers. *)
From Verif Require Export ModelBase ModelProgress.
From Coq Require Export QArith Qminmax String.
Open Scope Z_scope.
Open Scope list_scope.

(** metrics.py:15-19: [count_r / (sum_r + (sum_r == 0))]. *)
Definition recall (count_r sum_r : Z) : Q :=
  (inject_Z count_r / inject_Z (sum_r + b2z (sum_r =? 0)))%Q.
(** metrics.py:22-26. *)
Definition precision (count_p sum_p : Z) : Q :=
  (inject_Z count_p / inject_Z (sum_p + b2z (sum_p =? 0)))%Q.
(** metrics.py:29-34. *)
Definition f1 (prec rec : Q) : Q :=
  (2 * prec * rec / (prec + rec + (if Qeq_bool (prec + rec) 0 then 1 else 0)))%Q.

(** One sample's (or the dataset's) counts, one entry per threshold. *)
Record counts := mkCounts { count_r : list Z; sum_r : list Z; count_p : list Z; sum_p : list Z }.

Definition map2 {A B C} (f : A -> B -> C) (l1 : list A) (l2 : list B) : list C :=
  map (fun p => f (fst p) (snd p)) (combine l1 l2).

(** metrics.py:37-49, on arrays (elementwise). *)
Definition compute_rec_prec_f1 (c : counts) : list Q * list Q * list Q :=
  let rec := map2 recall (count_r c) (sum_r c) in
  let prec := map2 precision (count_p c) (sum_p c) in
  (rec, prec, map2 f1 prec rec).

(** metrics.py:52-74.  Scores are (threshold, recall, precision, f1). *)
Definition score : Type := (Q * Q * Q * Q)%type.
Definition sc_t (s : score) : Q := fst (fst (fst s)).
Definition sc_r (s : score) : Q := snd (fst (fst s)).
Definition sc_p (s : score) : Q := snd (fst s).
Definition sc_f (s : score) : Q := snd s.

(** [x[i] * d + x[i-1] * (1 - d)] with d = k/100 (np.linspace(0, 1, 101)). *)
Definition lerp (x : list Q) (i : nat) (k : Z) : Q :=
  (nth i x 0 * (inject_Z k / 100) + nth (i - 1) x 0 * (1 - inject_Z k / 100))%Q.

Definition ims_step (th rec prec : list Q) (best : score) (ik : nat * Z) : score :=
  let (i, k) := ik in
  let t := lerp th i k in let r := lerp rec i k in let p := lerp prec i k in
  let f := f1 p r in
  if negb (Qle_bool f (sc_f best)) then (t, r, p, f) else best.

(** The nested loops of lines 62-63: i = 1 .. n-1, k = 0 .. 100. *)
Definition ims_points (n : nat) : list (nat * Z) :=
  flat_map (fun i => map (fun k => (i, k)) (zseq 101)) (seq 1 (n - 1)).

Definition interpolated_max_scores (th rec prec : list Q) : res score :=
  match th, rec, prec with
  | t0 :: _, r0 :: _, p0 :: _ =>
    if (Nat.ltb (List.length rec) (List.length th)) || (Nat.ltb (List.length prec) (List.length th))
    then Err IndexError
    else Ok (fold_left (ims_step th rec prec) (ims_points (List.length th)) (t0, r0, p0, f1 p0 r0))
  | _, _, _ => Err IndexError
  end.

(** ** common/utils.py *)

(** The Python value given as "thresholds".  [AList] items are numbers or nested sequences;
    a nested or ragged list is a ValueError (numpy >= 1.24 for ragged ones). *)
Inductive item := INum (q : Q) | INest.
Inductive tharg := AInt (n : Z) | ABool (b : bool) | AFloat (q : Q) | AList (l : list item) | AOther.

(** [np.linspace(a, b, n)]. *)
Definition linspace (a b : Q) (n : nat) : list Q :=
  match n with
  | 1%nat => [a]
  | _ => map (fun i => a + inject_Z i * ((b - a) / inject_Z (Z.of_nat n - 1)))%Q (zseq n)
  end.

Fixpoint items_nums (l : list item) : option (list Q) :=
  match l with
  | [] => Some []
  | INum q :: l => option_map (cons q) (items_nums l)
  | INest :: _ => None
  end.

Definition thresholds_of_int (n : Z) : res (list Q) :=
  if n + 1 =? 0 then Err ZeroDivisionError
  else if n <? 0 then Err ValueError
  else Ok (linspace (1 / inject_Z (n + 1))%Q (1 - 1 / inject_Z (n + 1))%Q (Z.to_nat n)).

(** utils.py:6-33 [check_thresholds]; [isinstance(True, int)] holds. *)
Definition check_thresholds (a : tharg) : res (list Q) :=
  match a with
  | AInt n => thresholds_of_int n
  | ABool b => thresholds_of_int (b2z b)
  | AFloat q => Ok [q]
  | AList l => match items_nums l with Some qs => Ok qs | None => Err ValueError end
  | AOther => Err ValueError
  end.

(** ** calculate_metrics.py *)

(** [np.argmax]: first index of the maximum; [None] (ValueError) for an empty array. *)
Fixpoint argmax_from (best : nat) (bv : Q) (i : nat) (l : list Q) : nat :=
  match l with
  | [] => best
  | v :: l => if negb (Qle_bool v bv) then argmax_from i v (S i) l else argmax_from best bv (S i) l
  end.
Definition argmax (l : list Q) : option nat :=
  match l with [] => None | v :: l => Some (argmax_from 0 v 1 l) end.

(** [a += b] on arrays. *)
Definition add_arr (a b : list Z) : list Z := map2 Z.add a b.
Definition add_counts (a b : counts) : counts :=
  mkCounts (add_arr (count_r a) (count_r b)) (add_arr (sum_r a) (sum_r b))
           (add_arr (count_p a) (count_p b)) (add_arr (sum_p a) (sum_p b)).
Definition zero_counts (n : nat) : counts :=
  mkCounts (repeat 0 n) (repeat 0 n) (repeat 0 n) (repeat 0 n).

(** OIS accumulators: lines 61-64, 86-89. *)
Record best4 := mkBest { b_cr : Z; b_sr : Z; b_cp : Z; b_sp : Z }.
Definition add_best (b : best4) (c : counts) (i : nat) : best4 :=
  mkBest (b_cr b + nth i (count_r c) 0) (b_sr b + nth i (sum_r c) 0)
         (b_cp b + nth i (count_p c) 0) (b_sp b + nth i (sum_p c) 0).

Record sample_row := mkRow { r_name : string; r_thr : Q; r_rec : Q; r_prec : Q; r_f1 : Q }.

(** The loop of lines 68-99.  Arrays whose length differs from n_thresh do not broadcast
    (ValueError; numpy's broadcasting of length-1 arrays is not modelled); empty threshold lists make argmax raise ValueError. *)
Fixpoint sample_loop (th : list Q) (samples : list (string * counts))
  (tot : counts) (best : best4) (rows : list sample_row) : res (counts * best4 * list sample_row) :=
  match samples with
  | [] => Ok (tot, best, rows)
  | (name, c) :: rest =>
    let n := List.length th in
    if negb (Nat.eqb (List.length (count_r c)) n && Nat.eqb (List.length (sum_r c)) n
             && Nat.eqb (List.length (count_p c)) n && Nat.eqb (List.length (sum_p c)) n)
    then Err ValueError
    else
      let '(rec, prec, f) := compute_rec_prec_f1 c in
      match argmax f with
      | None => Err ValueError
      | Some i =>
        sample_loop th rest (add_counts tot c) (add_best best c i)
          (rows ++ [mkRow name (nth i th 0%Q) (nth i rec 0%Q) (nth i prec 0%Q) (nth i f 0%Q)])
      end
  end.

(** [np.unique(rec, return_index=True)] followed by [prec[idx]] (lines 127-128): distinct
    recalls in increasing order, each with the precision at its first occurrence. *)
Fixpoint insert_unique (r p : Q) (l : list (Q * Q)) : list (Q * Q) :=
  match l with
  | [] => [(r, p)]
  | (r', p') :: l' =>
    match Qcompare r r' with
    | Lt => (r, p) :: l
    | Eq => l
    | Gt => (r', p') :: insert_unique r p l'
    end
  end.
Definition unique_first (rec prec : list Q) : list (Q * Q) :=
  fold_left (fun acc rp => insert_unique (fst rp) (snd rp) acc) (combine rec prec) [].

(** [np.interp(x, xp, fp, left=0, right=0)] for strictly increasing [xp]. *)
Fixpoint interp_in (x : Q) (l : list (Q * Q)) : Q :=
  match l with
  | [] => 0%Q
  | (r, p) :: l' =>
    match l' with
    | [] => if Qeq_bool x r then p else 0%Q
    | (r', p') :: _ =>
      if Qle_bool r' x then interp_in x l'
      else if Qle_bool r x then (p + (p' - p) / (r' - r) * (x - r))%Q
      else 0%Q
    end
  end.

(** Lines 126-139. [np.arange(0, 1, 0.01)] has the 100 points k/100. *)
Definition grid : list Q := map (fun k => inject_Z k / 100)%Q (zseq 100).
Definition qsum (l : list Q) : Q := fold_left Qplus l 0%Q.
Definition auc (rec prec : list Q) : Q :=
  let u := unique_first rec prec in
  if Nat.ltb 1 (List.length u) then (qsum (map (fun x => interp_in x u) grid) * (1 # 100))%Q else 0%Q.

(** Lines 142-146. *)
Definition max0 (l : list Q) : Q := fold_left (fun m v => if negb (Qle_bool v m) then v else m) l 0%Q.
Definition ap_at (t : Q) (rec prec : list Q) : Q :=
  max0 (map snd (filter (fun rp => Qle_bool t (fst rp)) (combine rec prec))).
Definition average_precision (rec prec : list Q) : Q :=
  fold_left (fun a t => a + ap_at t rec prec / 101)%Q grid 0%Q.

Record overall := mkOverall {
  ODS_threshold : Q; ODS_recall : Q; ODS_precision : Q; ODS_f1 : Q;
  OIS_recall : Q; OIS_precision : Q; OIS_f1 : Q; AUC : Q; AP : Q }.

(** Lines 50-168: everything after the per-sample evaluation. *)
Definition summarise (thr : tharg) (samples : list (string * counts))
  : res (list sample_row * list score * overall) :=
  bind (check_thresholds thr) (fun th =>
  bind (sample_loop th samples (zero_counts (List.length th)) (mkBest 0 0 0 0) []) (fun acc =>
  let '(tot, best, rows) := acc in
  let '(rec, prec, f) := compute_rec_prec_f1 tot in
  bind (interpolated_max_scores th rec prec) (fun ods =>
  let thr_rows := map (fun i => (nth i th 0, nth i rec 0, nth i prec 0, nth i f 0)%Q)
                      (seq 0 (List.length th)) in
  let r := recall (b_cr best) (b_sr best) in
  let p := precision (b_cp best) (b_sp best) in
  Ok (rows, thr_rows,
      mkOverall (sc_t ods) (sc_r ods) (sc_p ods) (sc_f ods) r p (f1 p r)
                (auc rec prec) (average_precision rec prec))))).

(** Lines 18-48: the whole function.  [schedule] is the completion order of the pool,
    [eval_single] the user's function on a sample, [name] is [sample["name"]]. *)
Definition calculate_metrics {S : Type} (schedule : list nat) (nproc : Z)
  (name : S -> string) (eval_single : S -> res counts) (thr : tharg) (samples : list S)
  : res (list sample_row * list score * overall) :=
  let r := if 1 <? nproc
           then fst (track_parallel_progress eval_single nproc 1 false true false schedule samples)
           else fst (track_progress eval_single false samples) in
  bind r (fun metrics => summarise thr (combine (map name samples) metrics)).
