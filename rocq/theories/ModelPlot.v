(** The precision/recall plot: pyEdgeEval/visualization/pr_curve.py and its copy
    pyEdgeEval/common/binary_label/visualize.py (from the two files of every algorithm to the curves, the
    printed lines and the legend; drawing itself, colours and the curves of constant F1 are elsewhere or
    left out).

    Simplifications (also in DESIGN.md): numbers are exact (the code keeps the overall results and R50 in
    single precision); files with infinities or NaN are not modelled ([plot] is [None]); algorithms with
    the same ODS score keep their order before the list is reversed (numpy's default sort does not promise
    that for more than 16 elements). *)
From Verif Require Export ModelResults.
Open Scope Z_scope.
Open Scope list_scope.

(** ** R50 *)
(** pr_curve.py:68 [np.unique(pr[:, 2], return_index=True)]: the rows with distinct precisions, in
    increasing order, each the first with its precision; as points (precision, recall). *)
Fixpoint insert_new (p r : Q) (l : list (Q * Q)) : list (Q * Q) :=
  match l with
  | [] => [(p, r)]
  | (p', r') :: l' =>
    match Qcompare p p' with
    | Lt => (p, r) :: l
    | Eq => l
    | Gt => (p', r') :: insert_new p r l'
    end
  end.
Definition unique_points (pr : list (list Q)) : list (Q * Q) := fold_left (fun l row => insert_new (nth 2 row 0%Q) (nth 1 row 0%Q) l) pr [].
(** scipy's [interp1d] (linear) at [x], for points with increasing abscissas; [None]: outside. *)
Fixpoint interpolate (x : Q) (l : list (Q * Q)) : option Q :=
  match l with
  | [] => None
  | (x0, y0) :: l' =>
    if negb (Qle_bool x0 x) then None
    else match l' with
         | [] => if Qle_bool x x0 then Some y0 else None
         | (x1, y1) :: _ => if Qle_bool x x1 then Some (y0 + (y1 - y0) / (x1 - x0) * (x - x0))%Q else interpolate x l'
         end
  end.
(** pr_curve.py:67-76 [_calc_r50]: [Ok None] is NaN.  Without rows [o[0]] fails. *)
Definition calc_r50 (pr : list (list Q)) : res (option Q) :=
  match unique_points pr with
  | [] => Err IndexError
  | (p0, r0) :: l => Ok (interpolate (if Qle_bool p0 (1 # 2) then 1 # 2 else p0) ((p0, r0) :: l))
  end.

(** ** Several algorithms *)
(** pr_curve.py:17-24 [AlgorithmInfo]. *)
Record algorithm := mkAlg { al_name : text; al_threshold : text; al_overall : text }.
(** One curve of the plot: the points (recall, precision), the four numbers printed (ODS, OIS, AP, R50). *)
Record curve := mkCurve { cv_points : list (Q * Q); cv_ods : Q; cv_ois : Q; cv_ap : Q; cv_r50 : option Q }.
Definition finite (v : pyfloat) : option Q := match v with Fin q => Some q | _ => None end.
Fixpoint all_some {A} (l : list (option A)) : option (list A) :=
  match l with [] => Some [] | a :: l => match a, all_some l with Some a, Some l => Some (a :: l) | _, _ => None end end.
(** pr_curve.py:105-110 for one algorithm ([None]: not modelled).  The overall results are the columns 3
    (ODS F1), 6 (OIS F1) and 7 (AP). *)
Definition load_curve (s : fs) (a : algorithm) : option (res (list (list Q) * curve)) :=
  match load_threshold_data s (al_threshold a) with
  | Err e => Some (Err e)
  | Ok pr =>
    match load_overall_row s (al_overall a) with
    | Err e => Some (Err e)
    | Ok o =>
      match all_some (map (fun r => all_some (map finite r)) pr), all_some (map finite o) with
      | Some pr, Some o =>
        Some (if negb (forallb (fun r => Nat.ltb 2 (List.length r)) pr) then Err IndexError
              else bind (calc_r50 pr) (fun r50 =>
                Ok (pr, mkCurve (map (fun r => (nth 1 r 0%Q, nth 2 r 0%Q)) pr) (nth 3 o 0%Q) (nth 6 o 0%Q) (nth 7 o 0%Q) r50)))
      | _, _ => None
      end
    end
  end.
(** pr_curve.py:105-110: the algorithms one after the other. *)
Fixpoint load_curves (s : fs) (l : list algorithm) : option (res (list (list (list Q) * curve))) :=
  match l with
  | [] => Some (Ok [])
  | a :: l =>
    match load_curve s a with
    | None => None
    | Some (Err e) => Some (Err e)
    | Some (Ok c) => match load_curves s l with None => None | Some (Err e) => Some (Err e) | Some (Ok cs) => Some (Ok (c :: cs)) end
    end
  end.
(** pr_curve.py:111 [np.stack]: all threshold tables must have the same shape. *)
Definition shape (pr : list (list Q)) : nat * nat := (List.length pr, match pr with r :: _ => List.length r | [] => 0%nat end).
Definition stackable (l : list (list (list Q))) : bool :=
  match l with
  | [] => false
  | a :: l => forallb (fun b => Nat.eqb (fst (shape b)) (fst (shape a)) && Nat.eqb (snd (shape b)) (snd (shape a))) l
  end.
(** pr_curve.py:114-115: increasing ODS, reversed. *)
Fixpoint insert_by {A} (key : A -> Q) (x : A) (l : list A) : list A :=
  match l with [] => [x] | y :: l' => if Qle_bool (key x) (key y) then x :: l else y :: insert_by key x l' end.
Definition best_first {A} (key : A -> Q) (l : list A) : list A := rev (fold_right (insert_by key) [] l).

(** "{:.nf}" with [n] decimals. *)
Definition fixed (n : nat) (v : Q) : text :=
  let neg := negb (Qle_bool 0 v) in
  let k := round_half_even ((if neg then - v else v) * inject_Z (10 ^ Z.of_nat n))%Q in
  (if neg then ["-"%char] else []) ++ str_nat (k / 10 ^ Z.of_nat n) ++ "."%char :: str_zfill n (k mod 10 ^ Z.of_nat n).
Definition fixed_or_nan (n : nat) (v : option Q) : text := match v with Some v => fixed n v | None => lit "nan" end.
(** pr_curve.py:126-130: the line printed, and 133-135 the entry of the legend. *)
Definition printed_line (name : text) (c : curve) : text :=
  lit "ODS=" ++ fixed 3 (cv_ods c) ++ lit ", OIS=" ++ fixed 3 (cv_ois c) ++ lit ", AP=" ++ fixed 3 (cv_ap c) ++ lit ", R50=" ++ fixed_or_nan 3 (cv_r50 c) ++ lit " - " ++ name.
Definition legend_entry (name : text) (c : curve) : text := lit "[F=" ++ fixed 2 (cv_ods c) ++ lit "] " ++ name.

(** pr_curve.py:79-142 [plot_pr_curve]: the curves with their names, best first; the lines are printed in
    the reverse order (the best is drawn last).  [human]: binary_label/visualize.py:35-107, which prepends
    the entry of the human performance. *)
Definition plot (s : fs) (human : bool) (algs : list algorithm) (names : option (list text)) : option (res (list (text * curve) * list text * list text)) :=
  match algs with
  | [] => Some (Err AssertionError)
  | _ =>
    match (match names with None => Ok (map al_name algs) | Some l => if Nat.eqb (List.length l) (List.length algs) then Ok l else Err AssertionError end) with
    | Err e => Some (Err e)
    | Ok names =>
      match load_curves s algs with
      | None => None
      | Some (Err e) => Some (Err e)
      | Some (Ok cs) =>
        if negb (stackable (map fst cs)) then Some (Err ValueError)
        else
          let l := best_first (fun nc => cv_ods (snd nc)) (combine names (map snd cs)) in
          Some (Ok (l, rev (map (fun nc => printed_line (fst nc) (snd nc)) l),
                    (if human then [lit "[F=.80] Human"] else []) ++ map (fun nc => legend_entry (fst nc) (snd nc)) l))
      end
    end
  end.
