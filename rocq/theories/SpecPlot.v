(** What the precision/recall plot shows. *)
From Verif Require Export ModelPlot SpecEvaluator SpecCLI.
From Coq Require Export Permutation.
Open Scope Z_scope.
Open Scope list_scope.

(** One row of a threshold file (threshold, recall, precision, F1): its point of the curve. *)
Definition recall_of (r : list Q) : Q := nth 1 r 0%Q.
Definition precision_of (r : list Q) : Q := nth 2 r 0%Q.
(** [r] is the recall of the first row with precision [p]. *)
Definition first_with (pr : list (list Q)) (p r : Q) : Prop :=
  exists pre row post, pr = pre ++ row :: post /\ (precision_of row == p)%Q /\ recall_of row = r /\
    forall row', In row' pre -> ~ (precision_of row' == p)%Q.
(** The precision at which the recall is read: 1/2, or the smallest precision if all are above. *)
Definition read_at (pr : list (list Q)) (x : Q) : Prop :=
  (x == 1 # 2)%Q /\ (exists row, In row pr /\ (precision_of row <= 1 # 2)%Q)
  \/ ((1 # 2) < x)%Q /\ (exists row, In row pr /\ (precision_of row == x)%Q) /\ forall row, In row pr -> (x <= precision_of row)%Q.
(** [r] is the recall of the curve at precision [x]: between two neighbouring precisions, on the straight
    line. *)
Definition recall_at (pr : list (list Q)) (x r : Q) : Prop :=
  exists p0 r0 p1 r1, first_with pr p0 r0 /\ first_with pr p1 r1 /\ (p0 <= x <= p1)%Q /\
    (forall row, In row pr -> ~ (p0 < precision_of row < p1)%Q) /\
    ((p0 == p1)%Q /\ (r == r0)%Q \/ (p0 < p1)%Q /\ (r == r0 + (r1 - r0) * ((x - p0) / (p1 - p0)))%Q).
(** Best first. *)
Fixpoint descending {A} (key : A -> Q) (l : list A) : Prop :=
  match l with [] => True | x :: l => (forall y, In y l -> (key y <= key x)%Q) /\ descending key l end.
(** The curve of an algorithm is what its two files say (all numbers finite). *)
Definition table_of (s : fs) (a : algorithm) (pr : list (list Q)) : Prop := load_threshold_data s (al_threshold a) = Ok (map (map Fin) pr).
Definition r50_of (pr : list (list Q)) (v : option Q) : Prop :=
  exists x, read_at pr x /\ match v with Some r => recall_at pr x r | None => forall row, In row pr -> (precision_of row < x)%Q end.
Definition curve_of (s : fs) (a : algorithm) (c : curve) : Prop :=
  exists pr o, table_of s a pr /\ load_overall_row s (al_overall a) = Ok (map Fin o) /\
    cv_points c = map (fun r => (recall_of r, precision_of r)) pr /\
    cv_ods c = nth 3 o 0%Q /\ cv_ois c = nth 6 o 0%Q /\ cv_ap c = nth 7 o 0%Q /\ r50_of pr (cv_r50 c).
(** Files that can be plotted: [n] kept rows (at least one) of [m] numbers each (at least three) and eight
    overall results. *)
Definition plottable (s : fs) (a : algorithm) (n m : nat) : Prop :=
  exists pr o, table_of s a pr /\ List.length pr = n /\ Forall (fun r => List.length r = m) pr /\ (1 <= n)%nat /\ (3 <= m)%nat /\
    load_overall_row s (al_overall a) = Ok (map Fin o).
(** A number printed with [n] decimals: an optional minus sign, digits, the point and [n] digits, which
    denote the nearest number with [n] decimals. *)
Definition prints (n : nat) (v : Q) (t : text) : Prop :=
  (exists neg ip fp, t = (if neg : bool then ["-"%char] else []) ++ map digit_char ip ++ "."%char :: map digit_char fp /\
     is_digits ip /\ ip <> [] /\ is_digits fp /\ List.length fp = n) /\
  exists r, py_float t = Ok (Fin r) /\ shown (Z.of_nat n) v r.
(** The line printed for an algorithm and its entry in the legend. *)
Definition line_of (name : text) (c : curve) (t : text) : Prop :=
  exists ods ois ap r50, prints 3 (cv_ods c) ods /\ prints 3 (cv_ois c) ois /\ prints 3 (cv_ap c) ap /\
    (match cv_r50 c with Some v => prints 3 v r50 | None => r50 = lit "nan" end) /\
    t = lit "ODS=" ++ ods ++ lit ", OIS=" ++ ois ++ lit ", AP=" ++ ap ++ lit ", R50=" ++ r50 ++ lit " - " ++ name.
Definition entry_of (name : text) (c : curve) (t : text) : Prop := exists ods, prints 2 (cv_ods c) ods /\ t = lit "[F=" ++ ods ++ lit "] " ++ name.
