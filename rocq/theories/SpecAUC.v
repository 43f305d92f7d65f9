(** What the area under the precision-recall curve means, independently of sorting and
    interpolation routines.  [rec] and [prec] are the dataset recall and precision at the
    successive thresholds. *)
From Coq Require Export QArith List.
Import ListNotations.
Open Scope Q_scope.

Section Curve.
Context (rec prec : list Q).
Definition R (i : nat) : Q := nth i rec 0.
Definition P (i : nat) : Q := nth i prec 0.
(** Threshold number [i] is the first one reaching its recall. *)
Definition first_with_recall (i : nat) : Prop :=
  (i < length rec)%nat /\ forall j, (j < i)%nat -> ~ R j == R i.
(** [R j] is the next larger recall after [R i]. *)
Definition next_recall (i j : nat) : Prop :=
  R i < R j /\ forall k, (k < length rec)%nat -> R k <= R i \/ R j <= R k.
(** Height of the curve above recall [x]: the straight line between the two neighbouring
    distinct recalls, the end point itself, and 0 outside the range of recalls. *)
Inductive curve (x v : Q) : Prop :=
| curve_between i j : first_with_recall i -> first_with_recall j -> next_recall i j ->
    R i <= x -> x < R j ->
    v == P i + (P j - P i) * ((x - R i) / (R j - R i)) -> curve x v
| curve_end i : first_with_recall i -> (forall k, (k < length rec)%nat -> R k <= R i) ->
    x == R i -> v == P i -> curve x v
| curve_left : (forall k, (k < length rec)%nat -> x < R k) -> v == 0 -> curve x v
| curve_right : (forall k, (k < length rec)%nat -> R k < x) -> v == 0 -> curve x v.
End Curve.
