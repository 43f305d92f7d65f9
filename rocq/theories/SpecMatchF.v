(** The correspondence in binary64: the tolerance and the cost, as real numbers. *)
From Verif Require Export SpecCorrespond.
From Coq Require Export Reals Qreals.
From Flocq Require Import Core.
Open Scope R_scope.

(** The tolerance in pixels: [max_dist] times the diagonal. *)
Definition tolerance (max_dist : R) (b : image bool) : R :=
  max_dist * sqrt (IZR (Z.of_nat (ht b) * Z.of_nat (ht b) + Z.of_nat (wd b) * Z.of_nat (wd b))).
(** Equal up to a relative error of 2^-50 (the unit roundoff is 2^-53). *)
Definition nearly (x y : R) : Prop := Rabs (x - y) <= bpow radix2 (-50) * y.
(** No integer is that close. *)
Definition away_from_integers (x : R) : Prop := forall n : Z, bpow radix2 (-50) * x < Rabs (IZR n - x).
(** What a correspondence costs: [oc] for every pixel left over, and the distances of the pairs. *)
Definition true_cost (b1 b2 : image bool) (oc : R) (m1 m2 : image Z) : R :=
  oc * INR (unmatched b1 m1 + unmatched b2 m2) +
  fold_right Rplus 0 (map (fun d => sqrt (IZR d)) (matched_sqdists m1)).
(** Parameters for which no intermediate result is subnormal or too large for the integer weights. *)
Definition sane (b : image bool) (max_dist outlier_cost : R) : Prop :=
  (0 < Z.of_nat (ht b) <= 2 ^ 16)%Z /\ (0 < Z.of_nat (wd b) <= 2 ^ 16)%Z /\
  bpow radix2 (-90) <= max_dist <= 512 /\ 1 + bpow radix2 (-49) <= outlier_cost.
