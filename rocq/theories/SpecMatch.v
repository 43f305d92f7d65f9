(** Specification side of the assignment problem. *)
From Verif Require Export ModelCSA.

(** A perfect matching of the bipartite graph with [N] nodes on each side, given by the partner
    and the cost paid at left node 0, 1, ..., N-1: every pair is an arc of that cost and no right
    node is used twice. *)
Definition perfect_matching (N : nat) (g : list garc) (m : list (nat * Z)) : Prop :=
  length m = N /\ NoDup (map fst m) /\
  (forall v w c, nth_error m v = Some (w, c) -> (w < N)%nat /\ In (mkArc v w c) g).
Definition total_cost (m : list (nat * Z)) : Z := zsum (map snd m).
Definition minimum_cost_matching (N : nat) (g : list garc) (m : list (nat * Z)) : Prop :=
  perfect_matching N g m /\ forall m', perfect_matching N g m' -> total_cost m <= total_cost m'.
