(** Specification notions for label maps and multi-label encodings. *)
From Verif Require Export ModelLabels.

(** Every channel of the stack is an array of the announced shape. *)
Definition wf_stack (s : stack) : Prop :=
  forall e, In e (chans s) -> wf e /\ ht e = s_h s /\ wd e = s_w s.
(** Every entry is 0 or 1 (an edge stack). *)
Definition binary_stack (s : stack) : Prop :=
  forall e, In e (chans s) -> forall y x, px 0 e y x = 0 \/ px 0 e y x = 1.
(** [s[k, y, x]]; 0 for a channel that does not exist. *)
Definition at3 (s : stack) (k : nat) (y x : Z) : Z :=
  px 0 (nth k (chans s) (tab (s_h s) (s_w s) (fun _ _ => 0))) y x.
(** Pad or truncate a stack to [n] channels. *)
Definition resized (n : nat) (s : stack) : stack :=
  mkStack (s_h s) (s_w s) (map (fun k => nth k (chans s) (tab (s_h s) (s_w s) (fun _ _ => 0))) (seq 0 n)).
(** Rank of instance [i] among the instances of category [cat]. *)
Definition rank (cat : Z) (inst_cats : list Z) (i : nat) : Z :=
  Z.of_nat (length (filter (Z.eqb cat) (firstn i inst_cats))).

(** A label table maps different ids to the different numbers 0..n-1. *)
Definition numbering (d : dict) : Prop :=
  NoDup (map fst d) /\ NoDup (map snd d) /\
  forall l t, In (l, t) d -> 0 <= l /\ 0 <= t < Z.of_nat (length d).
