(** Independent specification used by the thinning theorems: pixel sets in the plane,
    digital connectivity and the Guo-Hall deletion conditions. Nothing here refers to
    the model of the code. *)
From Coq Require Import ZArith Bool List.
Open Scope Z_scope.

Definition pixel : Type := Z * Z.                  (* (row, column) *)
Definition pset := pixel -> Prop.

(** 8-adjacency (king's move) and 4-adjacency (rook's move) of distinct pixels. *)
Definition adj8 (p q : pixel) : Prop :=
  p <> q /\ Z.abs (fst p - fst q) <= 1 /\ Z.abs (snd p - snd q) <= 1.
Definition adj4 (p q : pixel) : Prop :=
  Z.abs (fst p - fst q) + Z.abs (snd p - snd q) = 1.

(** [linked adj A p q]: there is a path from [p] to [q] inside the set [A]. *)
Inductive linked (adj : pixel -> pixel -> Prop) (A : pset) : pixel -> pixel -> Prop :=
| linked_refl p : A p -> linked adj A p p
| linked_step p q r : linked adj A p q -> adj q r -> A r -> linked adj A p r.

Definition compl (A : pset) : pset := fun p => ~ A p.

(** [B] is a shrinking of [A] that keeps the topology:
    - [B] is a subset of [A];
    - two surviving pixels are 8-connected in [B] if they were in [A], and every pixel of
      [A] was 8-connected in [A] to a survivor (so components correspond one to one);
    - the same for the 4-connected components of the background (including the
      unbounded one), i.e. no hole is created, filled or merged. *)
Record topology_preserved (A B : pset) : Prop := {
  tp_subset : forall p, B p -> A p;
  tp_fg_conn : forall p q, B p -> B q -> linked adj8 A p q -> linked adj8 B p q;
  tp_fg_onto : forall p, A p -> exists q, B q /\ linked adj8 A p q;
  tp_bg_conn : forall p q, ~ A p -> ~ A q ->
    linked adj4 (compl B) p q -> linked adj4 (compl A) p q;
  tp_bg_onto : forall p, ~ B p -> exists q, ~ A q /\ linked adj4 (compl B) p q
}.

(** The Guo-Hall conditions (Guo and Hall, CACM 1989) on the eight neighbours of a
    pixel.  [sector a b c]: going round, a 0 edge-neighbour [a] followed by a 1 in the
    next corner or edge neighbour. *)
Definition bz (b : bool) : Z := if b then 1 else 0.

Definition gh_crossings (e ne n nw w sw s se : bool) : Z :=
    bz (negb e && (ne || n)) + bz (negb n && (nw || w))
  + bz (negb w && (sw || s)) + bz (negb s && (se || e)).

Definition gh_N1 (e ne n nw w sw s se : bool) : Z :=
  bz (e || ne) + bz (n || nw) + bz (w || sw) + bz (s || se).
Definition gh_N2 (e ne n nw w sw s se : bool) : Z :=
  bz (ne || n) + bz (nw || w) + bz (sw || s) + bz (se || e).

(** Odd pass: east boundary and north-east corner pixels; even pass: the same rotated by
    180 degrees. *)
Definition gh_delete_odd (e ne n nw w sw s se : bool) : bool :=
  let m := Z.min (gh_N1 e ne n nw w sw s se) (gh_N2 e ne n nw w sw s se) in
  (gh_crossings e ne n nw w sw s se =? 1) && (2 <=? m) && (m <=? 3)
  && negb ((ne || n || negb se) && e).
Definition gh_delete_even (e ne n nw w sw s se : bool) : bool :=
  let m := Z.min (gh_N1 e ne n nw w sw s se) (gh_N2 e ne n nw w sw s se) in
  (gh_crossings e ne n nw w sw s se =? 1) && (2 <=? m) && (m <=? 3)
  && negb ((sw || s || negb nw) && w).

(** One parallel pass over a pixel set given by its characteristic function. *)
Definition gh_pass (del : bool -> bool -> bool -> bool -> bool -> bool -> bool -> bool -> bool)
  (S : Z -> Z -> bool) (r c : Z) : bool :=
  S r c && negb (del (S r (c+1)) (S (r-1) (c+1)) (S (r-1) c) (S (r-1) (c-1))
                     (S r (c-1)) (S (r+1) (c-1)) (S (r+1) c) (S (r+1) (c+1))).

(** Number of foreground neighbours. *)
Definition degree8 (S : Z -> Z -> bool) (r c : Z) : Z :=
  bz (S r (c+1)) + bz (S (r-1) (c+1)) + bz (S (r-1) c) + bz (S (r-1) (c-1))
  + bz (S r (c-1)) + bz (S (r+1) (c-1)) + bz (S (r+1) c) + bz (S (r+1) (c+1)).

(** [n] complete Guo-Hall iterations (odd pass, then even pass). *)
Fixpoint gh_run (n : nat) (S : Z -> Z -> bool) : Z -> Z -> bool :=
  match n with
  | O => S
  | Datatypes.S n => gh_run n (gh_pass gh_delete_even (gh_pass gh_delete_odd S))
  end.
