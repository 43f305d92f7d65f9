(** The assignment solver: pyEdgeEval/_lib/include/csa.hh, the class [CSA] with the options that
    are switched on there (QUICK_MIN, MIN_COST, PREC_COSTS from csa_types.h:1; NUM_BEST = 3; stack
    order; none of USE_PRICE_OUT, USE_P_REFINE, USE_P_UPDATE, USE_SP_AUG*, STRONG_PO, so those
    #ifdef parts are not compiled and not modelled).

    Simplifications: prices and epsilon are exact rationals (doubles in the code; [Qred] only
    normalises the fraction); costs are
    unbounded integers; the profiling counters (scans, rebuilds, pushes, ...) are left out; memory
    is not modelled except that following a null [matched] pointer or scanning an empty arc list
    is [Err NullDereference].  Loops whose length is not known in advance take fuel; [None] means
    out of fuel. *)
From Verif Require Export ModelBase.
From Coq Require Export QArith.
Open Scope Z_scope.
Open Scope list_scope.

(** csa.hh:651-655: an arc (tail, head, cost), nodes numbered from 0 on each side. *)
Record garc := mkArc { a_tail : nat; a_head : nat; a_cost : Z }.

(** csa.hh:742-755 and 781-818: [v->first .. (v+1)->priced_out], the arcs of a left node in input
    order (the input is copied from its last arc to its first, each node's slots being filled from
    the last to the first). *)
Definition adj (g : list garc) (v : nat) : list garc := filter (fun a => Nat.eqb (a_tail a) v) g.
(** csa.hh:667, 733: [max_cost]. *)
Definition max_cost (g : list garc) : Z := fold_right (fun a m => Z.max (Z.abs (a_cost a)) m) 0 g.

(** Functional update of an array. *)
Definition upd {A} (f : nat -> A) (k : nat) (v : A) : nat -> A := fun i => if Nat.eqb i k then v else f i.

(** The mutable fields of the nodes: [rhs_node.p], [rhs_node.matched], [lhs_node.matched] (the
    position of the matching arc in the node's arc list), [lhs_node.best] and [next_best]; and the
    stack [active] (top first) and [total_e]. *)
Record csa := mkCsa {
  price : nat -> Q;
  rmatch : nat -> option nat;
  lmatch : nat -> option nat;
  best : nat -> list nat * Q;
  active : list nat;
  total_e : nat }.

Section Csa.
Variable g : list garc.

Definition arc_at (v k : nat) : garc := nth k (adj g v) (mkArc 0 0 0).
(** [a->c - a->head->p]. *)
Definition rc (p : nat -> Q) (v k : nat) : Q := (inject_Z (a_cost (arc_at v k)) - p (a_head (arc_at v k)))%Q.
Definition Qltb (a b : Q) : bool := negb (Qle_bool b a).

(** csa.hh:834-854 [sort_insert(best, size, a, a_prc, nsize)]: before the first entry that is
    larger, the entries behind it shifted, the result cut to [nsize] entries. *)
Fixpoint insert_before (p : nat -> Q) (v : nat) (l : list nat) (k : nat) : list nat :=
  match l with
  | [] => [k]
  | b :: t => if Qltb (rc p v k) (rc p v b) then k :: l else b :: insert_before p v t k
  end.
Definition sort_insert (p : nat -> Q) (v : nat) (l : list nat) (k nsize : nat) : list nat :=
  firstn nsize (insert_before p v l k).

(** csa.hh:858-913 [best_build] (no LOOSE_BOUND). *)
Definition bb_last (p : nat -> Q) (v : nat) (l : list nat) : Q := rc p v (nth 2 l 0%nat).
(** csa.hh:893-912, one arc. *)
Definition bb_step (p : nat -> Q) (v : nat) (s : list nat * Q) (k : nat) : list nat * Q :=
  let (l, nb) := s in
  if Qltb (rc p v k) nb
  then if Qltb (rc p v k) (bb_last p v l)
       then (sort_insert p v l k 3, bb_last p v l)
       else (l, rc p v k)
  else s.
Definition best_build (p : nat -> Q) (v : nat) : list nat * Q :=
  let l := sort_insert p v (sort_insert p v (sort_insert p v [] 0 1) 1 2) 2 3 in
  let s := if Qltb (rc p v 3) (bb_last p v l) then (sort_insert p v l 3 3, bb_last p v l) else (l, rc p v 3) in
  fold_left (bb_step p v) (seq 4 (length (adj g v) - 4)) s.

(** csa.hh:749: [few_arcs]. *)
Definition few_arcs (v : nat) : bool := Nat.ltb (length (adj g v)) 4.

(** csa.hh:965-972 and 1001-1008: one step of the search for the two smallest reduced costs;
    state (v_pref, v_second, adm). *)
Definition scan_step (p : nat -> Q) (v : nat) (s : Q * Q * nat) (k : nat) : Q * Q * nat :=
  let '(pref, second, adm) := s in
  let r := rc p v k in
  if Qltb r pref then (r, pref, k) else if Qltb r second then (pref, r, adm) else s.

(** csa.hh:263: [po_cost_thresh = 2.0 * n * (scale_factor + 1)], [n] counting the nodes of both
    sides. *)
Definition po_cost_thresh (n : Q) : Q := (2 * n * (10 + 1))%Q.

(** csa.hh:944-1029, part I of [double_push]: (v_pref, v_second, adm) and the possibly rebuilt
    [best] entry. [n] is the number of nodes of both sides. *)
Definition part1 (n eps : Q) (p : nat -> Q) (v : nat) (bst : list nat * Q) : res (Q * Q * nat * (list nat * Q)) :=
  if few_arcs v then
    match length (adj g v) with
    | O => Err NullDereference
    | S m =>
      let pref := rc p v 0 in
      Ok (fold_left (scan_step p v) (seq 1 m) (pref, (pref + eps * (po_cost_thresh n + 1))%Q, 0%nat), bst)
    end
  else
    match fst bst with
    | b0 :: b1 :: rest =>
      let s0 := if Qltb (rc p v b1) (rc p v b0) then (rc p v b1, rc p v b0, b1) else (rc p v b0, rc p v b1, b0) in
      let '(pref, second, adm) := fold_left (scan_step p v) rest s0 in
      if Qltb (snd bst) second then
        match best_build p v with
        | (c0 :: c1 :: rest', nb) => Ok (rc p v c0, rc p v c1, c0, (c0 :: c1 :: rest', nb))
        | _ => Err NullDereference
        end
      else Ok (pref, second, adm, bst)
    | _ => Err NullDereference
    end.

(** csa.hh:918-1102 [double_push]: [v] has already been taken from the stack. Every arc is priced
    in (csa.hh:763), so lines 1072-1076 are unreachable. *)
Definition double_push (n eps : Q) (v : nat) (s : csa) : res csa :=
  bind (part1 n eps (price s) v (best s v)) (fun '(pref, second, adm, bst) =>
    let gap := (second - pref)%Q in
    let w := a_head (arc_at v adm) in
    let p' := upd (price s) w (Qred (price s w - (gap + eps))) in
    match rmatch s w with
    | Some u => Ok (mkCsa p' (upd (rmatch s) w (Some v)) (upd (upd (lmatch s) u None) v (Some adm))
                          (upd (best s) v bst) (u :: active s) (total_e s))
    | None => Ok (mkCsa p' (upd (rmatch s) w (Some v)) (upd (lmatch s) v (Some adm))
                        (upd (best s) v bst) (active s) (total_e s - 1))
    end).

(** csa.hh:1124-1137: unmatch everything; all left nodes become active, the last on top. *)
Definition unmatch_all (N : nat) (s : csa) : csa :=
  fold_left (fun s v =>
      let s1 := match lmatch s v with
                | Some k => mkCsa (price s) (upd (rmatch s) (a_head (arc_at v k)) None) (upd (lmatch s) v None)
                                  (best s) (active s) (total_e s)
                | None => s
                end in
      mkCsa (price s1) (rmatch s1) (lmatch s1) (best s1) (v :: active s1) (S (total_e s1)))
    (seq 0 N) (mkCsa (price s) (rmatch s) (lmatch s) (best s) (active s) 0).
(** csa.hh:1150-1175 (EXCESS_THRESH is 0). *)
Fixpoint push_loop (fuel : nat) (n eps : Q) (s : csa) : res (option csa) :=
  match fuel with
  | O => Ok None
  | S fuel =>
    if Nat.ltb 0 (total_e s) then
      match active s with
      | [] => Err NullDereference
      | v :: rest =>
        bind (double_push n eps v (mkCsa (price s) (rmatch s) (lmatch s) (best s) rest (total_e s)))
             (push_loop fuel n eps)
      end
    else Ok (Some s)
  end.
(** csa.hh:1104-1182 [refine]. *)
Definition refine (fuel N : nat) (n eps : Q) (s : csa) : res (option csa) := push_loop fuel n eps (unmatch_all N s).

(** csa.hh:1264-1266 [update_epsilon]. *)
Definition update_epsilon (min_eps eps : Q) : Q :=
  let e := Qred (eps / 10) in if Qltb e min_eps then min_eps else e.
(** csa.hh:454-469, the main loop. *)
Fixpoint main_loop (fuel pfuel N : nat) (n min_eps eps : Q) (s : csa) : res (option csa) :=
  match fuel with
  | O => Ok None
  | S fuel =>
    if Qltb min_eps eps then
      let eps := update_epsilon min_eps eps in
      bind (refine pfuel N n eps s) (fun r =>
        match r with None => Ok None | Some s => main_loop fuel pfuel N n min_eps eps s end)
    else Ok (Some s)
  end.

(** csa.hh:742-776 and 367-375: initial prices 0, nothing matched, [best] built for nodes with
    enough arcs (here for all: [best] of the other nodes is never read). *)
Definition init_csa : csa :=
  mkCsa (fun _ => 0%Q) (fun _ => None) (fun _ => None) (fun v => best_build (fun _ => 0%Q) v) [] 0.

(** csa.hh:396-426 [store_results]: for every left node its partner and the arc's cost. *)
Fixpoint store_results (s : csa) (vs : list nat) : res (list (nat * Z)) :=
  match vs with
  | [] => Ok []
  | v :: vs =>
    match lmatch s v with
    | None => Err NullDereference
    | Some k => bind (store_results s vs) (fun r => Ok ((a_head (arc_at v k), a_cost (arc_at v k)) :: r))
    end
  end.
End Csa.

(** csa.hh:725-727: [parse_error(BADINPUT4)] (prints and exits). *)
Definition bad_input (N : nat) (a : garc) : bool := negb (Nat.ltb (a_tail a) N && Nat.ltb (a_head a) N).

(** csa.hh:28-33 and 428-473: construct and solve; [N] nodes on each side (the constructor's [n]
    is 2N).  The result lists, for left node 0, 1, ..., (partner, cost). *)
Definition csa_solve (fuel pfuel N : nat) (g : list garc) : res (option (list (nat * Z))) :=
  if existsb (bad_input N) g then Err ValueError
  else
    let n := (2 * inject_Z (Z.of_nat N))%Q in
    bind (main_loop g fuel pfuel N n (2 / (n + 1))%Q (inject_Z (max_cost g)) (init_csa g)) (fun r =>
      match r with
      | None => Ok None
      | Some s => bind (store_results g s (seq 0 N)) (fun l => Ok (Some l))
      end).
