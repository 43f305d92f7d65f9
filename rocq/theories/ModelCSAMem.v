(** The solver on its memory: pyEdgeEval/_lib/include/csa.hh as in ModelCSA.v (same options, exact prices), with the malloc'd
    arrays, the pointers into them, every read and every write.

    Simplifications: a pointer into an array is its index (a null pointer is [None]); the fields of the node structures are
    separate arrays; [first] and [priced_out] of a left node are always equal (nothing is priced out) and share one array, whose
    last cell is tail_lhs_node->priced_out; [priced_in] is always true (csa.hh:763).  [fault] is any undefined behaviour: an
    index outside an array, a cell not written since malloc, a null pointer followed, a decrement below zero, a pointer run past
    its end. *)
From Verif Require Export ModelCSA.
Open Scope nat_scope.
Open Scope list_scope.

Definition crash {A} : res A := Err NullDereference.
Record mem (A : Type) : Type := mkMem { msize : nat; mcell : nat -> option A }.
Arguments mkMem {A}. Arguments msize {A}. Arguments mcell {A}.
Definition malloc {A} (n : nat) : mem A := mkMem n (fun _ => None).
Definition rdm {A} (m : mem A) (i : nat) : res A :=
  if Nat.ltb i (msize m) then match mcell m i with Some v => Ok v | None => crash end else crash.
Definition wrm {A} (m : mem A) (i : nat) (v : A) : res (mem A) :=
  if Nat.ltb i (msize m) then Ok (mkMem (msize m) (fun j => if Nat.eqb j i then Some v else mcell m j)) else crash.
(** [for] *)
Fixpoint loopM {A T} (f : A -> T -> res T) (l : list A) (s : T) : res T :=
  match l with [] => Ok s | a :: l => bind (f a s) (loopM f l) end.

(** csa.hh:676-820: the arc array (head, cost), [first], [few_arcs]. *)
Record graph_mem := mkGraphMem { x_arcs : mem (nat * Z); x_first : mem nat; x_few : mem bool }.
(** The fields that change: prices, the two [matched], best[3] (three cells per node), next_best, the stack, [total_e]. *)
Record node_mem := mkNodeMem {
  x_p : mem Q; x_rm : mem (option nat); x_lm : mem (option nat); x_best : mem nat; x_nb : mem Q;
  x_stack : mem nat; x_top : nat; x_te : nat }.

(** csa.hh:711-740, arc number [i]: range check, temp_arcs[i], lhs_degree[tail]++ . *)
Definition parse_arc (N : nat) (ia : nat * garc) (s : mem garc * mem nat) : res (mem garc * mem nat) :=
  let (i, a) := ia in
  if bad_input N a then Err ValueError
  else bind (wrm (fst s) i a) (fun temp => bind (rdm (snd s) (a_tail a)) (fun d =>
       bind (wrm (snd s) (a_tail a) (S d)) (fun deg => Ok (temp, deg)))).
(** csa.hh:743-755, one left node; the third component is the pointer [a]. *)
Definition set_first (deg : mem nat) (v : nat) (s : mem nat * mem bool * nat) : res (mem nat * mem bool * nat) :=
  let '(first, few, a) := s in
  bind (wrm first v a) (fun first => bind (rdm deg v) (fun d => bind (wrm few v (Nat.ltb d 4)) (fun few => Ok (first, few, a + d)))).
(** csa.hh:781-818, one arc of temp_arcs (from the last to the first). *)
Definition place_arc (temp : mem garc) (first : mem nat) (i : nat) (s : mem nat * mem (nat * Z)) : res (mem nat * mem (nat * Z)) :=
  bind (rdm temp i) (fun a => bind (rdm first (a_tail a)) (fun f => bind (rdm (fst s) (a_tail a)) (fun d =>
  match d with
  | O => crash
  | S d => bind (wrm (fst s) (a_tail a) d) (fun deg => bind (wrm (snd s) (f + d) (a_head a, a_cost a)) (fun arcs => Ok (deg, arcs)))
  end))).
(** csa.hh:656-827 [parse]. *)
Definition parse (N : nat) (g : list garc) : res graph_mem :=
  let m := length g in
  bind (loopM (fun v deg => wrm deg v O) (seq 0 N) (malloc N)) (fun deg =>
  bind (loopM (parse_arc N) (combine (seq 0 m) g) (malloc m, deg)) (fun '(temp, deg) =>
  bind (loopM (set_first deg) (seq 0 N) (malloc (N + 1), malloc N, O)) (fun '(first, few, a) =>
  bind (wrm first N a) (fun first =>
  bind (loopM (place_arc temp first) (rev (seq 0 m)) (deg, malloc (m + 1))) (fun '(_, arcs) =>
    Ok (mkGraphMem arcs first few)))))).

Section Solver.
Variable N : nat.
Variable G : graph_mem.

(** [a->c - a->head->p]. *)
Definition rcx (p : mem Q) (a : nat) : res Q :=
  bind (rdm (x_arcs G) a) (fun hc => bind (rdm p (fst hc)) (fun q => Ok (inject_Z (snd hc) - q)%Q)).
(** best[i] of node v; best[3] would be next_best. *)
Definition brd (b : mem nat) (v i : nat) : res nat := if Nat.ltb i 3 then rdm b (3 * v + i) else crash.
Definition bwr (b : mem nat) (v i a : nat) : res (mem nat) := if Nat.ltb i 3 then wrm b (3 * v + i) a else crash.
(** csa.hh:838-850 *)
Fixpoint find_slot (p : mem Q) (b : mem nat) (v : nat) (prc : Q) (todo i : nat) : res (option nat) :=
  match todo with
  | O => Ok None
  | S todo => bind (brd b v i) (fun a => bind (rcx p a) (fun r => if Qltb prc r then Ok (Some i) else find_slot p b v prc todo (S i)))
  end.
Definition sort_insertx (p : mem Q) (b : mem nat) (v size a : nat) (prc : Q) (nsize : nat) : res (mem nat) :=
  if Nat.eqb size 0 then bwr b v 0 a
  else bind (find_slot p b v prc size 0) (fun o =>
    match o with
    | Some j => bind (loopM (fun i b => bind (brd b v (i - 1)) (fun c => bwr b v i c)) (rev (seq (S j) (nsize - 1 - j))) b)
                  (fun b => bwr b v j a)
    | None => bwr b v size a
    end).
(** csa.hh:893-912 *)
Definition bb_stepx (p : mem Q) (v a : nat) (s : mem nat * mem Q) : res (mem nat * mem Q) :=
  let (b, n) := s in
  bind (rcx p a) (fun r => bind (rdm n v) (fun nb =>
  if Qltb r nb then
    bind (brd b v 2) (fun a2 => bind (rcx p a2) (fun save =>
    if Qltb r save then bind (sort_insertx p b v 3 a r 3) (fun b => bind (wrm n v save) (fun n => Ok (b, n)))
    else bind (wrm n v r) (fun n => Ok (b, n))))
  else Ok (b, n))).
(** csa.hh:858-913 [best_build]. *)
Definition best_buildx (p : mem Q) (v : nat) (b : mem nat) (n : mem Q) : res (mem nat * mem Q) :=
  bind (rdm (x_first G) v) (fun f =>
  bind (loopM (fun i b => bind (rcx p (f + i)) (fun r => sort_insertx p b v i (f + i) r (i + 1))) (seq 0 3) b) (fun b =>
  bind (rcx p (f + 3)) (fun nb => bind (wrm n v nb) (fun n =>
  bind (brd b v 2) (fun a2 => bind (rcx p a2) (fun red =>
  bind (if Qltb nb red then bind (sort_insertx p b v 3 (f + 3) nb 3) (fun b => bind (wrm n v red) (fun n => Ok (b, n))) else Ok (b, n)) (fun s =>
  bind (rdm (x_first G) (v + 1)) (fun stop =>
  if Nat.ltb stop (f + 4) then crash else loopM (bb_stepx p v) (seq (f + 4) (stop - (f + 4))) s)))))))).
(** csa.hh:965-972, 1001-1008 *)
Definition scan_stepx (p : mem Q) (a : nat) (s : Q * Q * nat) : res (Q * Q * nat) :=
  let '(pref, second, adm) := s in
  bind (rcx p a) (fun r => Ok (if Qltb r pref then (r, pref, a) else if Qltb r second then (pref, r, adm) else s)).
(** csa.hh:944-1029 *)
Definition part1x (n eps : Q) (x : node_mem) (v : nat) : res (Q * Q * nat * (mem nat * mem Q)) :=
  bind (rdm (x_few G) v) (fun few =>
  if few then
    bind (rdm (x_first G) (v + 1)) (fun stop => bind (rdm (x_first G) v) (fun f =>
    if Nat.ltb f stop then
      bind (rcx (x_p x) f) (fun pref =>
      bind (loopM (scan_stepx (x_p x)) (seq (S f) (stop - S f)) (pref, (pref + eps * (po_cost_thresh n + 1))%Q, f)) (fun r =>
      Ok (r, (x_best x, x_nb x))))
    else crash))
  else
    bind (brd (x_best x) v 1) (fun b1 => bind (rcx (x_p x) b1) (fun r1 =>
    bind (brd (x_best x) v 0) (fun b0 => bind (rcx (x_p x) b0) (fun r0 =>
    bind (brd (x_best x) v 2) (fun b2 =>
    bind (scan_stepx (x_p x) b2 (if Qltb r1 r0 then (r1, r0, b1) else (r0, r1, b0))) (fun '(pref, second, adm) =>
    bind (rdm (x_nb x) v) (fun nb =>
    if Qltb nb second then
      bind (best_buildx (x_p x) v (x_best x) (x_nb x)) (fun '(b, n) =>
      bind (brd b v 1) (fun b1 => bind (rcx (x_p x) b1) (fun r1 => bind (brd b v 0) (fun b0 => bind (rcx (x_p x) b0) (fun r0 =>
      Ok (r0, r1, b0, (b, n)))))))
    else Ok (pref, second, adm, (x_best x, x_nb x)))))))))).
(** csa_defs.h:42-46 [st_push]. *)
Definition push (st : mem nat * nat) (v : nat) : res (mem nat * nat) := bind (wrm (fst st) (snd st) v) (fun s => Ok (s, S (snd st))).
(** csa.hh:1193-1198 [st_pop]. *)
Definition pop (st : mem nat) (top : nat) : res (nat * nat) :=
  match top with O => crash | S t => bind (rdm st t) (fun v => Ok (v, t)) end.
(** csa.hh:918-1102 [double_push]. *)
Definition double_pushx (n eps : Q) (v : nat) (x : node_mem) : res node_mem :=
  bind (part1x n eps x v) (fun '(pref, second, adm, (b, nb)) =>
    let gap := (second - pref)%Q in
    bind (rdm (x_arcs G) adm) (fun hc => let w := fst hc in
    bind (rdm (x_rm x) w) (fun o =>
    match o with
    | Some u =>
      bind (wrm (x_lm x) u None) (fun lm => bind (push (x_stack x, x_top x) u) (fun '(st, top) =>
      bind (wrm lm v (Some adm)) (fun lm => bind (wrm (x_rm x) w (Some v)) (fun rm =>
      bind (rdm (x_p x) w) (fun q => bind (wrm (x_p x) w (Qred (q - (gap + eps)))) (fun p =>
      Ok (mkNodeMem p rm lm b nb st top (x_te x))))))))
    | None =>
      bind (wrm (x_lm x) v (Some adm)) (fun lm => bind (wrm (x_rm x) w (Some v)) (fun rm =>
      bind (rdm (x_p x) w) (fun q => bind (wrm (x_p x) w (Qred (q - (gap + eps)))) (fun p =>
      Ok (mkNodeMem p rm lm b nb (x_stack x) (x_top x) (x_te x - 1))))))
    end))).
(** csa.hh:1124-1137, one node. *)
Definition unmatchx (v : nat) (x : node_mem) : res node_mem :=
  bind (rdm (x_lm x) v) (fun o =>
  bind (match o with
        | Some a => bind (rdm (x_arcs G) a) (fun hc => bind (wrm (x_rm x) (fst hc) None) (fun rm => bind (wrm (x_lm x) v None) (fun lm => Ok (rm, lm))))
        | None => Ok (x_rm x, x_lm x) end) (fun '(rm, lm) =>
  bind (push (x_stack x, x_top x) v) (fun '(st, top) =>
  Ok (mkNodeMem (x_p x) rm lm (x_best x) (x_nb x) st top (S (x_te x)))))).
(** csa.hh:1150-1175 *)
Fixpoint push_loopx (fuel : nat) (n eps : Q) (x : node_mem) : res (option node_mem) :=
  match fuel with
  | O => Ok None
  | S fuel =>
    if Nat.ltb 0 (x_te x) then
      bind (pop (x_stack x) (x_top x)) (fun '(v, top) =>
      bind (double_pushx n eps v (mkNodeMem (x_p x) (x_rm x) (x_lm x) (x_best x) (x_nb x) (x_stack x) top (x_te x))) (push_loopx fuel n eps))
    else Ok (Some x)
  end.
(** csa.hh:1104-1182 [refine]. *)
Definition refinex (fuel : nat) (n eps : Q) (x : node_mem) : res (option node_mem) :=
  bind (loopM unmatchx (seq 0 N) (mkNodeMem (x_p x) (x_rm x) (x_lm x) (x_best x) (x_nb x) (x_stack x) (x_top x) 0)) (push_loopx fuel n eps).
(** csa.hh:454-469 *)
Fixpoint main_loopx (fuel pfuel : nat) (n min_eps eps : Q) (x : node_mem) : res (option node_mem) :=
  match fuel with
  | O => Ok None
  | S fuel =>
    if Qltb min_eps eps then
      let eps := update_epsilon min_eps eps in
      bind (refinex pfuel n eps x) (fun r => match r with None => Ok None | Some x => main_loopx fuel pfuel n min_eps eps x end)
    else Ok (Some x)
  end.
(** csa.hh:747, 764, 773, 343 and 367-375: nothing matched, prices 0, an empty stack of n = 2N cells, [best] for nodes with enough
    arcs. *)
Definition init_mem : res node_mem :=
  bind (loopM (fun v m => wrm m v None) (seq 0 N) (malloc N)) (fun lm =>
  bind (loopM (fun v m => wrm m v None) (seq 0 N) (malloc N)) (fun rm =>
  bind (loopM (fun v m => wrm m v 0%Q) (seq 0 N) (malloc N)) (fun p =>
  bind (loopM (fun v s => bind (rdm (x_few G) v) (fun few => if few then Ok s else best_buildx p v (fst s) (snd s))) (seq 0 N) (malloc (3 * N), malloc N)) (fun '(b, n) =>
  Ok (mkNodeMem p rm lm b n (malloc (2 * N)) 0 0))))).
(** csa.hh:396-426 [store_results]: result_b (as a node number) and result_costs. *)
Definition store_resultsx (x : node_mem) : res (mem (nat * Z)) :=
  loopM (fun v r => bind (rdm (x_lm x) v) (fun o => match o with None => crash | Some a => bind (rdm (x_arcs G) a) (fun hc => wrm r v hc) end))
    (seq 0 N) (malloc N).
End Solver.

(** csa.hh:28-33, 428-473 and 44-50: construct, solve, read every edge. *)
Definition csa_mem_solve (fuel pfuel N : nat) (g : list garc) : res (option (list (nat * Z))) :=
  bind (parse N g) (fun G =>
  let n := (2 * inject_Z (Z.of_nat N))%Q in
  bind (init_mem N G) (fun x =>
  bind (main_loopx N G fuel pfuel n (2 / (n + 1))%Q (inject_Z (max_cost g)) x) (fun r =>
    match r with
    | None => Ok None
    | Some x => bind (store_resultsx N G x) (fun rs => bind (loopM (fun i l => bind (rdm rs i) (fun e => Ok (l ++ [e]))) (seq 0 N) []) (fun l => Ok (Some l)))
    end))).
