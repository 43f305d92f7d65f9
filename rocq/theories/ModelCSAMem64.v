(** The solver on its memory (ModelCSAMem.v) with the doubles of the code: csa.hh with its malloc'd arrays and the arithmetic of
    ModelCSA64.v.  The graph in memory, parsing it, the stack and the access to best[] are those of ModelCSAMem.v.

    Simplifications: those of ModelCSAMem.v and ModelCSA64.v (no upper bound on the exponent of a double). *)
From Verif Require Export ModelCSA64 ModelCSAMem.
Open Scope nat_scope.
Open Scope list_scope.

(** csa_types.h: the fields of the nodes that change, the stack, [total_e]; as in ModelCSAMem.v. *)
Record dnode_mem := mkDNode {
  y_p : mem R; y_rm : mem (option nat); y_lm : mem (option nat); y_best : mem nat; y_nb : mem R;
  y_stack : mem nat; y_top : nat; y_te : nat }.

Section Solver.
Variable N : nat.
Variable G : graph_mem.

(** [a->c - a->head->p]. *)
Definition drcx (p : mem R) (a : nat) : res R :=
  bind (rdm (x_arcs G) a) (fun hc => bind (rdm p (fst hc)) (fun q => Ok (fsub (IZR (snd hc)) q))).
(** csa.hh:838-850 *)
Fixpoint dfind_slot (p : mem R) (b : mem nat) (v : nat) (prc : R) (todo i : nat) : res (option nat) :=
  match todo with
  | O => Ok None
  | S todo => bind (brd b v i) (fun a => bind (drcx p a) (fun r => if Rltb prc r then Ok (Some i) else dfind_slot p b v prc todo (S i)))
  end.
Definition dsort_insertx (p : mem R) (b : mem nat) (v size a : nat) (prc : R) (nsize : nat) : res (mem nat) :=
  if Nat.eqb size 0 then bwr b v 0 a
  else bind (dfind_slot p b v prc size 0) (fun o =>
    match o with
    | Some j => bind (loopM (fun i b => bind (brd b v (i - 1)) (fun c => bwr b v i c)) (rev (seq (S j) (nsize - 1 - j))) b)
                  (fun b => bwr b v j a)
    | None => bwr b v size a
    end).
(** csa.hh:893-912 *)
Definition dbb_stepx (p : mem R) (v a : nat) (s : mem nat * mem R) : res (mem nat * mem R) :=
  let (b, n) := s in
  bind (drcx p a) (fun r => bind (rdm n v) (fun nb =>
  if Rltb r nb then
    bind (brd b v 2) (fun a2 => bind (drcx p a2) (fun save =>
    if Rltb r save then bind (dsort_insertx p b v 3 a r 3) (fun b => bind (wrm n v save) (fun n => Ok (b, n)))
    else bind (wrm n v r) (fun n => Ok (b, n))))
  else Ok (b, n))).
(** csa.hh:858-913 [best_build]. *)
Definition dbest_buildx (p : mem R) (v : nat) (b : mem nat) (n : mem R) : res (mem nat * mem R) :=
  bind (rdm (x_first G) v) (fun f =>
  bind (loopM (fun i b => bind (drcx p (f + i)) (fun r => dsort_insertx p b v i (f + i) r (i + 1))) (seq 0 3) b) (fun b =>
  bind (drcx p (f + 3)) (fun nb => bind (wrm n v nb) (fun n =>
  bind (brd b v 2) (fun a2 => bind (drcx p a2) (fun red =>
  bind (if Rltb nb red then bind (dsort_insertx p b v 3 (f + 3) nb 3) (fun b => bind (wrm n v red) (fun n => Ok (b, n))) else Ok (b, n)) (fun s =>
  bind (rdm (x_first G) (v + 1)) (fun stop =>
  if Nat.ltb stop (f + 4) then crash else loopM (dbb_stepx p v) (seq (f + 4) (stop - (f + 4))) s)))))))).
(** csa.hh:965-972, 1001-1008 *)
Definition dscan_stepx (p : mem R) (a : nat) (s : R * R * nat) : res (R * R * nat) :=
  let '(pref, second, adm) := s in
  bind (drcx p a) (fun r => Ok (if Rltb r pref then (r, pref, a) else if Rltb r second then (pref, r, adm) else s)).
(** csa.hh:944-1029 *)
Definition dpart1x (n eps : R) (x : dnode_mem) (v : nat) : res (R * R * nat * (mem nat * mem R)) :=
  bind (rdm (x_few G) v) (fun few =>
  if few then
    bind (rdm (x_first G) (v + 1)) (fun stop => bind (rdm (x_first G) v) (fun f =>
    if Nat.ltb f stop then
      bind (drcx (y_p x) f) (fun pref =>
      bind (loopM (dscan_stepx (y_p x)) (seq (S f) (stop - S f)) (pref, fadd pref (fmul eps (fadd (dpo_cost_thresh n) 1)), f)) (fun r =>
      Ok (r, (y_best x, y_nb x))))
    else crash))
  else
    bind (brd (y_best x) v 1) (fun b1 => bind (drcx (y_p x) b1) (fun r1 =>
    bind (brd (y_best x) v 0) (fun b0 => bind (drcx (y_p x) b0) (fun r0 =>
    bind (brd (y_best x) v 2) (fun b2 =>
    bind (dscan_stepx (y_p x) b2 (if Rltb r1 r0 then (r1, r0, b1) else (r0, r1, b0))) (fun '(pref, second, adm) =>
    bind (rdm (y_nb x) v) (fun nb =>
    if Rltb nb second then
      bind (dbest_buildx (y_p x) v (y_best x) (y_nb x)) (fun '(b, n) =>
      bind (brd b v 1) (fun b1 => bind (drcx (y_p x) b1) (fun r1 => bind (brd b v 0) (fun b0 => bind (drcx (y_p x) b0) (fun r0 =>
      Ok (r0, r1, b0, (b, n)))))))
    else Ok (pref, second, adm, (y_best x, y_nb x)))))))))).
(** csa.hh:918-1102 [double_push]. *)
Definition ddouble_pushx (n eps : R) (v : nat) (x : dnode_mem) : res dnode_mem :=
  bind (dpart1x n eps x v) (fun '(pref, second, adm, (b, nb)) =>
    let gap := fsub second pref in
    bind (rdm (x_arcs G) adm) (fun hc => let w := fst hc in
    bind (rdm (y_rm x) w) (fun o =>
    match o with
    | Some u =>
      bind (wrm (y_lm x) u None) (fun lm => bind (push (y_stack x, y_top x) u) (fun '(st, top) =>
      bind (wrm lm v (Some adm)) (fun lm => bind (wrm (y_rm x) w (Some v)) (fun rm =>
      bind (rdm (y_p x) w) (fun q => bind (wrm (y_p x) w (fsub q (fadd gap eps))) (fun p =>
      Ok (mkDNode p rm lm b nb st top (y_te x))))))))
    | None =>
      bind (wrm (y_lm x) v (Some adm)) (fun lm => bind (wrm (y_rm x) w (Some v)) (fun rm =>
      bind (rdm (y_p x) w) (fun q => bind (wrm (y_p x) w (fsub q (fadd gap eps))) (fun p =>
      Ok (mkDNode p rm lm b nb (y_stack x) (y_top x) (y_te x - 1))))))
    end))).
(** csa.hh:1124-1137, one node. *)
Definition dunmatchx (v : nat) (x : dnode_mem) : res dnode_mem :=
  bind (rdm (y_lm x) v) (fun o =>
  bind (match o with
        | Some a => bind (rdm (x_arcs G) a) (fun hc => bind (wrm (y_rm x) (fst hc) None) (fun rm => bind (wrm (y_lm x) v None) (fun lm => Ok (rm, lm))))
        | None => Ok (y_rm x, y_lm x) end) (fun '(rm, lm) =>
  bind (push (y_stack x, y_top x) v) (fun '(st, top) =>
  Ok (mkDNode (y_p x) rm lm (y_best x) (y_nb x) st top (S (y_te x)))))).
(** csa.hh:1150-1175 *)
Fixpoint dpush_loopx (fuel : nat) (n eps : R) (x : dnode_mem) : res (option dnode_mem) :=
  match fuel with
  | O => Ok None
  | S fuel =>
    if Nat.ltb 0 (y_te x) then
      bind (pop (y_stack x) (y_top x)) (fun '(v, top) =>
      bind (ddouble_pushx n eps v (mkDNode (y_p x) (y_rm x) (y_lm x) (y_best x) (y_nb x) (y_stack x) top (y_te x))) (dpush_loopx fuel n eps))
    else Ok (Some x)
  end.
(** csa.hh:1104-1182 [refine]. *)
Definition drefinex (fuel : nat) (n eps : R) (x : dnode_mem) : res (option dnode_mem) :=
  bind (loopM dunmatchx (seq 0 N) (mkDNode (y_p x) (y_rm x) (y_lm x) (y_best x) (y_nb x) (y_stack x) (y_top x) 0)) (dpush_loopx fuel n eps).
(** csa.hh:454-469 *)
Fixpoint dmain_loopx (fuel pfuel : nat) (n min_eps eps : R) (x : dnode_mem) : res (option dnode_mem) :=
  match fuel with
  | O => Ok None
  | S fuel =>
    if Rltb min_eps eps then
      let eps := dupdate_epsilon min_eps eps in
      bind (drefinex pfuel n eps x) (fun r => match r with None => Ok None | Some x => dmain_loopx fuel pfuel n min_eps eps x end)
    else Ok (Some x)
  end.
(** csa.hh:747, 764, 773, 343 and 367-375: nothing matched, prices 0, an empty stack of n = 2N cells, [best] for nodes with enough
    arcs. *)
Definition dinit_mem : res dnode_mem :=
  bind (loopM (fun v m => wrm m v None) (seq 0 N) (malloc N)) (fun lm =>
  bind (loopM (fun v m => wrm m v None) (seq 0 N) (malloc N)) (fun rm =>
  bind (loopM (fun v m => wrm m v 0%R) (seq 0 N) (malloc N)) (fun p =>
  bind (loopM (fun v s => bind (rdm (x_few G) v) (fun few => if few then Ok s else dbest_buildx p v (fst s) (snd s))) (seq 0 N) (malloc (3 * N), malloc N)) (fun '(b, n) =>
  Ok (mkDNode p rm lm b n (malloc (2 * N)) 0 0))))).
(** csa.hh:396-426 [store_results]: result_b (as a node number) and result_costs. *)
Definition dstore_resultsx (x : dnode_mem) : res (mem (nat * Z)) :=
  loopM (fun v r => bind (rdm (y_lm x) v) (fun o => match o with None => crash | Some a => bind (rdm (x_arcs G) a) (fun hc => wrm r v hc) end))
    (seq 0 N) (malloc N).
End Solver.

(** csa.hh:28-33, 428-473 and 44-50: construct, solve, read every edge. *)
Definition csa_mem_solve64 (fuel pfuel N : nat) (g : list garc) : res (option (list (nat * Z))) :=
  bind (parse N g) (fun G =>
  let n := (2 * Z.of_nat N)%Z in
  bind (dinit_mem N G) (fun x =>
  bind (dmain_loopx N G fuel pfuel (IZR n) (fdiv 2 (IZR (n + 1))) (IZR (max_cost g)) x) (fun r =>
    match r with
    | None => Ok None
    | Some x => bind (dstore_resultsx N G x) (fun rs => bind (loopM (fun i l => bind (rdm rs i) (fun e => Ok (l ++ [e]))) (seq 0 N) []) (fun l => Ok (Some l)))
    end))).
