(** The assignment solver of ModelCSA.v (pyEdgeEval/_lib/include/csa.hh) once more, with the prices, reduced
    costs and epsilon as the doubles they are in the code: every operation is rounded to binary64 ([rnd],
    ModelFloat.v).  Arcs, adjacency lists and the input check are those of ModelCSA.v.

    Simplifications: as in ModelCSA.v, except that numbers are binary64 numbers without an upper bound on
    the exponent (an overflow to infinity is not modelled). *)
From Verif Require Export ModelCSA ModelFloat.
Open Scope list_scope.

Definition Rltb (a b : R) : bool := if Rlt_dec a b then true else false.

(** The mutable fields of the nodes, the stack and [total_e], as in ModelCSA.v. *)
Record dcsa := mkD {
  dprice : nat -> R;
  drmatch : nat -> option nat;
  dlmatch : nat -> option nat;
  dbest : nat -> list nat * R;
  dactive : list nat;
  dtotal : nat }.

Section Csa.
Variable g : list garc.

(** [a->c - a->head->p] (csa.hh:787-795: [c] is the cost converted to double). *)
Definition drc (p : nat -> R) (v k : nat) : R := fsub (IZR (a_cost (arc_at g v k))) (p (a_head (arc_at g v k))).

(** csa.hh:834-854 [sort_insert]. *)
Fixpoint dinsert_before (p : nat -> R) (v : nat) (l : list nat) (k : nat) : list nat :=
  match l with
  | [] => [k]
  | b :: t => if Rltb (drc p v k) (drc p v b) then k :: l else b :: dinsert_before p v t k
  end.
Definition dsort_insert (p : nat -> R) (v : nat) (l : list nat) (k nsize : nat) : list nat :=
  firstn nsize (dinsert_before p v l k).

(** csa.hh:858-913 [best_build]. *)
Definition dbb_last (p : nat -> R) (v : nat) (l : list nat) : R := drc p v (nth 2 l 0%nat).
Definition dbb_step (p : nat -> R) (v : nat) (s : list nat * R) (k : nat) : list nat * R :=
  let (l, nb) := s in
  if Rltb (drc p v k) nb
  then if Rltb (drc p v k) (dbb_last p v l)
       then (dsort_insert p v l k 3, dbb_last p v l)
       else (l, drc p v k)
  else s.
Definition dbest_build (p : nat -> R) (v : nat) : list nat * R :=
  let l := dsort_insert p v (dsort_insert p v (dsort_insert p v [] 0 1) 1 2) 2 3 in
  let s := if Rltb (drc p v 3) (dbb_last p v l) then (dsort_insert p v l 3 3, dbb_last p v l) else (l, drc p v 3) in
  fold_left (dbb_step p v) (seq 4 (List.length (adj g v) - 4)) s.

(** csa.hh:965-972 and 1001-1008. *)
Definition dscan_step (p : nat -> R) (v : nat) (s : R * R * nat) (k : nat) : R * R * nat :=
  let '(pref, second, adm) := s in
  let r := drc p v k in
  if Rltb r pref then (r, pref, k) else if Rltb r second then (pref, r, adm) else s.

(** csa.hh:263: [2.0 * (double) n * (scale_factor + 1)]. *)
Definition dpo_cost_thresh (n : R) : R := fmul (fmul 2 n) (fadd 10 1).

(** csa.hh:944-1029, part I of [double_push]; line 958 is
    [v_second = v_pref + epsilon * (po_cost_thresh + 1.0)]. *)
Definition dpart1 (n eps : R) (p : nat -> R) (v : nat) (bst : list nat * R) : res (R * R * nat * (list nat * R)) :=
  if few_arcs g v then
    match List.length (adj g v) with
    | O => Err NullDereference
    | S m =>
      let pref := drc p v 0 in
      Ok (fold_left (dscan_step p v) (seq 1 m) (pref, fadd pref (fmul eps (fadd (dpo_cost_thresh n) 1)), 0%nat), bst)
    end
  else
    match fst bst with
    | b0 :: b1 :: rest =>
      let s0 := if Rltb (drc p v b1) (drc p v b0) then (drc p v b1, drc p v b0, b1) else (drc p v b0, drc p v b1, b0) in
      let '(pref, second, adm) := fold_left (dscan_step p v) rest s0 in
      if Rltb (snd bst) second then
        match dbest_build p v with
        | (c0 :: c1 :: rest', nb) => Ok (drc p v c0, drc p v c1, c0, (c0 :: c1 :: rest', nb))
        | _ => Err NullDereference
        end
      else Ok (pref, second, adm, bst)
    | _ => Err NullDereference
    end.

(** csa.hh:918-1102 [double_push]; lines 1030 and 1101 are [adm_gap = v_second - v_pref] and
    [w->p -= adm_gap + epsilon]. *)
Definition ddouble_push (n eps : R) (v : nat) (s : dcsa) : res dcsa :=
  bind (dpart1 n eps (dprice s) v (dbest s v)) (fun '(pref, second, adm, bst) =>
    let gap := fsub second pref in
    let w := a_head (arc_at g v adm) in
    let p' := upd (dprice s) w (fsub (dprice s w) (fadd gap eps)) in
    match drmatch s w with
    | Some u => Ok (mkD p' (upd (drmatch s) w (Some v)) (upd (upd (dlmatch s) u None) v (Some adm))
                          (upd (dbest s) v bst) (u :: dactive s) (dtotal s))
    | None => Ok (mkD p' (upd (drmatch s) w (Some v)) (upd (dlmatch s) v (Some adm))
                        (upd (dbest s) v bst) (dactive s) (dtotal s - 1))
    end).

(** csa.hh:1124-1137. *)
Definition dunmatch_all (N : nat) (s : dcsa) : dcsa :=
  fold_left (fun s v =>
      let s1 := match dlmatch s v with
                | Some k => mkD (dprice s) (upd (drmatch s) (a_head (arc_at g v k)) None) (upd (dlmatch s) v None)
                                  (dbest s) (dactive s) (dtotal s)
                | None => s
                end in
      mkD (dprice s1) (drmatch s1) (dlmatch s1) (dbest s1) (v :: dactive s1) (S (dtotal s1)))
    (seq 0 N) (mkD (dprice s) (drmatch s) (dlmatch s) (dbest s) (dactive s) 0).
(** csa.hh:1150-1175. *)
Fixpoint dpush_loop (fuel : nat) (n eps : R) (s : dcsa) : res (option dcsa) :=
  match fuel with
  | O => Ok None
  | S fuel =>
    if Nat.ltb 0 (dtotal s) then
      match dactive s with
      | [] => Err NullDereference
      | v :: rest =>
        bind (ddouble_push n eps v (mkD (dprice s) (drmatch s) (dlmatch s) (dbest s) rest (dtotal s)))
             (dpush_loop fuel n eps)
      end
    else Ok (Some s)
  end.
(** csa.hh:1104-1182 [refine]. *)
Definition drefine (fuel N : nat) (n eps : R) (s : dcsa) : res (option dcsa) := dpush_loop fuel n eps (dunmatch_all N s).

(** csa.hh:1264-1266 [update_epsilon]. *)
Definition dupdate_epsilon (min_eps eps : R) : R :=
  let e := fdiv eps 10 in if Rltb e min_eps then min_eps else e.
(** csa.hh:454-469, the main loop. *)
Fixpoint dmain_loop (fuel pfuel N : nat) (n min_eps eps : R) (s : dcsa) : res (option dcsa) :=
  match fuel with
  | O => Ok None
  | S fuel =>
    if Rltb min_eps eps then
      let eps := dupdate_epsilon min_eps eps in
      bind (drefine pfuel N n eps s) (fun r =>
        match r with None => Ok None | Some s => dmain_loop fuel pfuel N n min_eps eps s end)
    else Ok (Some s)
  end.

(** csa.hh:742-776 and 367-375. *)
Definition dinit : dcsa :=
  mkD (fun _ => 0) (fun _ => None) (fun _ => None) (fun v => dbest_build (fun _ => 0) v) [] 0.

(** csa.hh:396-426 [store_results] (the [(int)] of a cost converted to double is that cost). *)
Fixpoint dstore_results (s : dcsa) (vs : list nat) : res (list (nat * Z)) :=
  match vs with
  | [] => Ok []
  | v :: vs =>
    match dlmatch s v with
    | None => Err NullDereference
    | Some k => bind (dstore_results s vs) (fun r => Ok ((a_head (arc_at g v k), a_cost (arc_at g v k)) :: r))
    end
  end.
End Csa.

(** csa.hh:28-33 and 428-473; line 444 is [min_epsilon = 2.0 / (double) (n + 1)] with [n] = 2N, and epsilon
    starts as the largest absolute cost (lines 343, 733). *)
Definition csa_solve64 (fuel pfuel N : nat) (g : list garc) : res (option (list (nat * Z))) :=
  if existsb (bad_input N) g then Err ValueError
  else
    let n := (2 * Z.of_nat N)%Z in
    bind (dmain_loop g fuel pfuel N (IZR n) (fdiv 2 (IZR (n + 1))) (IZR (max_cost g)) (dinit g)) (fun r =>
      match r with
      | None => Ok None
      | Some s => bind (dstore_results g s (seq 0 N)) (fun l => Ok (Some l))
      end).
