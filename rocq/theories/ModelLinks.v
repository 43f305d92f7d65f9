(** pyEdgeEval/utils/path.py: [symlink] and [check_file_exist], called by several processes that may be killed.

    Simplifications: paths are texts and different texts are different places (directories on the way are no
    links); a call of the operating system is one step and fails only because of what is there, or because the
    directory of the path is missing ([parent]); options in [kwargs] do not matter on POSIX. *)
From Verif Require Export ModelText.
Open Scope Z_scope.
Open Scope list_scope.

Inductive lnode := LDir | LFile (contents : Z) | LLink (target : text).
Definition ltree : Type := text -> option lnode.
Definition lset (p : text) (n : option lnode) (t : ltree) : ltree := fun q => if text_eqb p q then n else t q.

(** One call: [symlink(src, dst, overwrite)]. *)
Record link_call := mkCall { src : text; dst : text; overwrite : bool }.
Inductive link_result := LinkMade | LExistsError | LNotFound | LIsADirectory.
(** Where the call is: before line 27, between its test and [os.remove], before line 29, returned or raised. *)
Inductive where_at := AtTest | AtRemove | AtLink | Over (r : link_result).

(** path.py:26-29 [symlink], one step. *)
Definition link_step (parent : text -> bool) (c : link_call) (w : where_at) (t : ltree) : where_at * ltree :=
  match w with
  | AtTest => (match t (dst c) with Some _ => if overwrite c then AtRemove else AtLink | None => AtLink end, t)
  | AtRemove => match t (dst c) with
                | Some LDir => (Over LIsADirectory, t)
                | Some _ => (AtLink, lset (dst c) None t)
                | None => (Over LNotFound, t)
                end
  | AtLink => match t (dst c) with
              | Some _ => (Over LExistsError, t)
              | None => if parent (dst c) then (Over LinkMade, lset (dst c) (Some (LLink (src c))) t) else (Over LNotFound, t)
              end
  | Over r => (Over r, t)
  end.

(** Processes, each with its call; a schedule is the list of the processes that move, one step each.  A killed process
    is one that is not scheduled any more. *)
Definition procs : Type := list (link_call * where_at).
Fixpoint link_move (parent : text -> bool) (i : nat) (ps : procs) (t : ltree) : procs * ltree :=
  match ps with
  | [] => ([], t)
  | (c, w) :: ps =>
    match i with
    | O => let (w, t) := link_step parent c w t in ((c, w) :: ps, t)
    | S i => let (ps, t) := link_move parent i ps t in ((c, w) :: ps, t)
    end
  end.
Fixpoint link_run (parent : text -> bool) (sched : list nat) (ps : procs) (t : ltree) : procs * ltree :=
  match sched with
  | [] => (ps, t)
  | i :: sched => let (ps, t) := link_move parent i ps t in link_run parent sched ps t
  end.
Definition start (cs : list link_call) : procs := map (fun c => (c, AtTest)) cs.

(** path.py:14-16 [check_file_exist]: [osp.isfile] follows links; a chain of links longer than [hops] (40 on Linux) or a
    cycle is no file. *)
Fixpoint is_file (hops : nat) (t : ltree) (p : text) : bool :=
  match t p with
  | Some (LFile _) => true
  | Some (LLink q) => match hops with O => false | S h => is_file h t q end
  | _ => false
  end.
Definition check_file_exist (t : ltree) (p : text) : res unit := if is_file 40 t p then Ok tt else Err FileNotFoundError.
