(** pyEdgeEval/utils/progressbar.py: progress bar and the (parallel) task runners.

    Events written to the bar are kept as a log; elapsed times, fps, ETA and terminal width
    (progressbar.py:47-69) are presentation only and not modelled.
    The process pool is modelled by the CPython [Pool.imap]/[imap_unordered] protocol: tasks
    are cut into chunks, the chunks complete in an arbitrary order (the [schedule], any
    permutation of the chunk numbers — a superset of what a pool of a given size can
    do), results are delivered by index.  Worker crashes are not modelled. *)
From Verif Require Export ModelBase.

Inductive event := Started | Completed (n : Z) | Newline.

Section Track.
Context {A B : Type}.
Variable func : A -> res B.   (* the task function; may raise *)

(** progressbar.py:109-114, the sequential loop ([bar]: [not no_bar]). *)
Fixpoint seq_loop (bar : bool) (completed : Z) (tasks : list A) (results : list B) (log : list event)
  : res (list B) * list event :=
  match tasks with
  | [] => (Ok results, if bar then log ++ [Newline] else log)
  | t :: ts =>
    match func t with
    | Err e => (Err e, log)
    | Ok b => seq_loop bar (completed + 1) ts (results ++ [b])
                (if bar then log ++ [Completed (completed + 1)] else log)
    end
  end.

(** progressbar.py:78-115 [track_progress] ([start=True], so the bar writes its header). *)
Definition track_progress (no_bar : bool) (tasks : list A) : res (list B) * list event :=
  seq_loop (negb no_bar) 0 tasks [] (if no_bar then [] else [Started]).

(** [Pool._get_tasks]: consecutive chunks of [c] tasks (the last may be shorter). *)
Fixpoint chunk_fuel (fuel c : nat) (l : list A) : list (list A) :=
  match fuel, l with
  | S f, _ :: _ => firstn c l :: chunk_fuel f c (skipn c l)
  | _, _ => []
  end.
Definition chunks (c : nat) (l : list A) : list (list A) := chunk_fuel (length l) c l.

(** [mapstar]: run one chunk in a worker; the first exception replaces the chunk's result. *)
Fixpoint run_chunk (l : list A) : res (list B) :=
  match l with
  | [] => Ok []
  | a :: l => bind (func a) (fun b => bind (run_chunk l) (fun bs => Ok (b :: bs)))
  end.
End Track.

Section Pool.
Context {R : Type}.
(** [IMapIterator]: next index to deliver, delivered items, out-of-order results. *)
Record imap_st := mkImap { ix : nat; items : list R; unsorted : list (nat * R) }.

Fixpoint find_pop (i : nat) (u : list (nat * R)) : option (R * list (nat * R)) :=
  match u with
  | [] => None
  | (j, r) :: u' =>
    if Nat.eqb i j then Some (r, u')
    else match find_pop i u' with
         | None => None
         | Some (r', u'') => Some (r', (j, r) :: u'')
         end
  end.

(** [while self._index in self._unsorted: ...] *)
Fixpoint drain (fuel : nat) (s : imap_st) : imap_st :=
  match fuel with
  | O => s
  | S f => match find_pop (ix s) (unsorted s) with
           | None => s
           | Some (r, u) => drain f (mkImap (S (ix s)) (items s ++ [r]) u)
           end
  end.

(** [IMapIterator._set(i, obj)]. *)
Definition imap_set (s : imap_st) (p : nat * R) : imap_st :=
  let (i, obj) := p in
  if Nat.eqb (ix s) i
  then drain (length (unsorted s)) (mkImap (S (ix s)) (items s ++ [obj]) (unsorted s))
  else mkImap (ix s) (items s) ((i, obj) :: unsorted s).

(** [IMapUnorderedIterator._set]. *)
Definition unordered_set (s : imap_st) (p : nat * R) : imap_st :=
  mkImap (S (ix s)) (items s ++ [snd p]) (unsorted s).

(** Deliver the results in completion order [schedule]. *)
Definition deliver (keep_order : bool) (schedule : list nat) (jobs : list R) : list R :=
  let arrivals := flat_map (fun i => match nth_error jobs i with Some r => [(i, r)] | None => [] end) schedule in
  items (fold_left (if keep_order then imap_set else unordered_set) arrivals (mkImap 0 [] [])).
End Pool.

Section TrackParallel.
Context {A B : Type}.
Variable func : A -> res B.

(** The consumer: [(item for chunk in result for item in chunk)]; an exception object is
    raised when it is reached.  Lines 189-199 (bar handling), [n0 = nproc * chunksize]. *)
Fixpoint consume_items (bar skip_first : bool) (n0 completed : Z) (bs : list B)
  (results : list B) (log : list event) : Z * list B * list event :=
  match bs with
  | [] => (completed, results, log)
  | b :: bs =>
    let results := results ++ [b] in
    let len := Z.of_nat (length results) in
    if skip_first && (len <? n0) then consume_items bar skip_first n0 completed bs results log
    else if skip_first && (len =? n0)
    then consume_items bar skip_first n0 completed bs results (if bar then log ++ [Started] else log)
    else consume_items bar skip_first n0 (completed + 1) bs results
           (if bar then log ++ [Completed (completed + 1)] else log)
  end.

Fixpoint consume (bar skip_first : bool) (n0 completed : Z) (items : list (res (list B)))
  (results : list B) (log : list event) : res (list B) * list event :=
  match items with
  | [] => (Ok results, if bar then log ++ [Newline] else log)
  | Err e :: _ => (Err e, log)
  | Ok bs :: items =>
    let '(completed, results, log) := consume_items bar skip_first n0 completed bs results log in
    consume bar skip_first n0 completed items results log
  end.

(** progressbar.py:129-204 [track_parallel_progress]; [Pool(n)] with n < 1 and
    [imap(chunksize < 1)] raise ValueError. *)
Definition track_parallel_progress (nproc chunksize : Z) (skip_first keep_order no_bar : bool)
  (schedule : list nat) (tasks : list A) : res (list B) * list event :=
  if nproc <? 1 then (Err ValueError, [])
  else
    let log := if no_bar then [] else if skip_first then [] else [Started] in
    if chunksize <? 1 then (Err ValueError, log)
    else
      let jobs := map (run_chunk func) (chunks (Z.to_nat chunksize) tasks) in
      consume (negb no_bar) skip_first (nproc * chunksize) 0 (deliver keep_order schedule jobs) [] log.
End TrackParallel.
