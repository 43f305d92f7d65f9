(** pyEdgeEval/utils/progressbar.py: [track_iter_progress] (a generator) and the geometry of the bar that
    [ProgressBar.update] draws.

    A generator is a state machine: nothing of its body runs before the first [next]; it stops at [yield]
    until the consumer asks again, closes it or throws into it. *)
From Verif Require Export ModelProgress ModelFloat ModelText.
Open Scope Z_scope.
Open Scope list_scope.

Section Iter.
Context {A : Type}.

(** The argument [tasks] (lines 220-231): a sequence with a length; a pair of an iterable, which may itself
    fail after its items, and a number; any other tuple; anything else (no iterable, or one without length). *)
Inductive tasks_arg :=
| Sized (l : list A)
| Counted (items : list A) (fails : option exn) (n : Z)
| OtherTuple
| Unsuitable.

Inductive gen :=
| Fresh (a : tasks_arg)
| Paused (completed : Z) (rest : list A) (fails : option exn)
| Finished.

(** What the consumer does with a generator, and what it sees. *)
Inductive action := Next | Close | Throw (e : exn).
Inductive outcome := Yielded (a : A) | Stopped | Raised (e : exn) | Closed.

(** progressbar.py:233-237: run to the next [yield] or to the end. *)
Definition advance (completed : Z) (rest : list A) (fails : option exn) : gen * outcome * list event :=
  match rest with
  | a :: rest => (Paused completed rest fails, Yielded a, [])
  | [] => match fails with
          | None => (Finished, Stopped, [Newline])
          | Some e => (Finished, Raised e, [])
          end
  end.

(** progressbar.py:207-237 [track_iter_progress]: one action of the consumer.  [ProgressBar(...)] writes the
    header ([Started]), [update] one [Completed]. *)
Definition gen_step (g : gen) (x : action) : gen * outcome * list event :=
  match g, x with
  | Fresh a, Next =>
    match a with
    | Sized l => let '(g, o, ev) := advance 0 l None in (g, o, Started :: ev)
    | Counted l fails _ => let '(g, o, ev) := advance 0 l fails in (g, o, Started :: ev)
    | OtherTuple => (Finished, Raised AssertionError, [])
    | Unsuitable => (Finished, Raised TypeError, [])
    end
  | Paused c rest fails, Next =>
    let '(g, o, ev) := advance (c + 1) rest fails in (g, o, Completed (c + 1) :: ev)
  | Finished, Next => (Finished, Stopped, [])
  | _, Close => (Finished, Closed, [])
  | _, Throw e => (Finished, Raised e, [])
  end.

(** A history of actions: the state, the outcomes and everything written to the bar. *)
Fixpoint gen_run (g : gen) (xs : list action) : gen * list outcome * list event :=
  match xs with
  | [] => (g, [], [])
  | x :: xs =>
    let '(g, o, ev) := gen_step g x in
    let '(g, os, evs) := gen_run g xs in (g, o :: os, ev ++ evs)
  end.

(** [for task in track_iter_progress(tasks): body(task)] with the results collected; when the body raises,
    the generator is dropped, which closes it. [fuel]: a bound on the number of rounds. *)
Fixpoint for_loop {B} (body : A -> res B) (fuel : nat) (g : gen) (results : list B) (log : list event)
  : option (res (list B) * list event) :=
  match fuel with
  | O => None
  | S fuel =>
    let '(g, o, ev) := gen_step g Next in
    match o with
    | Yielded a =>
      match body a with
      | Ok b => for_loop body fuel g (results ++ [b]) (log ++ ev)
      | Err e => let '(_, _, ev') := gen_step g Close in Some (Err e, log ++ ev ++ ev')
      end
    | Raised e => Some (Err e, log ++ ev)
    | _ => Some (Ok results, log ++ ev)
    end
  end.
End Iter.
Arguments tasks_arg : clear implicits.
Arguments gen : clear implicits.
Arguments outcome : clear implicits.

(** ** The bar *)
(** progressbar.py:61-66: the number of cells of the bar, in a terminal of [term] columns, for a message
    of [msg_len] characters ([len(msg)], counting the carriage return and the two braces). *)
Definition bar_cells (bar_width term msg_len : Z) : Z :=
  Z.max 2 (Z.min (Z.min bar_width (term - msg_len + 2)) (Ztrunc (fmul (IZR term) (rnd (6 / 10)%R)))).
(** progressbar.py:53, 67: [int(bar_width * (completed / float(task_num)))], in binary64. *)
Definition mark_cells (cells completed task_num : Z) : Z :=
  Ztrunc (fmul (IZR cells) (fdiv (IZR completed) (IZR task_num))).
(** progressbar.py:68: [bar_chars]; a negative repetition is empty. *)
Definition bar_chars (cells marks : Z) : text :=
  repeat ">"%char (Z.to_nat marks) ++ repeat " "%char (Z.to_nat (cells - marks)).
(** progressbar.py:55-69: what [update] writes after the carriage return, for [0 < task_num]; [timing] is the text from
    the rate to the end (it depends on the clock). *)
Definition bar_tail (completed task_num : Z) (timing : text) : text :=
  lit "] " ++ str_nat completed ++ lit "/" ++ str_nat task_num ++ lit ", " ++ timing.
Definition bar_line (bar_width term completed task_num : Z) (timing : text) : text :=
  let msg_len := 4 + Z.of_nat (length (bar_tail completed task_num timing)) in
  let cells := bar_cells bar_width term msg_len in
  lit "[" ++ bar_chars cells (mark_cells cells completed task_num) ++ bar_tail completed task_num timing.
