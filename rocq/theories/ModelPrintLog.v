(** pyEdgeEval/utils/logger.py: [print_log], with what the standard library does to a record: the effective
    level of the logger, propagation to the handlers of the ancestors, and the handlers' own levels
    (get_logger gives handler and logger the same level).  The text of a record (formatter) is the message.

    Simplifications: logging.disable, filters and the cache of enabled levels are not modelled; loggers
    are only configured by get_logger; the root of the standard library has level WARNING (30). *)
From Verif Require Export ModelUtils.
Open Scope Z_scope.
Open Scope list_scope.

(** Where a message goes: [print] (standard output), a handler of a named logger, or the handler of last
    resort (standard error, for records at least WARNING that found no handler at all). *)
Inductive sink := OnStdout | Handled (owner : text) (h : handler) | LastResort.

(** [Logger.getEffectiveLevel]: the first non-zero level on the way from the logger to the root ([ancestors]: nearest
    first). *)
Fixpoint effective_level (g : logging) (ancestors : list text) : Z :=
  match ancestors with
  | [] => 30
  | n :: ns => match level g n with Some l => if l =? 0 then effective_level g ns else l | None => effective_level g ns end
  end.
(** [Logger.log] on the logger [name], then [callHandlers]. *)
Definition log_record (g : logging) (name : text) (lvl : Z) : list sink :=
  let ancestors := rev (dotted_prefixes [] name) in
  if effective_level g ancestors <=? lvl then
    let found := flat_map (fun n => map (fun h => (n, h)) (handlers g n)) ancestors in
    match found with
    | [] => if 30 <=? lvl then [LastResort] else []
    | _ => map (fun p => Handled (fst p) (snd p))
             (filter (fun p => match level g (fst p) with Some l => l <=? lvl | None => true end) found)
    end
  else [].

(** The argument [logger]. *)
Inductive logger_arg := NoLogger | Instance (name : text) | Named (s : text) | OtherObject.
(** logger.py:72-98 [print_log]; [get_logger(logger)] uses the default level INFO (20). *)
Definition print_log (arg : logger_arg) (lvl : Z) (g : logging) : res (list sink * logging) :=
  match arg with
  | NoLogger => Ok ([OnStdout], g)
  | Instance n => Ok (log_record g n lvl, g)
  | Named s =>
    if text_eqb s (lit "silent") then Ok ([], g)
    else let g := get_logger s None 20 g in Ok (log_record g s lvl, g)
  | OtherObject => Err TypeError
  end.
(** A history of messages to the same place. *)
Fixpoint print_logs (args : list (logger_arg * Z)) (g : logging) : res (list (list sink) * logging) :=
  match args with
  | [] => Ok ([], g)
  | (a, l) :: args =>
    bind (print_log a l g) (fun r => bind (print_logs args (snd r)) (fun rs => Ok (fst r :: fst rs, snd rs)))
  end.
