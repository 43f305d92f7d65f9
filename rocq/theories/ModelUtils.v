(** Utilities: pyEdgeEval/utils/{timer,logger,path}.py, the split files and the file names of the NMS
    helpers. *)
From Verif Require Export ModelResults.
Open Scope Z_scope.
Open Scope list_scope.

(** ** Timer *)
(** [clk n] is the value returned by the n-th call of [time()] in the process. *)
Definition clock : Type := nat -> Q.
(** timer.py:42-46: the attributes (print_tmpl is not modelled; [t_start] and [t_last] are set by
    [start], their initial value is never read). *)
Record timer := mkTimer { t_running : bool; t_start : Q; t_last : Q }.
Definition unstarted : timer := mkTimer false 0 0.
(** [TimerError] or the returned value ([None]: no value). *)
Definition tres : Type := res (option Q).
(** timer.py:60-65 [start]; [n] is the number of clock readings so far. *)
Definition timer_start (clk : clock) (n : nat) (t : timer) : timer * nat :=
  if t_running t then (mkTimer true (t_start t) (clk n), S n)
  else (mkTimer true (clk n) (clk (S n)), S (S n)).
(** timer.py:67-76 [since_start]. *)
Definition timer_since_start (clk : clock) (n : nat) (t : timer) : tres * timer * nat :=
  if t_running t then (Ok (Some (clk n - t_start t)%Q), mkTimer true (t_start t) (clk n), S n) else (Err TimerError, t, n).
(** timer.py:78-92 [since_last_check]. *)
Definition timer_since_last (clk : clock) (n : nat) (t : timer) : tres * timer * nat :=
  if t_running t then (Ok (Some (clk n - t_last t)%Q), mkTimer true (t_start t) (clk (S n)), S (S n)) else (Err TimerError, t, n).
(** timer.py:56-58 [__exit__]: the time since the last check is printed (returned in the model). *)
Definition timer_exit (clk : clock) (n : nat) (t : timer) : tres * timer * nat :=
  match timer_since_last clk n t with
  | (Err e, t, n) => (Err e, t, n)
  | (Ok v, t, n) => (Ok v, mkTimer false (t_start t) (t_last t), n)
  end.
(** Operations on a timer; [__enter__] (timer.py:52-54) is [start]. *)
Inductive top := TStart | TSinceStart | TSinceLast | TExit.
Definition timer_op (clk : clock) (o : top) (t : timer) (n : nat) : tres * timer * nat :=
  match o with
  | TStart => let '(t, n) := timer_start clk n t in (Ok None, t, n)
  | TSinceStart => timer_since_start clk n t
  | TSinceLast => timer_since_last clk n t
  | TExit => timer_exit clk n t
  end.
(** A history of operations: the results, the timer and the number of clock readings. *)
Fixpoint timer_run (clk : clock) (h : list top) (t : timer) (n : nat) : list tres * timer * nat :=
  match h with
  | [] => ([], t, n)
  | o :: h => let '(r, t, n) := timer_op clk o t n in let '(rs, t, n) := timer_run clk h t n in (r :: rs, t, n)
  end.
(** timer.py:42-46 [Timer(start)]. *)
Definition new_timer (clk : clock) (start : bool) (n : nat) : timer * nat := if start then timer_start clk n unstarted else (unstarted, n).

(** timer.py:95-123 [check_time]: the global dictionary of timers. *)
Definition timers : Type := text -> option timer.
Definition check_time (clk : clock) (id : text) (g : timers) (n : nat) : tres * timers * nat :=
  match g id with
  | None => let '(t, n) := new_timer clk true n in (Ok (Some 0%Q), fun i => if text_eqb i id then Some t else g i, n)
  | Some t => let '(r, t, n) := timer_since_last clk n t in (r, fun i => if text_eqb i id then Some t else g i, n)
  end.
Fixpoint check_times (clk : clock) (ids : list text) (g : timers) (n : nat) : list tres * timers * nat :=
  match ids with
  | [] => ([], g, n)
  | i :: ids => let '(r, g, n) := check_time clk i g n in let '(rs, g, n) := check_times clk ids g n in (r :: rs, g, n)
  end.

(** ** Logger *)
Inductive handler := Stream | FileHandler (file : text).
(** The registry: the names in [logger_initialized], in insertion order, and the handlers of every
    logger of the logging module (formatters are not modelled). *)
Record logging := mkLogging { initialized : list text; handlers : text -> list handler; level : text -> option Z }.
Definition no_logging : logging := mkLogging [] (fun _ => []) (fun _ => None).
(** logger.py:15-69 [get_logger]. *)
Definition get_logger (name : text) (log_file : option text) (lvl : Z) (g : logging) : logging :=
  if existsb (text_eqb name) (initialized g) then g
  else if existsb (fun i => startswith name i) (initialized g) then g
  else mkLogging (initialized g ++ [name])
    (fun n => if text_eqb n name then handlers g n ++ Stream :: match log_file with Some f => [FileHandler f] | None => [] end else handlers g n)
    (fun n => if text_eqb n name then Some lvl else level g n).
(** A history of calls. *)
Definition get_loggers (calls : list (text * option text * Z)) (g : logging) : logging :=
  fold_left (fun g c => let '(n, f, l) := c in get_logger n f l g) calls g.
(** logger.py:101-124 [get_root_logger]. *)
Definition get_root_logger (log_file : option text) (lvl : Z) : logging -> logging := get_logger (lit "pyEdgeEval") log_file lvl.
(** Logging a record on logger [name] hands it to the handlers of the logger and of its ancestors
    (the names before each dot): the standard library's propagation. *)
Fixpoint dotted_prefixes (acc : text) (t : text) : list text :=
  match t with
  | [] => [acc]
  | c :: t => if Ascii.eqb c "." then acc :: dotted_prefixes (acc ++ [c]) t else dotted_prefixes (acc ++ [c]) t
  end.
Definition emits (g : logging) (name : text) : list handler := List.concat (map (handlers g) (dotted_prefixes [] name)).

(** ** Directories *)
(** A directory tree; [File] is what [is_file()] accepts (links to files included), [Other] is neither a
    file nor a directory; directory links that form cycles are not modelled. *)
Inductive node := File | Other | Dir (entries : list (text * node)).
Definition hidden (name : text) : bool := startswith name (lit ".").
(** [str.lower] for one character below 256. *)
Definition lower_char (c : ascii) : ascii :=
  let n := code c in if (65 <=? n) && (n <=? 90) || (192 <=? n) && (n <=? 222) && negb (n =? 215) then chr (n + 32) else c.
Definition lower_text (t : text) : text := map lower_char t.
(** path.py:65-68: the suffix test ([None]: any file; a tuple is a list of suffixes). *)
Definition suffix_ok (suffix : option (list text)) (case_sensitive : bool) (rel : text) : bool :=
  match suffix with
  | None => true
  | Some l => let l := if case_sensitive then l else map lower_text l in
              existsb (endswith (if case_sensitive then rel else lower_text rel)) l
  end.
(** path.py:62-75 [_scandir]; [prefix] is the path of the directory relative to the root ("" for the
    root itself), entries in the order of [os.scandir]. *)
Definition rel_join (prefix name : text) : text := match prefix with [] => name | _ => prefix ++ "/"%char :: name end.
Fixpoint scan (suffix : option (list text)) (recursive case_sensitive : bool) (prefix : text) (d : node) {struct d} : list text :=
  match d with
  | Dir entries =>
    (fix go (es : list (text * node)) : list text :=
       match es with
       | [] => []
       | (name, x) :: es =>
         (if negb (hidden name) && match x with File => true | _ => false end then
            let rel := rel_join prefix name in if suffix_ok suffix case_sensitive rel then [rel] else []
          else if recursive then scan suffix recursive case_sensitive (rel_join prefix name) x
          else []) ++ go es
       end) entries
  | _ => []
  end.
(** path.py:32-77 [scandir] (the type checks of the arguments are not modelled). *)
Definition scandir (d : node) (suffix : option (list text)) (recursive case_sensitive : bool) : list text :=
  scan suffix recursive case_sensitive [] d.

(** ** Split files *)
(** [s.replace(pat, "")], non-empty pattern. *)
Fixpoint remove_all (fuel : nat) (pat t : text) : text :=
  match fuel with
  | O => t
  | S fuel => match t with
              | [] => []
              | c :: r => if startswith t pat then remove_all fuel pat (skipn (List.length pat) t) else c :: remove_all fuel pat r
              end
  end.
Definition str_remove (t pat : text) : text := remove_all (List.length t) pat t.
(** convert_cityscapes.py:390-397: one line per polygon file. *)
Definition split_names (polys : list text) : list text := map (fun p => str_remove p (lit "_gtFine_polygons.json")) polys.
Definition write_lines (names : list text) : text := List.concat (map (fun n => n ++ [LF]) names).
(** sbd.py:121-123, cityscapes.py:126-128: reading a split file. *)
Definition read_split (content : text) : list text := splitlines (universal_newlines content).

(** ** NMS helpers *)
(** [os.path.splitext]: the last dot, unless it belongs to the leading dots of the base name. *)
Fixpoint rfind (c : ascii) (t : text) : Z :=
  match t with
  | [] => -1
  | a :: r => let i := rfind c r in if 0 <=? i then i + 1 else if Ascii.eqb a c then 0 else -1
  end.
Definition splitext (p : text) : text * text :=
  let sep := rfind "/" p in
  let dot := rfind "." p in
  if (sep <? dot) && existsb (fun i => negb (Ascii.eqb (nth (Z.to_nat i) p "."%char) ".")) (map (fun k => sep + 1 + k) (zseq (Z.to_nat (dot - sep - 1))))
  then (firstn (Z.to_nat dot) p, skipn (Z.to_nat dot) p) else (p, []).
(** [repr] of a one character string (code points below 256). *)
Definition hex (d : Z) : ascii := if d <? 10 then chr (48 + d) else chr (87 + d).
Definition repr_char (c : ascii) : text :=
  let n := code c in
  if Ascii.eqb c "'" then lit """'"""
  else if Ascii.eqb c "\" then lit "'\\'"
  else if n =? 9 then lit "'\t'" else if n =? 10 then lit "'\n'" else if n =? 13 then lit "'\r'"
  else if (32 <=? n) && (n <=? 126) || (161 <=? n) && negb (n =? 173) then ["'"%char; c; "'"%char]
  else lit "'\x" ++ [hex (n / 16); hex (n mod 16)] ++ lit "'".
(** fast_nms.py:115-116: the tuple [os.path.splitext(file\[0\])] is formatted; its first component is the
    first character of the file name. *)
Definition nms_results_name (save_dir file : text) : text :=
  match file with
  | [] => []
  | c :: _ => path_join save_dir (lit "(" ++ repr_char c ++ lit ", '').png")
  end.
(** fast_nms.py:110-125 [nms_results]: [out f] is the image computed for file [f] (here the content of
    the written file); existing files are overwritten despite the message. *)
Definition nms_results (save_dir : text) (out : text -> text) (files : list text) (s : fs) : fs :=
  fold_left (fun s f => write (nms_results_name save_dir f) (out f) s) files s.
(** fast_nms.py:143-163 [nms_all_results] for one model: existing outputs are kept, other formats
    skipped. *)
Definition nms_all_name (save_dir file : text) : text := path_join save_dir (fst (splitext file) ++ lit ".png").
Definition nms_all_results (save_dir format : text) (out : text -> text) (files : list text) (s : fs) : fs :=
  fold_left (fun s f =>
    match s (nms_all_name save_dir f) with
    | Some _ => s
    | None => if text_eqb (snd (splitext f)) format then write (nms_all_name save_dir f) (out f) s else s
    end) files s.
