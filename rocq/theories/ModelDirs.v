(** Directories made by several processes at the same time
    (pyEdgeEval/utils/path.py: mkdir_or_exist; helpers/convert_cityscapes.py), on top of ModelJobs.v.

    Simplifications (also in DESIGN.md): paths are texts, and different texts are different places (no "..",
    no "." inside a path, no links, directory names without trailing slash); [expanduser] leaves names that
    do not start with a tilde alone, others are not considered; a file system call fails only for want of a
    directory or because something is in the way (no permissions, no full disk), and these failures are told
    apart only as far as the code does (FileExistsError or another OSError); mkdir is one step, as in POSIX;
    [os.makedirs] is that of Lib/os.py. *)
From Verif Require Export ModelJobs.
Open Scope Z_scope.
Open Scope list_scope.

Inductive node := Dir | File (c : content).
Definition tree : Type := text -> option node.
Definition set_node (p : text) (n : node) (t : tree) : tree := fun q => if text_eqb p q then Some n else t q.
(** The current directory and the root directory are always there. *)
Definition top (p : text) : bool := forallb (Ascii.eqb "/") p || text_eqb p (lit ".").
(** [osp.exists], [osp.isdir]. *)
Definition exists_in (t : tree) (p : text) : bool := top p || match t p with Some _ => true | None => false end.
Definition dir_in (t : tree) (p : text) : bool := top p || match t p with Some Dir => true | _ => false end.
(** The files of a tree. *)
Definition files (t : tree) : store := fun p => match t p with Some (File c) => Some c | _ => None end.

Inductive oserr := FileExists | OtherOS.
(** A job returns, raises an exception of the code, or an OSError. *)
Inductive outcome := Done (r : res unit) | Failed (e : oserr).
Inductive dprog :=
| DRet (o : outcome)
| Probe (p : text) (k : bool -> dprog)
| IsDir (p : text) (k : bool -> dprog)
| Mkdir (p : text) (k : option oserr -> dprog)
| Read (p : text) (k : option content -> dprog)
| Write (p : text) (c : content) (k : dprog).

(** ** Programs *)
(** Lib/os.py [makedirs(name, exist_ok=True)]. *)
Fixpoint makedirs (fuel : nat) (name : text) (k : option oserr -> dprog) : dprog :=
  let finish := Mkdir name (fun r => match r with
                                     | None => k None
                                     | Some e => IsDir name (fun b => if b then k None else k (Some e))
                                     end) in
  let '(head, tail) := if nonempty (basename name) then (dirname name, basename name)
                       else (dirname (dirname name), basename (dirname name)) in
  match fuel with
  | O => finish
  | S fuel =>
    if nonempty head && nonempty tail
    then Probe head (fun b =>
           if b then finish
           else makedirs fuel head (fun r =>
             match r with
             | Some OtherOS => k (Some OtherOS)
             | _ => if text_eqb tail (lit ".") then k None else finish
             end))
    else finish
  end.
(** path.py:19-23 [mkdir_or_exist]. *)
Definition mkdir_or_exist (name : text) (k : option oserr -> dprog) : dprog :=
  if nonempty name then makedirs (List.length name) name k else k None.
(** A call of it. *)
Definition mkdir_call (name : text) : dprog := mkdir_or_exist name (fun r => DRet match r with None => Done (Ok tt) | Some e => Failed e end).
(** The file operations of ModelJobs.v. *)
Fixpoint lift (q : prog) : dprog :=
  match q with
  | Ret r => DRet (Done r)
  | Get p k => Read p (fun c => lift (k c))
  | Put p c k => Write p c (lift k)
  end.
(** Make a directory, then go on. *)
Definition in_directory (d : text) (q : prog) : dprog :=
  mkdir_or_exist d (fun r => match r with None => lift q | Some e => DRet (Failed e) end).
(** convert_cityscapes.py:97-104: the assertion on the radius comes first. *)
Definition convert_job (label_file : text) (inst_sensitive : bool) (proc_dir label_suffix inst_suffix edge_suffix : text)
    (radius : Z) (thin : bool) (scale : Q) (seal : bool) : dprog :=
  if thin && negb (radius =? 1) then DRet (Done (Err AssertionError))
  else in_directory (str_replace (dirname label_file) (lit "gtFine") proc_dir)
         (convert_prog label_file inst_sensitive proc_dir label_suffix inst_suffix edge_suffix radius thin scale seal).
(** convert_cityscapes.py:43-55 [convert_json_to_label]. *)
Definition json_job (draw : text -> res picture) (proc json : text) : dprog :=
  in_directory (str_replace (dirname json) (lit "gtFine") proc) (json_prog draw proc json).

(** ** Running *)
Definition dstep1 (q : dprog) (t : tree) : dprog * tree :=
  match q with
  | DRet _ => (q, t)
  | Probe p k => (k (exists_in t p), t)
  | IsDir p k => (k (dir_in t p), t)
  | Mkdir p k => if exists_in t p then (k (Some FileExists), t)
                 else if dir_in t (dirname p) then (k None, set_node p Dir t)
                 else (k (Some OtherOS), t)
  | Read p k => (k (files t p), t)
  | Write p c k => if dir_in t p then (DRet (Failed OtherOS), t)
                   else if dir_in t (dirname p) then (k, set_node p (File c) t)
                   else (DRet (Failed OtherOS), t)
  end.
Fixpoint dstep_at (i : nat) (jobs : list dprog) (t : tree) : list dprog * tree :=
  match jobs, i with
  | [], _ => ([], t)
  | q :: jobs, O => let (q, t) := dstep1 q t in (q :: jobs, t)
  | q :: jobs, S i => let (jobs, t) := dstep_at i jobs t in (q :: jobs, t)
  end.
Fixpoint dinterleave (sched : list nat) (jobs : list dprog) (t : tree) : list dprog * tree :=
  match sched with
  | [] => (jobs, t)
  | i :: sched => let (jobs, t) := dstep_at i jobs t in dinterleave sched jobs t
  end.
(** progressbar.py:186-204, as [collect] in ModelJobs.v. *)
Fixpoint dcollect (jobs : list dprog) : option outcome :=
  match jobs with
  | [] => Some (Done (Ok tt))
  | DRet (Done (Ok _)) :: jobs => dcollect jobs
  | DRet o :: _ => Some o
  | _ :: _ => None
  end.
(** One process. *)
Fixpoint dfinish (q : dprog) (t : tree) : outcome * tree :=
  match q with
  | DRet o => (o, t)
  | Probe p k => dfinish (k (exists_in t p)) t
  | IsDir p k => dfinish (k (dir_in t p)) t
  | Mkdir p k => if exists_in t p then dfinish (k (Some FileExists)) t
                 else if dir_in t (dirname p) then dfinish (k None) (set_node p Dir t)
                 else dfinish (k (Some OtherOS)) t
  | Read p k => dfinish (k (files t p)) t
  | Write p c k => if dir_in t p then (Failed OtherOS, t)
                   else if dir_in t (dirname p) then dfinish k (set_node p (File c) t)
                   else (Failed OtherOS, t)
  end.
Fixpoint din_turn (jobs : list dprog) (t : tree) : outcome * tree :=
  match jobs with
  | [] => (Done (Ok tt), t)
  | q :: jobs => match dfinish q t with
                 | (Done (Ok _), t) => din_turn jobs t
                 | r => r
                 end
  end.
Definition dtrack (nproc : Z) (sched : list nat) (jobs : list dprog) (t : tree) : option outcome * tree :=
  if 1 <? nproc then let (jobs, t) := dinterleave sched jobs t in (dcollect jobs, t)
  else let (r, t) := din_turn jobs t in (Some r, t).
Fixpoint dstages (nproc : Z) (scheds : nat -> list nat) (l : list (list dprog)) (t : tree) : option outcome * tree :=
  match l with
  | [] => (Some (Done (Ok tt)), t)
  | jobs :: l => match dtrack nproc (scheds (List.length l)) jobs t with
                 | (Some (Done (Ok _)), t) => dstages nproc scheds l t
                 | r => r
                 end
  end.

(** convert_cityscapes.py:325-383: the loops over label files, as [edge_stages] in ModelJobs.v. *)
Definition edge_dstages (proc root : text) (inst : bool) (ext : text) (half_val : bool) (r : radii) (train val : list text) : list (list dprog) :=
  let file split rel := path_join (path_join (path_join root (lit "gtFine")) split) rel in
  let loop split v rels := map (fun rel => convert_job (file split rel) inst proc label_suffix inst_suffix (variant_suffix v inst ext)
                                             (variant_radius r v) (variant_thin v) (variant_scale v) true) rels in
  [loop (lit "train") Train train; loop (lit "val") RawV val; loop (lit "val") ThinV val] ++
  (if half_val then [loop (lit "val") HalfRaw val; loop (lit "val") HalfThin val] else []).
(** convert_cityscapes.py:249-383 [convert_cityscapes] with its directories: line 262 makes root/proc first. *)
Definition convert_cityscapes_tree (draw : text -> res picture) (nproc : Z) (scheds : nat -> list nat) (proc root : text) (inst : bool) (ext : text) (half_val : bool) (r : radii)
    (polys train val : list text) (t : tree) : option outcome * tree :=
  if negb (nonempty proc) then (Some (Done (Err AssertionError)), t)
  else match dfinish (mkdir_call (path_join root proc)) t with
       | (Done (Ok _), t) =>
         if negb (exists_in t (path_join root (lit "gtFine"))) then (Some (Done (Err AssertionError)), t)
         else if negb (text_eqb ext (lit "png") || text_eqb ext (lit "bin") || text_eqb ext (lit "tif")) then (Some (Done (Err AssertionError)), t)
         else dstages nproc scheds (map (json_job draw proc) polys :: edge_dstages proc root inst ext half_val r train val) t
       | (o, t) => (Some o, t)
       end.
