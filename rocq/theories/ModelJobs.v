(** Converting data sets with several processes: the file operations of the workers, interleaved
    (pyEdgeEval/helpers/convert_cityscapes.py, scripts/convert_datasets/sbd.py).

    Simplifications (also in DESIGN.md): a file is absent, complete or partly written; opening a file for
    writing empties it and a second step completes it (finer steps leave the same kinds of states);
    existence tests and reads are single steps; directories are created as needed ([mkdir_or_exist] accepts
    an existing directory, path.py:19-23); every interleaving of the workers is allowed, the pool of
    [multiprocessing] can produce some of them; [cityscapesscripts]'s json2labelImg is a parameter. *)
From Verif Require Export ModelConvert ModelSBD.
Open Scope Z_scope.
Open Scope list_scope.

Inductive content := Whole (c : picture) | Partial.
Definition store : Type := text -> option content.
Definition put (p : text) (c : content) (s : store) : store := fun q => if text_eqb p q then Some c else s q.
(** A job: what it reads and writes; what it does next depends on what it has read. *)
Inductive prog :=
| Ret (r : res unit)
| Get (p : text) (k : option content -> prog)
| Put (p : text) (c : content) (k : prog).
(** [Image.save]. *)
Definition save_file (p : text) (c : picture) (k : prog) : prog := Put p Partial (Put p (Whole c) k).
(** [osp.exists]. *)
Definition if_exists (p : text) (k : prog) : prog :=
  Get p (fun c => match c with Some _ => k | None => Ret (Err AssertionError) end).
(** [Image.open] and [np.array] of a single channel image ([ValueError] for the failures on other pictures
    and on an incomplete file). *)
Definition read_gray (p : text) (k : image Z -> prog) : prog :=
  Get p (fun c => match c with
                  | Some (Whole (Gray im)) => k im
                  | None => Ret (Err FileNotFoundError)
                  | _ => Ret (Err ValueError)
                  end).

(** ** The jobs *)
(** convert_cityscapes.py:66-188 [convert_label_to_semantic_edges] (the computation is that of
    ModelConvert.v). *)
Definition convert_prog (label_file : text) (inst_sensitive : bool) (proc_dir label_suffix inst_suffix edge_suffix : text)
    (radius : Z) (thin : bool) (scale : Q) (seal : bool) : prog :=
  let target := edge_target label_file proc_dir label_suffix edge_suffix in
  let ext := snd (splitext target) in
  if thin && negb (radius =? 1) then Ret (Err AssertionError)
  else if_exists label_file (
    if negb (known_format ext) then Ret (Err AssertionError)
    else read_gray label_file (fun label_img =>
      let go inst := match bind (convert_scaled inst radius thin scale seal label_img) (store_edges ext) with
                     | Err e => Ret (Err e)
                     | Ok p => save_file target p (Ret (Ok tt))
                     end in
      if inst_sensitive then
        let f := inst_file label_file label_suffix inst_suffix in
        if_exists f (read_gray f (fun i => go (Some i)))
      else go None)).
(** convert_cityscapes.py:43-55 [convert_json_to_label]; [draw] stands for json2labelImg. *)
Definition json_prog (draw : text -> res picture) (proc json : text) : prog :=
  match draw json with
  | Err e => Ret (Err e)
  | Ok c => save_file (trainid_target json proc) c (Ret (Ok tt))
  end.
(** convert_sbd.py:290-366 [routine] and 393-422 [reanno_routine]: the files of ModelSBD.v, one after the
    other (the MATLAB files are not written by anyone). *)
Definition files_prog (w : res (list (text * picture))) : prog :=
  match w with
  | Err e => Ret (Err e)
  | Ok l => fold_right (fun f k => save_file (fst f) (snd f) k) (Ret (Ok tt)) l
  end.

(** ** Running jobs *)
(** One step of a job. *)
Definition step1 (q : prog) (s : store) : prog * store :=
  match q with
  | Ret _ => (q, s)
  | Get p k => (k (s p), s)
  | Put p c k => (k, put p c s)
  end.
(** One step of job number [i]. *)
Fixpoint step_at (i : nat) (jobs : list prog) (s : store) : list prog * store :=
  match jobs, i with
  | [], _ => ([], s)
  | q :: jobs, O => let (q, s) := step1 q s in (q :: jobs, s)
  | q :: jobs, S i => let (jobs, s) := step_at i jobs s in (q :: jobs, s)
  end.
(** Several workers: [sched] lists the jobs in the order in which they make their steps. *)
Fixpoint interleave (sched : list nat) (jobs : list prog) (s : store) : list prog * store :=
  match sched with
  | [] => (jobs, s)
  | i :: sched => let (jobs, s) := step_at i jobs s in interleave sched jobs s
  end.
(** What the parent has by now: progressbar.py:186-204 waits for the results in the order of the jobs and
    raises the first exception; [None]: it is still waiting (or everything has been killed). *)
Fixpoint collect (jobs : list prog) : option (res unit) :=
  match jobs with
  | [] => Some (Ok tt)
  | Ret (Ok _) :: jobs => collect jobs
  | Ret (Err e) :: _ => Some (Err e)
  | _ :: _ => None
  end.
(** One process: progressbar.py:107-111. *)
Fixpoint finish (q : prog) (s : store) : res unit * store :=
  match q with
  | Ret r => (r, s)
  | Get p k => finish (k (s p)) s
  | Put p c k => finish k (put p c s)
  end.
Fixpoint in_turn (jobs : list prog) (s : store) : res unit * store :=
  match jobs with
  | [] => (Ok tt, s)
  | q :: jobs => match finish q s with
                 | (Err e, s) => (Err e, s)
                 | (Ok _, s) => in_turn jobs s
                 end
  end.
(** convert_cityscapes.py:202-205 and 319-322, sbd.py:115-126 and 156-167. *)
Definition track (nproc : Z) (sched : list nat) (jobs : list prog) (s : store) : option (res unit) * store :=
  if 1 <? nproc then let (jobs, s) := interleave sched jobs s in (collect jobs, s)
  else let (r, s) := in_turn jobs s in (Some r, s).
(** The loops over jobs of a script, one after the other; each with a new pool. *)
Fixpoint stages (nproc : Z) (scheds : nat -> list nat) (l : list (list prog)) (s : store) : option (res unit) * store :=
  match l with
  | [] => (Some (Ok tt), s)
  | jobs :: l => match track nproc (scheds (List.length l)) jobs s with
                 | (Some (Ok _), s) => stages nproc scheds l s
                 | r => r
                 end
  end.

(** ** The scripts *)
(** convert_cityscapes.py:325-383: the loops over label files. *)
Definition edge_stages (proc root : text) (inst : bool) (ext : text) (half_val : bool) (r : radii) (train val : list text) : list (list prog) :=
  let file split rel := path_join (path_join (path_join root (lit "gtFine")) split) rel in
  let loop split v rels := map (fun rel => convert_prog (file split rel) inst proc label_suffix inst_suffix (variant_suffix v inst ext)
                                             (variant_radius r v) (variant_thin v) (variant_scale v) true) rels in
  [loop (lit "train") Train train; loop (lit "val") RawV val; loop (lit "val") ThinV val] ++
  (if half_val then [loop (lit "val") HalfRaw val; loop (lit "val") HalfThin val] else []).
(** convert_cityscapes.py:249-383 [convert_cityscapes]; [polys]: the polygon files of train and val, with
    their directories. *)
Definition convert_cityscapes_mp (draw : text -> res picture) (nproc : Z) (scheds : nat -> list nat) (proc root : text) (found inst : bool) (ext : text) (half_val : bool) (r : radii)
    (polys train val : list text) (s : store) : option (res unit) * store :=
  if negb (nonempty proc) then (Some (Err AssertionError), s)
  else if negb found then (Some (Err AssertionError), s)
  else if negb (text_eqb ext (lit "png") || text_eqb ext (lit "bin") || text_eqb ext (lit "tif")) then (Some (Err AssertionError), s)
  else stages nproc scheds (map (json_prog draw proc) polys :: edge_stages proc root inst ext half_val r train val) s.
(** sbd.py:110-127: raw and thinned files of one split after the other. *)
Fixpoint sbd_splits_mp (nproc : Z) (scheds : nat -> nat -> list nat) (dirs : text -> bool) (d : mats) (root out : text) (splits : list (option text)) (s : store) : option (res unit) * store :=
  match splits with
  | [] => (Some (Ok tt), s)
  | None :: _ => (Some (Err FileNotFoundError), s)
  | Some content :: splits =>
    match get_samples content with
    | [] => (Some (Err AssertionError), s)
    | names => match stages nproc (scheds (List.length splits))
                       [map (fun n => files_prog (sbd_routine dirs d root out (n, false))) names;
                        map (fun n => files_prog (sbd_routine dirs d root out (n, true))) names] s with
               | (Some (Ok _), s) => sbd_splits_mp nproc scheds dirs d root out splits s
               | r => r
               end
    end
  end.
(** sbd.py:130-180: the re-annotated images; also the text written to reanno_val.txt. *)
Definition sbd_reanno_mp (nproc : Z) (scheds : nat -> list nat) (dirs : text -> bool) (d : mats) (root out : text) (raw thin_ : list text) (s : store) : option (res text) * store :=
  if negb (dirs (path_join root (lit "gt_reanno_raw"))) then (Some (Err AssertionError), s)
  else if negb (dirs (path_join root (lit "gt_reanno_thin"))) then (Some (Err AssertionError), s)
  else match stages nproc scheds [map (fun n => files_prog (sbd_reanno_routine dirs d root out (n, false))) raw;
                                  map (fun n => files_prog (sbd_reanno_routine dirs d root out (n, true))) thin_] s with
       | (Some (Ok _), s) => (Some (Ok (write_lines raw)), s)
       | (Some (Err e), s) => (Some (Err e), s)
       | (None, s) => (None, s)
       end.
