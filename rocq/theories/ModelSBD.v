(** Preparing SBD: pyEdgeEval/helpers/convert_sbd.py, scripts/convert_datasets/sbd.py and
    pyEdgeEval/utils/mat_utils.py.

    Simplifications (also in DESIGN.md): a MATLAB file is its decoded structure (boundary maps as
    compressed sparse column matrices, segmentation, category numbers; the two loaders are not
    distinguished); pictures are pixel arrays (ModelConvert.v), so the 16 bits of a saved instance image
    are not modelled; [csc.toarray()] of another shape than the segmentation is a ValueError (numpy would
    broadcast a single row or column); warnings and progress output are left out; the samples are
    converted one after the other (ModelProgress.v covers the parallel version). *)
From Verif Require Export ModelSamples.
Open Scope Z_scope.
Open Scope list_scope.

(** ** MATLAB files *)
(** scipy.sparse.csc_matrix: [indptr], [indices] (row numbers), [data]. *)
Record csc := mkCsc { sp_h : nat; sp_w : nat; sp_ptr : list nat; sp_idx : list Z; sp_data : list Z }.
(** mat_utils.py:39-44 [sparse2numpy] ([toarray] adds up repeated entries). *)
Definition sparse2numpy (m : csc) : image Z :=
  tab (sp_h m) (sp_w m) (fun y x =>
    let a := nth (Z.to_nat x) (sp_ptr m) 0%nat in let b := nth (Z.to_nat x + 1) (sp_ptr m) 0%nat in
    zsum (map (fun k => if nth k (sp_idx m) 0 =? y then nth k (sp_data m) 0 else 0) (seq a (b - a)))).
(** [GTcls]: Boundaries, Segmentation, CategoriesPresent; [GTinst]: Segmentation, Boundaries, Categories. *)
Record cls_mat := mkCls { c_bdry : list csc; c_seg : image Z; c_present : list Z }.
Record inst_mat := mkInst { i_seg : image Z; i_bdry : list csc; i_cats : list Z }.
Inductive mat := ClsMat (m : cls_mat) | InstMat (m : inst_mat).
Definition mats : Type := text -> option mat.
(** convert_sbd.py:62-68: the boundary maps, written into an array of type uint8. *)
Fixpoint dense (h w : nat) (l : list csc) : res (list (image Z)) :=
  match l with
  | [] => Ok []
  | m :: l => if Nat.eqb (sp_h m) h && Nat.eqb (sp_w m) w
              then bind (dense h w l) (fun r => Ok (imap (wrap 8) (sparse2numpy m) :: r))
              else Err ValueError
  end.
Definition np_boundaries (h w : nat) (l : list csc) : res stack := bind (dense h w l) (fun c => Ok (mkStack h w c)).
(** convert_sbd.py:31-71 [load_sbd_gt_cls_mat] and 74-115 [load_sbd_gt_inst_mat] (KeyError for a file
    with the other kind of structure). *)
Definition load_cls (d : mats) (p : text) : res (stack * image Z * list Z) :=
  match d p with
  | None => Err AssertionError
  | Some (InstMat _) => Err KeyError
  | Some (ClsMat m) => bind (np_boundaries (ht (c_seg m)) (wd (c_seg m)) (c_bdry m)) (fun b => Ok (b, c_seg m, c_present m))
  end.
Definition load_inst (d : mats) (p : text) : res (stack * image Z * list Z) :=
  match d p with
  | None => Err AssertionError
  | Some (ClsMat _) => Err KeyError
  | Some (InstMat m) => bind (np_boundaries (ht (i_seg m)) (wd (i_seg m)) (i_bdry m)) (fun b => Ok (b, i_seg m, i_cats m))
  end.

(** ** Boundaries as annotated *)
Definition stack_or (b : stack) (k : Z) (e : image Z) : res stack :=
  match pyidx (List.length (chans b)) k with
  | None => Err IndexError
  | Some i => Ok (mkStack (s_h b) (s_w b) (set_nth (chans b) i
                   (tab (s_h b) (s_w b) (fun y x => Z.lor (px 0 (nth i (chans b) (zeros (s_h b) (s_w b))) y x) (px 0 e y x)))))
  end.
(** convert_sbd.py:123-149 [load_instance_sensitive_gt]: instance [i] is added to the boundaries of its
    category. *)
Fixpoint add_instances (insts : stack) (i : Z) (cats : list Z) (b : stack) : res stack :=
  match cats with
  | [] => Ok b
  | c :: cats => bind (chan_at insts i) (fun e => bind (stack_or b (c - 1) e) (add_instances insts (i + 1) cats))
  end.
Definition load_instance_sensitive_gt (d : mats) (cls_path inst_path : text) : res (stack * image Z * list Z) :=
  bind (load_cls d cls_path) (fun '(cb, seg, present) =>
  bind (load_inst d inst_path) (fun '(ib, _, cats) =>
    if negb (forallb (fun c => memZ c present) cats) then Err AssertionError
    else bind (add_instances ib 0 cats cb) (fun b => Ok (b, seg, present)))).
(** convert_sbd.py:161-193 [load_reanno_instance_sensitive_gt]: here the instance file holds one map per
    category. *)
Fixpoint add_categories (insts : stack) (cats : list Z) (b : stack) : res stack :=
  match cats with
  | [] => Ok b
  | c :: cats => bind (chan_at insts (c - 1)) (fun e => bind (stack_or b (c - 1) e) (add_categories insts cats))
  end.
Definition load_reanno_instance_sensitive_gt (d : mats) (cls_path inst_path : text) : res (stack * image Z * list Z) :=
  bind (load_cls d cls_path) (fun '(cb, seg, present) =>
  bind (load_inst d inst_path) (fun '(ib, _, cats) =>
    if negb (forallb (fun c => memZ c present) cats) then Err AssertionError
    else if negb (Nat.eqb (List.length (chans cb)) (List.length (chans ib)) && Nat.eqb (s_h cb) (s_h ib) && Nat.eqb (s_w cb) (s_w ib)) then Err AssertionError
    else bind (add_categories ib present cb) (fun b => Ok (b, seg, present)))).

(** ** Boundaries computed from the segmentation *)
(** convert_sbd.py:220-287 [convert_mat2np]: edges, segmentation with border and, when instances are
    wanted, the converted instance map. *)
Definition convert_mat2np (d : mats) (cls_path : text) (inst_path : option text) (radius : Z) (thin : bool) (outer_pixel : Z)
    : res (stack * image Z * option (image Z)) :=
  bind (load_cls d cls_path) (fun '(_, seg, present) =>
  let seg := add_ignore_pixel seg 5 outer_pixel in
  bind (mask2onehot seg SBD_labelIds) (fun mask =>
  match inst_path with
  | Some p =>
    bind (load_inst d p) (fun '(_, iseg, cats) =>
    let inst := convert_inst_seg iseg cats present in
    bind (loop_instance_mask2edge mask inst SBD_inst_labelIds [outer_pixel] radius thin false) (fun e =>
    bind (edge_label2trainId e SBD_label2trainId) (fun e => Ok (e, seg, Some inst))))
  | None =>
    bind (loop_mask2edge mask [outer_pixel] radius thin false) (fun e =>
    bind (edge_label2trainId e SBD_label2trainId) (fun e => Ok (e, seg, None)))
  end)).

(** ** Files *)
(** The suffixes of the files written (routine's arguments). *)
Record suffixes := mkSuffixes { x_edge : text; x_isedge : text; x_label : text; x_train : text; x_inst : text }.
(** convert_sbd.py:290-366 [routine]: the files written, in their order ([dirs]: the directories that
    exist).  Both edge maps are computed before anything is written. *)
Definition routine (dirs : text -> bool) (d : mats) (sample data_dir save_dir : text) (radius : Z) (thin : bool) (sx : suffixes) (save_segs : bool)
    : res (list (text * picture)) :=
  let radius := if thin then 1 else radius in
  let cls_dir := path_join data_dir (lit "cls_orig") in
  let inst_dir := path_join data_dir (lit "inst_orig") in
  let there p := match d p with Some _ => true | None => false end in
  if negb (dirs save_dir) then Err AssertionError
  else if negb (dirs cls_dir) then Err AssertionError
  else if negb (dirs inst_dir) then Err AssertionError
  else
  let cls_fp := path_join cls_dir (sample ++ lit ".mat") in
  let inst_fp := path_join inst_dir (sample ++ lit ".mat") in
  if negb (there cls_fp) then Err AssertionError
  else if negb (there inst_fp) then Err AssertionError
  else
  bind (convert_mat2np d cls_fp (Some inst_fp) radius thin 21) (fun '(is_b, seg, inst) =>
  bind (convert_mat2np d cls_fp None radius thin 21) (fun '(nonis_b, _, _) =>
  bind (rgb_multilabel_encoding nonis_b) (fun nonis =>
  bind (rgb_multilabel_encoding is_b) (fun is_ =>
  let out sfx := path_join save_dir (sample ++ sfx) in
  Ok ([(out (x_edge sx), Colour nonis); (out (x_isedge sx), Colour is_)] ++
      (if save_segs then
         [(out (x_label sx), Gray seg); (out (x_train sx), Gray (convert_seg_label2train seg SBD_label2trainId));
          (out (x_inst sx), Gray (match inst with Some i => i | None => seg end))]
       else [])))))).
(** convert_sbd.py:393-422 [reanno_routine]. *)
Definition reanno_routine (dirs : text -> bool) (d : mats) (sample data_dir save_dir edge_suffix isedge_suffix : text) : res (list (text * picture)) :=
  let cls_dir := path_join data_dir (lit "cls") in
  let inst_dir := path_join data_dir (lit "inst") in
  let there p := match d p with Some _ => true | None => false end in
  if negb (dirs save_dir) then Err AssertionError
  else if negb (dirs cls_dir) then Err AssertionError
  else if negb (dirs inst_dir) then Err AssertionError
  else
  let cls_fp := path_join cls_dir (sample ++ lit ".mat") in
  let inst_fp := path_join inst_dir (sample ++ lit ".mat") in
  if negb (there cls_fp) then Err AssertionError
  else if negb (there inst_fp) then Err AssertionError
  else
  bind (load_reanno_instance_sensitive_gt d cls_fp inst_fp) (fun '(is_b, _, _) =>
  bind (load_cls d cls_fp) (fun '(nonis_b, _, _) =>
  bind (rgb_multilabel_encoding nonis_b) (fun nonis =>
  bind (rgb_multilabel_encoding is_b) (fun is_ =>
  let out sfx := path_join save_dir (sample ++ sfx) in
  Ok [(out edge_suffix, Colour nonis); (out isedge_suffix, Colour is_)])))).

(** ** The script *)
(** convert_sbd.py:202-205 [get_samples]: [line.rstrip("\n")] for the lines of a text file. *)
Definition get_samples (content : text) : list text := drop_last_empty (split_by (Ascii.eqb LF) (universal_newlines content)).
(** Writing pictures, in their order. *)
Definition place_all (l : list (text * picture)) (d : disk) : disk := fold_left (fun d w => place (fst w) (snd w) d) l d.
(** Calls one after the other; an exception ends the run, files already written stay. *)
Fixpoint run_routines {A} (f : A -> res (list (text * picture))) (l : list A) (d : disk) : res unit * disk :=
  match l with
  | [] => (Ok tt, d)
  | a :: l => match f a with Err e => (Err e, d) | Ok w => run_routines f l (place_all w d) end
  end.
(** sbd.py:66-73. *)
Definition raw_suffixes : suffixes := mkSuffixes (lit "_raw_edge.png") (lit "_raw_isedge.png") (lit "_labelIds.png") (lit "_trainIds.png") (lit "_instanceIds.png").
Definition thin_suffixes : suffixes := mkSuffixes (lit "_thin_edge.png") (lit "_thin_isedge.png") (lit "_labelIds.png") (lit "_trainIds.png") (lit "_instanceIds.png").
(** sbd.py:81-107: [raw_routine] and [thin_routine]. *)
Definition sbd_routine (dirs : text -> bool) (d : mats) (root out : text) (job : text * bool) : res (list (text * picture)) :=
  let save := path_join root out in
  if snd job then routine dirs d (fst job) root save 2 true thin_suffixes false
  else routine dirs d (fst job) root save 2 false raw_suffixes true.
(** sbd.py:110-127: the two splits, raw and then thinned; the sample lists are read one after the other. *)
Fixpoint sbd_splits (dirs : text -> bool) (d : mats) (root out : text) (splits : list (option text)) (k : disk) : res unit * disk :=
  match splits with
  | [] => (Ok tt, k)
  | None :: _ => (Err FileNotFoundError, k)
  | Some content :: splits =>
    let names := get_samples content in
    match names with
    | [] => (Err AssertionError, k)
    | _ => match run_routines (sbd_routine dirs d root out) (map (fun n => (n, false)) names ++ map (fun n => (n, true)) names) k with
           | (Err e, k) => (Err e, k)
           | (Ok _, k) => sbd_splits dirs d root out splits k
           end
    end
  end.
(** sbd.py:130-180: the re-annotated images; [raw]/[thin_]: the names in the two files test.mat. *)
Definition sbd_reanno_routine (dirs : text -> bool) (d : mats) (root out : text) (job : text * bool) : res (list (text * picture)) :=
  let save := path_join root out in
  if snd job then reanno_routine dirs d (fst job) (path_join root (lit "gt_reanno_thin")) save (lit "_reanno_thin_edge.png") (lit "_reanno_thin_isedge.png")
  else reanno_routine dirs d (fst job) (path_join root (lit "gt_reanno_raw")) save (lit "_reanno_raw_edge.png") (lit "_reanno_raw_isedge.png").
(** The result, the disk and the text written to reanno_val.txt. *)
Definition sbd_reanno (dirs : text -> bool) (d : mats) (root out : text) (raw thin_ : list text) (k : disk) : res text * disk :=
  if negb (dirs (path_join root (lit "gt_reanno_raw"))) then (Err AssertionError, k)
  else if negb (dirs (path_join root (lit "gt_reanno_thin"))) then (Err AssertionError, k)
  else match run_routines (sbd_reanno_routine dirs d root out) (map (fun n => (n, false)) raw ++ map (fun n => (n, true)) thin_) k with
       | (Err e, k) => (Err e, k)
       | (Ok _, k) => (Ok (write_lines raw), k)
       end.
