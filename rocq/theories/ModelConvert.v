(** Preparing Cityscapes: pyEdgeEval/helpers/convert_cityscapes.py (the edge maps and their file
    names).

    Simplifications (also in DESIGN.md): an image file is its pixel array; [cityscapesscripts]'s
    json2labelImg, the splits (ModelUtils.v) and the comparison with MATLAB are not modelled here;
    directories are created as needed; progress output is left out and the files are converted one
    after the other (ModelProgress.v covers the parallel version). *)
From Verif Require Export ModelUtils ModelEvaluator ModelEval.
Open Scope Z_scope.
Open Scope list_scope.

(** ** Strings *)
(** [s.replace(pat, new)], non-empty pattern. *)
Fixpoint replace_all (fuel : nat) (pat new t : text) : text :=
  match fuel with
  | O => t
  | S fuel => match t with
              | [] => []
              | c :: r => if startswith t pat then new ++ replace_all fuel pat new (skipn (List.length pat) t)
                          else c :: replace_all fuel pat new r
              end
  end.
Definition str_replace (t pat new : text) : text := replace_all (List.length t) pat new t.
(** [os.path.basename] and [os.path.dirname] (posixpath): the part after the last slash, and the
    part before it without trailing slashes (unless it consists of slashes only). *)
Definition basename (p : text) : text := skipn (Z.to_nat (rfind "/" p + 1)) p.
Fixpoint drop_slashes (r : text) : text :=
  match r with c :: r' => if Ascii.eqb c "/" then drop_slashes r' else r | [] => [] end.
Definition dirname (p : text) : text :=
  let head := firstn (Z.to_nat (rfind "/" p + 1)) p in
  match drop_slashes (rev head) with [] => head | r => rev r end.

(** ** Image files *)
Inductive picture := Gray (im : image Z) | Colour (im : rgb).
Definition disk : Type := text -> option picture.
Definition place (p : text) (c : picture) (d : disk) : disk := fun q => if text_eqb p q then Some c else d q.
Definition on_disk (d : disk) (p : text) : bool := match d p with Some _ => true | None => false end.
(** [np.array(Image.open(p))] of a single channel image ([ValueError] stands for the various
    failures of the code on a picture of the other kind). *)
Definition open_gray (d : disk) (p : text) : res (image Z) :=
  match d p with Some (Gray im) => Ok im | Some (Colour _) => Err ValueError | None => Err FileNotFoundError end.
Definition open_colour (d : disk) (p : text) : res rgb :=
  match d p with Some (Colour im) => Ok im | Some (Gray _) => Err ValueError | None => Err FileNotFoundError end.

(** ** The array pipeline *)
(** [cv2.resize(..., interpolation=cv2.INTER_NEAREST)]: output pixel [i] reads input pixel
    [min(floor(i * n_in / n_out), n_in - 1)]. *)
Definition cv_nearest (n_in n_out : nat) (i : Z) : Z :=
  Z.min (i * Z.of_nat n_in / Z.of_nat n_out) (Z.of_nat n_in - 1).
(** convert_cityscapes.py:58-63 [resize_np]. *)
Definition resize_np (scale : Q) (a : image Z) : image Z :=
  let oh := scaled (ht a) scale in let ow := scaled (wd a) scale in
  tab oh ow (fun y x => px 0 a (cv_nearest (ht a) oh y) (cv_nearest (wd a) ow x)).
(** convert_cityscapes.py:96-172: from the label (and instance) image to the stack of train ids.
    Lines 116-118 and 136-139: resampling in the beginning; lines 162-172: in the end. *)
Definition convert_scaled (inst : option (image Z)) (radius : Z) (thin : bool) (scale : Q) (seal : bool) (label_img : image Z) : res stack :=
  if thin && negb (radius =? 1) then Err AssertionError
  else
    let h := scaled (ht label_img) scale in let w := scaled (wd label_img) scale in
    let first := qlt scale 1 && (negb seal || thin) in
    let last := qlt scale 1 && seal && negb thin in
    bind (convert_edges (if first then option_map (resize 0 h w) inst else inst) radius thin
                        (if first then resize 0 h w label_img else label_img)) (fun e =>
      Ok (if last then mkStack h w (map (resize_np scale) (chans e)) else e)).
(** convert_cityscapes.py:175-188: what is stored, by the extension of the file; [tofile] has no
    argument [dtype]. *)
Definition store_edges (ext : text) (e : stack) : res picture :=
  if text_eqb ext (lit ".png") then bind (rgb_multilabel_encoding e) (fun p => Ok (Colour p))
  else if text_eqb ext (lit ".tif") then Ok (Gray (imap view_int32 (default_multilabel_encoding e)))
  else if text_eqb ext (lit ".bin") then Err TypeError
  else Err ValueError.
Definition known_format (ext : text) : bool :=
  text_eqb ext (lit ".png") || text_eqb ext (lit ".tif") || text_eqb ext (lit ".bin").

(** ** Files *)
(** convert_cityscapes.py:98-104: where the edges of a label file go. *)
Definition edge_target (label_file proc_dir label_suffix edge_suffix : text) : text :=
  path_join (str_replace (dirname label_file) (lit "gtFine") proc_dir)
            (str_replace (basename label_file) label_suffix edge_suffix).
(** convert_cityscapes.py:129-131: the instance image belonging to a label image. *)
Definition inst_file (label_file label_suffix inst_suffix : text) : text :=
  path_join (dirname label_file) (str_replace (basename label_file) label_suffix inst_suffix).
(** convert_cityscapes.py:66-188 [convert_label_to_semantic_edges]: the file written and its content. *)
Definition convert_label (d : disk) (label_file : text) (inst_sensitive : bool) (proc_dir label_suffix inst_suffix edge_suffix : text)
    (radius : Z) (thin : bool) (scale : Q) (seal : bool) : res (text * picture) :=
  let target := edge_target label_file proc_dir label_suffix edge_suffix in
  let ext := snd (splitext target) in
  if thin && negb (radius =? 1) then Err AssertionError
  else if negb (on_disk d label_file) then Err AssertionError
  else if negb (known_format ext) then Err AssertionError
  else bind (open_gray d label_file) (fun label_img =>
    bind (if inst_sensitive then
            let f := inst_file label_file label_suffix inst_suffix in
            if negb (on_disk d f) then Err AssertionError else bind (open_gray d f) (fun i => Ok (Some i))
          else Ok None) (fun inst =>
    bind (convert_scaled inst radius thin scale seal label_img) (fun e =>
    bind (store_edges ext e) (fun p => Ok (target, p))))).

(** convert_cityscapes.py:43-55 [convert_json_to_label]: where the image of train ids goes (its pixels
    come from cityscapesscripts). *)
Definition trainid_target (json_file proc_dir : text) : text :=
  path_join (str_replace (dirname json_file) (lit "gtFine") proc_dir)
            (str_replace (basename json_file) (lit "_gtFine_polygons.json") (lit "_gtFine_labelTrainIds.png")).

(** ** convert_cityscapes *)
(** convert_cityscapes.py:271-272. *)
Definition label_suffix : text := lit "_gtFine_labelIds.png".
Definition inst_suffix : text := lit "_gtFine_instanceIds.png".
(** convert_cityscapes.py:278-297: the suffixes of the five kinds of edge files. *)
Inductive variant := Train | RawV | ThinV | HalfRaw | HalfThin.
Definition variant_suffix (v : variant) (inst : bool) (ext : text) : text :=
  lit "_gtProc_" ++ match v with Train => [] | RawV => lit "raw_" | ThinV => lit "thin_" | HalfRaw => lit "half_raw_" | HalfThin => lit "half_thin_" end
  ++ (if inst then lit "isedge." else lit "edge.") ++ ext.
(** The arguments [radius], [thin], [scale] for a variant: lines 346-383 ([seal] is always True). *)
Record radii := mkRadii { r_train : Z; r_raw : Z; r_thin : Z }.
Definition variant_radius (r : radii) (v : variant) : Z :=
  match v with Train => r_train r | RawV | HalfRaw => r_raw r | ThinV | HalfThin => r_thin r end.
Definition variant_thin (v : variant) : bool := match v with ThinV | HalfThin => true | _ => false end.
Definition variant_scale (v : variant) : Q := match v with HalfRaw | HalfThin => 1 # 2 | _ => 1 end.
(** convert_cityscapes.py:325-383: the calls in their order; [train] and [val] are the relative paths
    found by [scandir] in the two split directories. *)
Definition conversion_jobs (root : text) (half_val : bool) (train val : list text) : list (text * variant) :=
  let file split rel := path_join (path_join (path_join root (lit "gtFine")) split) rel in
  map (fun rel => (file (lit "train") rel, Train)) train ++
  flat_map (fun v => map (fun rel => (file (lit "val") rel, v)) val)
    (if half_val then [RawV; ThinV; HalfRaw; HalfThin] else [RawV; ThinV]).
Definition run_job (proc : text) (inst : bool) (ext : text) (r : radii) (d : disk) (j : text * variant) : res (text * picture) :=
  let v := snd j in
  convert_label d (fst j) inst proc label_suffix inst_suffix (variant_suffix v inst ext)
    (variant_radius r v) (variant_thin v) (variant_scale v) true.
(** One call after the other; an exception ends the run, files already written stay. *)
Fixpoint run_jobs (proc : text) (inst : bool) (ext : text) (r : radii) (js : list (text * variant)) (d : disk) : res unit * disk :=
  match js with
  | [] => (Ok tt, d)
  | j :: js => match run_job proc inst ext r d j with
               | Err e => (Err e, d)
               | Ok (p, c) => run_jobs proc inst ext r js (place p c d)
               end
  end.
(** convert_cityscapes.py:249-383 [convert_cityscapes], the edge maps ([found]: the directory gtFine
    exists, line 265). *)
Definition convert_cityscapes (proc root : text) (found inst : bool) (ext : text) (half_val : bool) (r : radii) (train val : list text) (d : disk) : res unit * disk :=
  if negb (nonempty proc) then (Err AssertionError, d)
  else if negb found then (Err AssertionError, d)
  else if negb (text_eqb ext (lit "png") || text_eqb ext (lit "bin") || text_eqb ext (lit "tif")) then (Err AssertionError, d)
  else run_jobs proc inst ext r (conversion_jobs root half_val train val) d.
