(** Boundary extraction: pyEdgeEval/utils/distance_transforms.py,
    pyEdgeEval/edge_tools/{mask2edge_loop,mask2edge_mp,transforms}.py,
    pyEdgeEval/datasets/otf_cityscapes.py:26-119 and the array pipeline of
    pyEdgeEval/helpers/convert_cityscapes.py:66-188.

    Simplifications (also in DESIGN.md): both distance-transform back ends are the exact
    Euclidean distance transform (that is cv2's DIST_MASK_PRECISE, the default quality=0; a
    pixel with no zero pixel anywhere has a distance larger than every radius, as in cv2);
    distances are compared exactly instead of in floating point; masks are uint8; label and
    instance ids are non-negative. *)
From Verif Require Export ModelLabels ModelThin.

(** Squared Euclidean distance. *)
Definition sqd (y x y' x' : Z) : Z := (y - y') * (y - y') + (x - x') * (x - x').

Definition omin (a b : option Z) : option Z :=
  match a, b with Some a, Some b => Some (Z.min a b) | Some a, None => Some a | None, b => b end.
(** distanceTransform / distance_transform_edt, squared: distance of (y, x) to the nearest zero
    pixel; [None] when there is none. *)
Definition edt2 (im : image bool) (y x : Z) : option Z :=
  fold_right omin None
    (map (fun p => if px true im (fst p) (snd p) then None else Some (sqd y x (fst p) (snd p)))
         (coords (ht im) (wd im))).

(** [sqrt a + sqrt b <= r] for integers, without roots. *)
Definition sum_within (r a b : Z) : bool :=
  (0 <=? r) && (a + b <=? r * r) && (4 * a * b <=? (r * r - a - b) * (r * r - a - b)).

(** [dist = outer + inner; dist[dist > radius] = 0; dist > 0] at one pixel. *)
Definition band (r : Z) (outer inner : option Z) : bool :=
  match outer, inner with
  | Some a, Some b => sum_within r a b && negb ((a =? 0) && (b =? 0))
  | _, _ => false
  end.

(** [(m + ignore_mask) > 0] (uint8 addition). *)
Definition inner_mask (m ign : image Z) : image bool :=
  tab (ht m) (wd m) (fun y x => 0 <? wrap 8 (px 0 m y x + px 0 ign y x)).
(** [(1.0 - m) > 0]. *)
Definition outer_mask (m : image Z) : image bool := tab (ht m) (wd m) (fun y x => 0 <? 1 - px 0 m y x).

(** distance_transforms.py:10-31 [cv2_mask2bdry] / [scipy_mask2bdry]. *)
Definition bdry (m ign : image Z) (radius : Z) : image Z :=
  tab (ht m) (wd m) (fun y x => b2z (band radius (edt2 (outer_mask m) y x) (edt2 (inner_mask m ign) y x))).
(** distance_transforms.py:34-50 [mask2internal]. *)
Definition mask2internal (m ign : image Z) (radius : Z) : image Z :=
  tab (ht m) (wd m) (fun y x => b2z (band radius (Some 0) (edt2 (inner_mask m ign) y x))).
(** distance_transforms.py:53-81 [mask2bdry]. *)
Definition mask2bdry (m ign : image Z) (radius : Z) (internal_only : bool) : image Z :=
  if internal_only then mask2internal m ign radius else bdry m ign radius.

(** ** mask2edge_loop.py *)
Definition zeros (h w : nat) : image Z := tab h w (fun _ _ => 0).
(** [a[i]] along axis 0 of a stack. *)
Definition chan_at (s : stack) (i : Z) : res (image Z) :=
  match pyidx (length (chans s)) i with
  | Some k => Ok (nth k (chans s) (zeros (s_h s) (s_w s)))
  | None => Err IndexError
  end.
(** mask2edge_loop.py:32-34 (and the same three lines of the other four functions): sum of the
    ignored channels, uint8. *)
Fixpoint make_ignore (mask : stack) (ids : list Z) (acc : image Z) : res (image Z) :=
  match ids with
  | [] => Ok acc
  | i :: ids =>
    bind (chan_at mask i) (fun m =>
      make_ignore mask ids (tab (s_h mask) (s_w mask) (fun y x => wrap 8 (px 0 acc y x + px 0 m y x))))
  end.
Definition ignore_of (mask : stack) (ids : list Z) : res (image Z) :=
  make_ignore mask ids (zeros (s_h mask) (s_w mask)).
(** [np.count_nonzero(m)] as a boolean. *)
Definition any_nonzero (m : image Z) : bool := existsb (fun v => negb (v =? 0)) (concat (rows m)).
Definition memZ (a : Z) (l : list Z) : bool := existsb (Z.eqb a) l.
(** [binary_thin(edge).astype(np.uint8)]; thinning always terminates (binary_thin_terminates),
    the [None] branch is unreachable. *)
Definition thin_u8 (e : image Z) : image Z :=
  match binary_thin None (Raw e) with
  | Some r => tab (ht e) (wd e) (fun y x => match r with
                  | Raw i => wrap 8 (px 0 i y x) | Bin b => b2z (px false b y x) end)
  | None => e
  end.

(** The loop body shared by all versions: which writes [edges[label] = ...] happen.
    [per_label label m] computes the edge map of one class. *)
Definition label_edge (mask : stack) (ids : list Z) (per_label : Z -> image Z -> image Z) (label : Z) : option (image Z) :=
  let m := nth (Z.to_nat label) (chans mask) (zeros (s_h mask) (s_w mask)) in
  if memZ label ids then None
  else if any_nonzero m then Some (per_label label m) else None.
Definition edge_loop (mask : stack) (ids : list Z) (per_label : Z -> image Z -> image Z) : stack :=
  mkStack (s_h mask) (s_w mask)
    (fold_left (fun edges label => match label_edge mask ids per_label label with
                                   | Some e => set_nth edges (Z.to_nat label) e
                                   | None => edges end)
       (zseq (length (chans mask))) (map (fun _ => zeros (s_h mask) (s_w mask)) (chans mask))).

(** mask2edge_loop.py:18-62 [loop_mask2edge]. *)
Definition loop_mask2edge (mask : stack) (ignore_indices : list Z) (radius : Z) (thin internal_only : bool) : res stack :=
  bind (ignore_of mask ignore_indices) (fun ign =>
    Ok (edge_loop mask ignore_indices (fun _ m =>
      let e := mask2bdry m ign radius internal_only in if thin then thin_u8 e else e))).

(** [np.unique(a)]: sorted distinct values. *)
Fixpoint ins (v : Z) (l : list Z) : list Z :=
  match l with
  | [] => [v]
  | a :: t => if v <? a then v :: l else if v =? a then l else a :: ins v t
  end.
Definition unique (im : image Z) : list Z := fold_right ins [] (concat (rows im)).
(** [sorted(l)[0]]. *)
Definition sorted_head (l : list Z) : res Z :=
  match l with [] => Err IndexError | a :: l => Ok (fold_right Z.min a l) end.

(** One entry of the lookup dictionary: the (label, instance) an id is split into.
    mask2edge_loop.py:104-107: zero fill to five digits, two digits of label. *)
Definition split_loop (id : Z) : res (Z * Z) :=
  let s := zfill 5 (digits id) in
  bind (int_of (firstn 2 s)) (fun l => bind (int_of (skipn 2 s)) (fun i => Ok (l, i))).
(** mask2edge_mp.py:237-238 and otf_cityscapes.py:83-84: no zero fill. *)
Definition split_mp (id : Z) : res (Z * Z) :=
  let s := digits id in
  bind (int_of (firstn 2 s)) (fun l => bind (int_of (skipn 2 s)) (fun i => Ok (l, i))).
(** The dictionary {label: [instances]} as the list of its (label, instance) pairs in order of
    insertion; [label_inst[l]] is the list of instances paired with [l]. *)
Fixpoint build_insts (split : Z -> res (Z * Z)) (min_id : Z) (ids : list Z) : res (list (Z * Z)) :=
  match ids with
  | [] => Ok []
  | id :: ids =>
    if id <? min_id then build_insts split min_id ids
    else bind (split id) (fun p => bind (build_insts split min_id ids) (fun r => Ok (p :: r)))
  end.
(** [int(str(label) + str(instance).zfill(3))]. *)
Definition iid (label inst : Z) : Z := undigits (digits label ++ zfill 3 (digits inst)).
(** [a | b] of uint8 arrays. *)
Definition image_or (a b : image Z) : image Z :=
  tab (ht a) (wd a) (fun y x => Z.lor (px 0 a y x) (px 0 b y x)).
(** [inst_mask == id]. *)
Definition eq_mask (inst : image Z) (id : Z) : image Z :=
  tab (ht inst) (wd inst) (fun y x => b2z (px 0 inst y x =? id)).
(** mask2edge_loop.py:132-143 and its copies: class boundary joined with the instance
    boundaries. *)
Definition inst_edge (inst : image Z) (insts : list (Z * Z)) (ign : image Z) (radius : Z) (internal_only : bool)
    (label : Z) (m : image Z) : image Z :=
  fold_left (fun d li => if fst li =? label
                         then image_or d (mask2bdry (eq_mask inst (iid label (snd li))) ign radius internal_only)
                         else d)
    insts (mask2bdry m ign radius internal_only).

(** mask2edge_loop.py:65-151 [loop_instance_mask2edge] (default [_inst_len], [_inst_id_dig]). *)
Definition loop_instance_mask2edge (mask : stack) (inst : image Z) (inst_labels ignore_indices : list Z)
    (radius : Z) (thin internal_only : bool) : res stack :=
  bind (ignore_of mask ignore_indices) (fun ign =>
  bind (sorted_head inst_labels) (fun l0 =>
  bind (build_insts split_loop (l0 * 10 ^ (5 - 2)) (unique inst)) (fun insts =>
    Ok (edge_loop mask ignore_indices (fun label m =>
      let e := inst_edge inst insts ign radius internal_only label m in if thin then thin_u8 e else e))))).

(** ** mask2edge_mp.py *)
(** A write to the shared edge array. *)
Record write := mkWrite { w_label : nat; w_y : Z; w_x : Z; w_v : Z }.
(** mask2edge_mp.py:36-66 [_worker_func] / 150-201 [_instance_worker_func]: the writes of one
    task ([edge[label] = ...] stores one pixel after the other). *)
Definition task_writes (mask : stack) (ids : list Z) (per_label : Z -> image Z -> image Z) (label : Z) : list write :=
  match label_edge mask ids per_label label with
  | Some e => map (fun p => mkWrite (Z.to_nat label) (fst p) (snd p) (px 0 e (fst p) (snd p))) (coords (s_h mask) (s_w mask))
  | None => []
  end.
Definition apply_write (s : stack) (wr : write) : stack :=
  mkStack (s_h s) (s_w s)
    (let c := nth (w_label wr) (chans s) (zeros (s_h s) (s_w s)) in
     set_nth (chans s) (w_label wr)
       (tab (s_h s) (s_w s) (fun y x => if (y =? w_y wr) && (x =? w_x wr) then w_v wr else px 0 c y x))).
(** All writes of [pool.map(worker, range(num_labels))]; the pool may perform them in any order
    [sched] (a permutation): tasks only read the masks and never the edge array. *)
Definition pool_writes (mask : stack) (ids : list Z) (per_label : Z -> image Z -> image Z) : list write :=
  flat_map (task_writes mask ids per_label) (zseq (length (chans mask))).
Definition run_writes (mask : stack) (sched : list write) : stack :=
  fold_left apply_write sched (mkStack (s_h mask) (s_w mask) (map (fun _ => zeros (s_h mask) (s_w mask)) (chans mask))).

(** mask2edge_mp.py:69-147 [mp_mask2edge], given the order in which the pool performs the
    writes ([schedule]).  Pool(processes < 1) raises ValueError. *)
Definition mp_semantic_label (ign : image Z) (radius : Z) : Z -> image Z -> image Z :=
  fun _ m => mask2bdry m ign radius false.
Definition mp_mask2edge (schedule : list write -> list write) (mask : stack) (ignore_indices : list Z) (nproc radius : Z) (thin : bool) : res stack :=
  if thin then Err NotImplementedError
  else (bind (ignore_of mask ignore_indices) (fun ign =>
    if nproc <? 1 then Err ValueError
    else Ok (run_writes mask (schedule (pool_writes mask ignore_indices (mp_semantic_label ign radius)))))).
(** mask2edge_mp.py:204-311 [mp_instance_mask2edge]. *)
Definition mp_instance_mask2edge (schedule : list write -> list write) (mask : stack) (inst : image Z)
    (inst_labels ignore_indices : list Z) (nproc radius : Z) (thin : bool) : res stack :=
  if thin then Err NotImplementedError
  else (bind (ignore_of mask ignore_indices) (fun ign =>
    let cands := unique inst in
    bind (match cands with [] => Ok 0 | _ => sorted_head inst_labels end) (fun l0 =>
    bind (build_insts split_mp (l0 * 1000) cands) (fun insts =>
    if nproc <? 1 then Err ValueError
    else Ok (run_writes mask (schedule (pool_writes mask ignore_indices (inst_edge inst insts ign radius false)))))))).

(** ** datasets/otf_cityscapes.py *)
(** otf_cityscapes.py:26-53 [one_label_mask2edge]. *)
Definition one_label_mask2edge (label : Z) (mask : stack) (ignore_indices : list Z) (radius : Z) : res (image Z) :=
  if negb (label <? Z.of_nat (length (chans mask))) then Err AssertionError
  else bind (ignore_of mask ignore_indices) (fun ign =>
    bind (chan_at mask label) (fun m =>
      if memZ label ignore_indices then Ok (zeros (ht m) (wd m))
      else if any_nonzero m then Ok (mask2bdry m ign radius false) else Ok (zeros (ht m) (wd m)))).
(** otf_cityscapes.py:56-119 [one_label_instance_mask2edge]. *)
Definition one_label_instance_mask2edge (label : Z) (mask : stack) (inst : image Z) (inst_labels ignore_indices : list Z)
    (radius : Z) : res (image Z) :=
  if negb (label <? Z.of_nat (length (chans mask))) then Err AssertionError
  else bind (ignore_of mask ignore_indices) (fun ign =>
    let cands := unique inst in
    bind (match cands with [] => Ok 0 | _ => sorted_head inst_labels end) (fun l0 =>
    bind (build_insts split_mp (l0 * 1000) cands) (fun insts =>
    bind (chan_at mask label) (fun m =>
      if memZ label ignore_indices then Ok (zeros (ht m) (wd m))
      else if any_nonzero m then Ok (inst_edge inst insts ign radius false label m)
      else Ok (zeros (ht m) (wd m)))))).

(** ** edge_tools/transforms.py:98-124 and 141-168: [Mask2Edge.__call__],
    [InstanceMask2Edge.__call__] (a returned [dict(edge, mask)] is a pair; [None] for
    [label2trainId] and the empty dict both mean no conversion). *)
Definition to_train (d : option dict) (edge : stack) (mask : image Z) : res (stack * image Z) :=
  match d with
  | None | Some [] => Ok (edge, mask)
  | Some d => bind (edge_label2trainId edge d) (fun e => Ok (e, mask_label2trainId mask d))
  end.
(** transforms.py:74-96, the constructor checks. *)
Definition mask2edge_ctor (labelIds : list Z) (radius : Z) : res unit :=
  if Nat.eqb (length labelIds) 0 then Err AssertionError
  else if radius <? 1 then Err AssertionError else Ok tt.
Definition mask2edge_call (labelIds ignore_indices : list Z) (d : option dict) (radius : Z) (mask : image Z) : res (stack * image Z) :=
  bind (mask2edge_ctor labelIds radius) (fun _ =>
  bind (mask2onehot mask labelIds) (fun onehot =>
  bind (loop_mask2edge onehot ignore_indices radius false false) (fun edge => to_train d edge mask))).
Definition instance_mask2edge_call (inst_labels labelIds ignore_indices : list Z) (d : option dict) (radius : Z)
    (mask inst : image Z) : res (stack * image Z) :=
  bind (mask2edge_ctor labelIds radius) (fun _ =>
  if negb (Nat.eqb (ht mask) (ht inst) && Nat.eqb (wd mask) (wd inst)) then Err AssertionError
  else bind (mask2onehot mask labelIds) (fun onehot =>
  bind (loop_instance_mask2edge onehot inst inst_labels ignore_indices radius false false) (fun edge => to_train d edge mask))).

(** ** helpers/convert_cityscapes.py:66-188 at scale 1: the stored stack. *)
Definition convert_edges (inst : option (image Z)) (radius : Z) (thin : bool) (label_img : image Z) : res stack :=
  if thin && negb (radius =? 1) then Err AssertionError
  else bind (mask2onehot label_img CITYSCAPES_labelIds) (fun m =>
    bind (match inst with
          | Some i => loop_instance_mask2edge m i CITYSCAPES_inst_labelIds [2; 3] radius thin false
          | None => loop_mask2edge m [2; 3] radius thin false
          end) (fun edge_ids => edge_label2trainId edge_ids CITYSCAPES_label2trainId)).
(** lines 174-177: what is written to the .png file. *)
Definition convert_png (inst : option (image Z)) (radius : Z) (thin : bool) (label_img : image Z) : res rgb :=
  bind (convert_edges inst radius thin label_img) rgb_multilabel_encoding.
(** otf_cityscapes.py:23, 148-189: the on-the-fly edge of a category at scale 1 ([KeyError] for
    an unknown category). *)
Definition trainId2label (t : Z) : res Z :=
  match find (fun kv => snd kv =? t) CITYSCAPES_label2trainId with Some kv => Ok (fst kv) | None => Err KeyError end.
Definition otf_edge (category : Z) (inst : option (image Z)) (radius : Z) (label_img : image Z) : res (image Z) :=
  bind (trainId2label (category - 1)) (fun label =>
  bind (mask2onehot label_img CITYSCAPES_labelIds) (fun m =>
    match inst with
    | Some i => one_label_instance_mask2edge label m i CITYSCAPES_inst_labelIds [2; 3] radius
    | None => one_label_mask2edge label m [2; 3] radius
    end)).
