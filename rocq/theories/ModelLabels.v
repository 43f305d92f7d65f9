(** Label maps and multi-label encodings:
    pyEdgeEval/common/multi_label/{edge_encoding,edge_decoding,utils}.py,
    pyEdgeEval/utils/convert_formats.py, helpers/convert_sbd.py:209-217 and the literal
    label tables of datasets/{cityscapes,sbd}_attributes.py.

    numpy integer arrays are images of [Z] with explicit wrap-around where the dtype is
    narrower than the arithmetic.  dtypes follow numpy 1.x value-based casting. *)
From Verif Require Export ModelImage ModelDec.

(** A 3-D array (num_classes, h, w). *)
Record stack := mkStack { s_h : nat; s_w : nat; chans : list (image Z) }.

Definition wrap (bits : Z) (v : Z) : Z := v mod 2 ^ bits.

(** Python's [a[i]] on an axis of length [n]: negative indices count from the end. *)
Definition pyidx (n : nat) (i : Z) : option nat :=
  if (0 <=? i) && (i <? Z.of_nat n) then Some (Z.to_nat i)
  else if (i <? 0) && (- Z.of_nat n <=? i) then Some (Z.to_nat (i + Z.of_nat n))
  else None.

(** ** edge_encoding.py *)

(** dtype width of [(2**k) * edge_map] for a uint8 map ([None]: Python objects, unbounded). *)
Definition prod_bits (k : nat) : option Z :=
  if Nat.ltb k 8 then Some 8 else if Nat.ltb k 16 then Some 16 else if Nat.ltb k 32 then Some 32
  else if Nat.ltb k 64 then Some 64 else None.
(** dtype width of the accumulator after adding class [k] to a uint32 (or wider) array. *)
Definition acc_bits (k : nat) : option Z :=
  if Nat.ltb k 32 then Some 32 else if Nat.ltb k 64 then Some 64 else None.
Definition wrapo (b : option Z) (v : Z) : Z := match b with Some b => wrap b v | None => v end.

(** [acc + (2**k) * e]. *)
Definition add_scaled (h w : nat) (pb ab : option Z) (k : nat) (acc e : image Z) : image Z :=
  tab h w (fun y x => wrapo ab (px 0 acc y x + wrapo pb (2 ^ Z.of_nat k * px 0 e y x))).

Fixpoint default_loop (h w : nat) (k : nat) (l : list (image Z)) (acc : image Z) : image Z :=
  match l with
  | [] => acc
  | e :: l => default_loop h w (S k) l (add_scaled h w (prod_bits k) (acc_bits k) k acc e)
  end.
(** edge_encoding.py:12-27 [default_multilabel_encoding]; also convert_formats.py:29-41
    [edge_onehot2multilabel], the same loop. *)
Definition default_multilabel_encoding (edges : stack) : image Z :=
  default_loop (s_h edges) (s_w edges) 0 (chans edges) (tab (s_h edges) (s_w edges) (fun _ _ => 0)).
Definition edge_onehot2multilabel := default_multilabel_encoding.

(** A PNG: channels R, G, B of shape (h, w). *)
Record rgb := mkRGB { g_h : nat; g_w : nat; ch_r : image Z; ch_g : image Z; ch_b : image Z }.

Fixpoint rgb_loop (h w : nat) (k : nat) (l : list (image Z)) (b g r : image Z) : res (image Z * image Z * image Z) :=
  match l with
  | [] => Ok (b, g, r)
  | e :: l =>
    if Nat.ltb k 8 then rgb_loop h w (S k) l (add_scaled h w (Some 8) (Some 8) k b e) g r
    else if Nat.ltb k 16 then rgb_loop h w (S k) l b (add_scaled h w (Some 8) (Some 8) (k - 8) g e) r
    else if Nat.ltb k 24 then rgb_loop h w (S k) l b g (add_scaled h w (Some 8) (Some 8) (k - 16) r e)
    else Err ValueError
  end.
(** edge_encoding.py:30-62 [rgb_multilabel_encoding]. *)
Definition rgb_multilabel_encoding (edges : stack) : res rgb :=
  let z := tab (s_h edges) (s_w edges) (fun _ _ => 0) in
  bind (rgb_loop (s_h edges) (s_w edges) 0 (chans edges) z z z) (fun t =>
    let '(b, g, r) := t in Ok (mkRGB (s_h edges) (s_w edges) r g b)).

(** ** edge_decoding.py *)

(** [range(len)[-1 : stop : -1]]. *)
Definition slice_rev (len : Z) (stop : Z) : list Z :=
  let s := if stop <? 0 then Z.max (stop + len) (-1) else Z.min stop (len - 1) in
  map (fun j => len - 1 - j) (zseq (Z.to_nat (len - 1 - s))).

(** [np.unpackbits(edge, axis=2)]: entry [i] of the 24 bits of a pixel (R, G, B; most
    significant bit first). *)
Definition png_bit (im : rgb) (i : Z) (y x : Z) : Z :=
  let c := if i <? 8 then ch_r im else if i <? 16 then ch_g im else ch_b im in
  b2z (Z.testbit (px 0 c y x) (7 - i mod 8)).
(** edge_decoding.py:63-71 [decode_png]. *)
Definition decode_png (im : rgb) (num_classes : Z) : stack :=
  mkStack (g_h im) (g_w im)
    (map (fun i => tab (g_h im) (g_w im) (png_bit im i)) (slice_rev 24 (- (num_classes + 1)))).

(** convert_cityscapes.py:181 [edges.view(np.int32)] on uint32 data. *)
Definition view_int32 (v : Z) : Z := if v <? 2 ^ 31 then v else v - 2 ^ 32.
(** edge_decoding.py:74-85 [decode_tif] ([np.unpackbits(count=n)]: n >= 0 gives n bits, zero
    padded; -32 <= n < 0 drops bits from the end; less raises ValueError). *)
Definition decode_tif (im : image Z) (num_classes : Z) : res stack :=
  let n := if 0 <=? num_classes then num_classes else 32 + num_classes in
  if n <? 0 then Err ValueError
  else Ok (mkStack (ht im) (wd im)
    (map (fun k => tab (ht im) (wd im) (fun y x =>
        if k <? 32 then b2z (Z.testbit (wrap 32 (px 0 im y x)) k) else 0)) (zseq (Z.to_nat n)))).

(** ** utils/convert_formats.py *)

(** convert_formats.py:6-19 [mask2onehot] (the guard compares with [mask.shape[0]]). *)
Definition mask2onehot (mask : image Z) (labels : list Z) : res stack :=
  if Nat.eqb (length labels) 0 then Err AssertionError
  else if Nat.ltb (ht mask) (length labels) then Err AssertionError
  else Ok (mkStack (ht mask) (wd mask)
    (map (fun l => tab (ht mask) (wd mask) (fun y x => b2z (px 0 mask y x =? l))) labels)).

(** convert_formats.py:22-26 [edge_multilabel2binary]. *)
Definition edge_multilabel2binary (edges : stack) : image Z :=
  tab (s_h edges) (s_w edges) (fun y x => b2z (0 <? zsum (map (fun e => px 0 e y x) (chans edges)))).

(** A Python dict in insertion order. *)
Definition dict := list (Z * Z).

(** convert_formats.py:44-69 [mask_label2trainId] on a 2-D mask: uint8 output. *)
Definition mask_label2trainId (mask : image Z) (d : dict) : image Z :=
  fold_left (fun acc kv => tab (ht mask) (wd mask) (fun y x =>
      if px 0 mask y x =? fst kv then wrap 8 (snd kv) else px 0 acc y x))
    d (tab (ht mask) (wd mask) (fun _ _ => 255)).

(** convert_formats.py:72-80 [edge_label2trainId]. *)
Definition set_nth {A} (l : list A) (i : nat) (a : A) : list A :=
  firstn i l ++ match skipn i l with [] => [] | _ :: r => a :: r end.
Fixpoint l2t_loop (edge : stack) (d : dict) (acc : list (image Z)) : res (list (image Z)) :=
  match d with
  | [] => Ok acc
  | (labelId, trainId) :: d' =>
    match pyidx (length (chans edge)) labelId, pyidx (length acc) trainId with
    | Some i, Some j =>
      l2t_loop edge d' (set_nth acc j (nth i (chans edge) (tab (s_h edge) (s_w edge) (fun _ _ => 0))))
    | _, _ => Err IndexError
    end
  end.
Definition edge_label2trainId (edge : stack) (d : dict) : res stack :=
  bind (l2t_loop edge d (repeat (tab (s_h edge) (s_w edge) (fun _ _ => 0)) (length d))) (fun c =>
    Ok (mkStack (s_h edge) (s_w edge) c)).

(** helpers/convert_sbd.py:209-217 [convert_seg_label2train]: same mapping, dtype of [seg] (uint8). *)
Definition convert_seg_label2train := mask_label2trainId.

(** ** common/multi_label/utils.py *)

(** [y] belongs to the slice [a:b] of an axis of length [n]. *)
Definition slice_bound (n : Z) (i : Z) : Z := if i <? 0 then Z.max (i + n) 0 else Z.min i n.
Definition in_slice (n a b y : Z) : bool := (slice_bound n a <=? y) && (y <? slice_bound n b).
(** utils.py:6-21 [add_ignore_pixel] (works in place and returns its argument). *)
Definition add_ignore_pixel (seg : image Z) (border_px ignore_id : Z) : image Z :=
  let h := Z.of_nat (ht seg) in let w := Z.of_nat (wd seg) in
  tab (ht seg) (wd seg) (fun y x =>
    if in_slice h 0 border_px y || in_slice h (h - border_px) h y
       || in_slice w 0 border_px x || in_slice w (w - border_px) w x
    then ignore_id else px 0 seg y x).

(** utils.py:24-45 [convert_inst_seg]. [pack_id cat k] is
    [int(str(cat).zfill(2) + str(k).zfill(3))]. *)
Definition pack_id (cat k : Z) : Z := undigits (zfill 2 (digits cat) ++ zfill 3 (digits k)).
Fixpoint inst_inner (seg : image Z) (cat : Z) (i num : Z) (inst_cats : list Z) (out : image Z) : image Z :=
  match inst_cats with
  | [] => out
  | c :: rest =>
    if cat =? c
    then inst_inner seg cat (i + 1) (num + 1) rest
           (tab (ht seg) (wd seg) (fun y x => if px 0 seg y x =? i + 1 then pack_id cat num else px 0 out y x))
    else inst_inner seg cat (i + 1) num rest out
  end.
Definition convert_inst_seg (seg : image Z) (inst_cats present_cats : list Z) : image Z :=
  fold_left (fun out cat => inst_inner seg cat 0 0 inst_cats out) present_cats
    (tab (ht seg) (wd seg) (fun _ _ => 0)).

(** ** datasets/{cityscapes,sbd}_attributes.py *)
(** cityscapes_attributes.py:4. *)
Definition CITYSCAPES_labelIds : list Z := zseq 34.
(** cityscapes_attributes.py:7-27. *)
Definition CITYSCAPES_label2trainId : dict :=
  [(7,0);(8,1);(11,2);(12,3);(13,4);(17,5);(19,6);(20,7);(21,8);(22,9);(23,10);(24,11);(25,12);
   (26,13);(27,14);(28,15);(31,16);(32,17);(33,18)].
(** cityscapes_attributes.py:51-60. *)
Definition CITYSCAPES_inst_labelIds : list Z := [24;25;26;27;28;31;32;33].
(** sbd_attributes.py:10, 13-35, 61. *)
Definition SBD_labelIds : list Z := zseq 22.
Definition SBD_label2trainId : dict :=
  [(1,0);(2,1);(3,2);(4,3);(5,4);(6,5);(7,6);(8,7);(9,8);(10,9);(11,10);(12,11);(13,12);(14,13);
   (15,14);(16,15);(17,16);(18,17);(19,18);(20,19)].
Definition SBD_inst_labelIds : list Z := map (fun k => k + 1) (zseq 20).
