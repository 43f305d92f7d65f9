(** Non-maximum suppression: pyEdgeEval/_lib/src/benms.cc, pyEdgeEval/_lib/nms.pyx,
    pyEdgeEval/preprocess/nms/toolbox.py and pyEdgeEval/preprocess/nms/fast_nms.py.

    Simplifications (also in DESIGN.md): doubles are exact rationals; the libm functions are
    parameters ([cosf], [sinf], and [orient v] for [np.mod(np.arctan(v), np.pi)]) about which
    nothing is assumed; [to32] stands for the rounding of [np.float32]; the multiplier [m] is the
    value after its conversion to a C float (nms.pyx:11,18). *)
From Verif Require Export ModelImage.
From Coq Require Export QArith Qround.
Open Scope Z_scope.

(** ** benms.cc *)
Definition qlt (a b : Q) : bool := negb (Qle_bool b a).

(** Matrix.cc:473-484: element access throws a C++ exception outside the matrix; [benms] is
    declared without [except +] (nms.pyx:11-13), so the process is terminated. *)
Definition mget (im : image Q) (row col : Z) : res Q :=
  if inb (ht im) (wd im) row col then Ok (px 0%Q im row col) else Err Terminate.

(** benms.cc:15-16: [v < 0 ? 0 : (v > n - 1.001 ? n - 1.001 : v)]. *)
Definition clamp (n : Z) (v : Q) : Q :=
  let top := (inject_Z n - (1001 # 1000))%Q in
  if qlt v 0 then 0%Q else if qlt top v then top else v.

(** [int(v)]: towards zero. *)
Definition trunc (v : Q) : Z := if qlt v 0 then - Qfloor (- v) else Qfloor v.

(** benms.cc:12-26 [interp]. *)
Definition interp (I : image Q) (h w : Z) (x y : Q) : res Q :=
  let x := clamp w x in
  let y := clamp h y in
  let x0 := trunc x in let y0 := trunc y in
  let x1 := x0 + 1 in let y1 := y0 + 1 in
  let dx0 := (x - inject_Z x0)%Q in let dy0 := (y - inject_Z y0)%Q in
  let dx1 := (1 - dx0)%Q in let dy1 := (1 - dy0)%Q in
  bind (mget I y0 x0) (fun a => bind (mget I y0 x1) (fun b =>
  bind (mget I y1 x0) (fun c => bind (mget I y1 x1) (fun d =>
    Ok (a * dx1 * dy1 + b * dx0 * dy1 + c * dx1 * dy0 + d * dx0 * dy0)%Q)))).

(** benms.cc:53-62: the values of [d] from [-r] to [r] except 0. *)
Definition offsets (r : Z) : list Z :=
  filter (fun d => negb (d =? 0)) (map (fun k => k - r) (zseq (Z.to_nat (2 * r + 1)))).
(** Same lines: does the pixel survive the loop (which stops at the first larger value)? *)
Fixpoint survives (edge : image Q) (h w : Z) (e : Q) (x y : Z) (co si : Q) (ds : list Z) : res bool :=
  match ds with
  | [] => Ok true
  | d :: ds =>
    bind (interp edge h w (inject_Z x + inject_Z d * co)%Q (inject_Z y + inject_Z d * si)%Q) (fun e0 =>
      if qlt e e0 then Ok false else survives edge h w e x y co si ds)
  end.

(** benms.cc:45-63: one pixel. *)
Definition nms_pixel (cosf sinf : Q -> Q) (edge ori : image Q) (r : Z) (m : Q) (y x : Z) : res Q :=
  let e := px 0%Q edge y x in
  if Qeq_bool e 0 then Ok e
  else
    let o := px 0%Q ori y x in
    bind (survives edge (Z.of_nat (ht edge)) (Z.of_nat (wd edge)) (e * m)%Q x y (cosf o) (sinf o) (offsets r))
         (fun keep => Ok (if keep then e else 0%Q)).

Fixpoint mapM {A B} (f : A -> res B) (l : list A) : res (list B) :=
  match l with
  | [] => Ok []
  | a :: l => bind (f a) (fun b => bind (mapM f l) (fun bs => Ok (b :: bs)))
  end.
(** A fresh [h] x [w] array filled by [f], which may fail (the source goes through the pixels
    column by column; the only failure is process termination, so the order is not observable). *)
Definition tabM {A} (h w : nat) (f : Z -> Z -> res A) : res (image A) :=
  bind (mapM (fun y => mapM (fun x => f y x) (zseq w)) (zseq h)) (fun l => Ok (mkImage h w l)).

(** [out(y, x) *= q]. *)
Definition scale_at (out : image Q) (w : Z * Z * Q) : res (image Q) :=
  let '(y, x, q) := w in
  if inb (ht out) (wd out) y x
  then Ok (tab (ht out) (wd out) (fun y' x' =>
             if (y' =? y) && (x' =? x) then (px 0 out y' x' * q)%Q else px 0%Q out y' x'))
  else Err Terminate.
Fixpoint scale_all (out : image Q) (ws : list (Z * Z * Q)) : res (image Q) :=
  match ws with [] => Ok out | w :: ws => bind (scale_at out w) (fun out => scale_all out ws) end.

Definition ratio (k s : Z) : Q := (inject_Z k / inject_Z s)%Q.
(** benms.cc:65-78: the two border loops as a list of multiplications. *)
Definition border_writes (h w : nat) (s : Z) : list (Z * Z * Q) :=
  let zh := Z.of_nat h in let zw := Z.of_nat w in
  let s := if zw / 2 <? s then zw / 2 else s in
  let s := if zh / 2 <? s then zh / 2 else s in
  flat_map (fun x => flat_map (fun y => [(y, x, ratio x s); (y, zw - 1 - x, ratio x s)]) (zseq h)) (zseq (Z.to_nat s))
  ++ flat_map (fun x => flat_map (fun y => [(y, x, ratio y s); (zh - 1 - y, x, ratio y s)]) (zseq (Z.to_nat s))) (zseq w).

(** benms.cc:28-79 [benms] (the two assertions hold because nms.pyx has compared the shapes). *)
Definition benms (cosf sinf : Q -> Q) (edge ori : image Q) (r s : Z) (m : Q) : res (image Q) :=
  if negb (Nat.eqb (wd edge) (wd ori) && Nat.eqb (ht edge) (ht ori)) then Err AssertionError
  else
    bind (tabM (ht edge) (wd edge) (nms_pixel cosf sinf edge ori r m)) (fun out =>
      scale_all out (border_writes (ht edge) (wd edge) s)).

(** nms.pyx:42-56 [nms]. *)
Definition nms (cosf sinf : Q -> Q) (edge ori : image Q) (r s : Z) (m : Q) : res (image Q) :=
  if negb (Nat.eqb (ht edge) (ht ori) && Nat.eqb (wd edge) (wd ori)) then Err ValueError
  else benms cosf sinf edge ori r s m.

(** ** toolbox.py *)
(** Index [i] of an axis of length [n] extended by [mode="symmetric"] padding. *)
Definition mirror_index (n i : Z) : Z := let k := i mod (2 * n) in if k <? n then k else 2 * n - 1 - k.
(** [np.pad(image, ((r, r), (r, r)), mode="symmetric")]. *)
Definition pad_symmetric (r : nat) (im : image Q) : image Q :=
  let zr := Z.of_nat r in
  tab (ht im + 2 * r) (wd im + 2 * r) (fun y x =>
    px 0%Q im (mirror_index (Z.of_nat (ht im)) (y - zr)) (mirror_index (Z.of_nat (wd im)) (x - zr))).

(** toolbox.py:20-30: the filter taps and the padding width. *)
Definition tri_taps (r : Z) : res (list Q * nat) :=
  if r <=? 1 then
    if (r =? 0) || (r + 2 =? 0) then Err ZeroDivisionError
    else
      let p := (inject_Z 12 / inject_Z r / inject_Z (r + 2) - 2)%Q in
      Ok (map (fun v => v / (2 + p))%Q [1%Q; p; 1%Q], 1%nat)
  else
    let up := map (fun k => k + 1) (zseq (Z.to_nat r)) in
    Ok (map (fun v => inject_Z v / inject_Z ((r + 1) * (r + 1)))%Q (up ++ [r + 1] ++ rev up), Z.to_nat r).

(** [sum_k f[k] g(k)]. *)
Definition qsum (l : list Q) : Q := fold_right Qplus 0%Q l.
Definition dot (f : list Q) (g : Z -> Q) : Q :=
  qsum (map (fun k => nth (Z.to_nat k) f 0 * g k)%Q (zseq (length f))).
(** [signal.convolve2d(im, f, "valid")] for a row [f] of [n] taps, and for the column [f.T]. *)
Definition conv_row (im : image Q) (f : list Q) : image Q :=
  let n := Z.of_nat (length f) in
  tab (ht im) (wd im + 1 - length f) (fun y x => dot f (fun k => px 0%Q im y (x + n - 1 - k))).
Definition conv_col (im : image Q) (f : list Q) : image Q :=
  let n := Z.of_nat (length f) in
  tab (ht im + 1 - length f) (wd im) (fun y x => dot f (fun k => px 0%Q im (y + n - 1 - k) x)).

(** Python's [a[lo:hi:step]] on an axis of length [n]: first index and number of entries. *)
Definition slice_len (n lo hi step : Z) : nat :=
  let b i := if i <? 0 then Z.max (i + n) 0 else Z.min i n in
  Z.to_nat ((b hi - b lo + step - 1) / step).
(** toolbox.py:36-41: down-sampling. *)
Definition downsample (s : Z) (im : image Q) : image Q :=
  let t := s / 2 + 1 in
  let n z := slice_len z (t - 1) (z - (s - t) + 1) s in
  tab (n (Z.of_nat (ht im))) (n (Z.of_nat (wd im))) (fun y x => px 0%Q im (t - 1 + s * y) (t - 1 + s * x)).

(** toolbox.py:9-42 [conv_tri], for a floating point image. *)
Definition conv_tri (im : image Q) (r s : Z) : res (image Q) :=
  if Nat.eqb (ht im * wd im) 0 || ((r =? 0) && (s =? 1)) then Ok im
  else bind (tri_taps r) (fun '(f, r) =>
    let out := conv_col (conv_row (pad_symmetric r im) f) f in
    Ok (if 1 <? s then downsample s out else out)).

(** [np.gradient] along one axis of length [n] at index [i]; [g] reads the axis. *)
Definition grad1 (n : Z) (g : Z -> Q) (i : Z) : Q :=
  if i =? 0 then (g 1%Z - g 0%Z)%Q
  else if i =? n - 1 then (g (n - 1)%Z - g (n - 2)%Z)%Q
  else ((g (i + 1)%Z - g (i - 1)%Z) / 2)%Q.
(** toolbox.py:45-52 [grad2]: (ox, oy). *)
Definition grad2 (im : image Q) : res (image Q * image Q) :=
  if (Nat.ltb (ht im) 2 || Nat.ltb (wd im) 2) then Err ValueError
  else Ok (tab (ht im) (wd im) (fun y x => grad1 (Z.of_nat (wd im)) (fun k => px 0%Q im y k) x),
           tab (ht im) (wd im) (fun y x => grad1 (Z.of_nat (ht im)) (fun k => px 0%Q im k x) y)).

(** ** fast_nms.py *)
(** [np.sign]. *)
Definition sgn (v : Q) : Q := if qlt v 0 then (-1)%Q else if qlt 0 v then 1%Q else 0%Q.
(** fast_nms.py:60-70: the orientation map of a smoothed image. *)
Definition orientation (orient : Q -> Q) (edge : image Q) : res (image Q) :=
  bind (conv_tri edge 4 1) (fun smooth =>
  bind (grad2 smooth) (fun '(ox, oy) =>
  bind (grad2 ox) (fun '(oxx, _) =>
  bind (grad2 oy) (fun '(oxy, oyy) =>
    Ok (tab (ht edge) (wd edge) (fun y x =>
      let d := px 0%Q oxx y x in
      let d := if Qeq_bool d 0 then (1 # 100000)%Q else d in
      orient (px 0 oyy y x * sgn (- px 0 oxy y x) / d)%Q)))))).

(** The array types distinguished by fast_nms.py:45-51; uint8 is divided by 255. *)
Inductive pixels := U8 (im : image Z) | F64 (im : image Q) | OtherDtype.
Definition as_float (p : pixels) : res (image Q) :=
  match p with
  | U8 im => Ok (imap (fun v => inject_Z v / inject_Z 255)%Q im)
  | F64 im => Ok im
  | OtherDtype => Err AssertionError
  end.

(** fast_nms.py:21-73 up to the return value as a float array. *)
Definition fast_nms (orient cosf sinf to32 : Q -> Q) (img : pixels) (r s : Z) (m : Q) (half_prec : bool)
    : res (image Q) :=
  bind (as_float img) (fun img =>
  bind (conv_tri img 1 1) (fun edge =>
    let edge := if half_prec then imap to32 edge else edge in
    bind (orientation orient edge) (fun ori => nms cosf sinf edge ori r s m))).

(** [np.round]: to the nearest integer, halves to even. *)
Definition round_even (q : Q) : Z :=
  let f := Qfloor q in
  let d := (q - inject_Z f)%Q in
  if qlt d (1 # 2) then f else if qlt (1 # 2) d then f + 1 else if Z.even f then f else f + 1.
(** fast_nms.py:75-78: [np.round(np.clip(out, 0, 1) * 255).astype(np.uint8)]. *)
Definition clip01 (q : Q) : Q := if qlt q 0 then 0%Q else if qlt 1 q then 1%Q else q.
Definition to_uint8 (out : image Q) : image Z := imap (fun v => round_even (clip01 v * 255)%Q) out.
