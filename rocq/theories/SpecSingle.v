(** What the per-image routines read from the files: rescaling, prediction strengths, ground truth. *)
From Verif Require Export SpecEval SpecNMS.
Open Scope Z_scope.

(** [m] is [n * scale] rounded to the nearest integer, halves up. *)
Definition scaled_size (n : nat) (scale : Q) (m : nat) : Prop :=
  (inject_Z (Z.of_nat m) <= inject_Z (Z.of_nat n) * scale + (1 # 2) < inject_Z (Z.of_nat m) + 1)%Q.
(** The centre of output cell [i] (of [n_out]) lies in input cell [j] (of [n_in]); both axes have
    the same physical length. *)
Definition sampled (n_in n_out : nat) (i j : Z) : Prop :=
  2 * Z.of_nat n_out * j <= (2 * i + 1) * Z.of_nat n_in < 2 * Z.of_nat n_out * (j + 1).
(** [im'] is [im] resampled to [h] x [w] pixels. *)
Definition resampled {A} (d : A) (im : image A) (h w : nat) (im' : image A) : Prop :=
  wf im' /\ ht im' = h /\ wd im' = w /\
  forall y x, inb h w y x = true -> exists y' x', inb (ht im) (wd im) y' x' = true /\
    sampled (ht im) h y y' /\ sampled (wd im) w x x' /\ px d im' y x = px d im y' x'.

(** Byte values as strengths between 0 and 1; with [border] the 5 outermost pixels count as 0. *)
Definition strength_map (border : bool) (im : image Z) (q : image Q) : Prop :=
  wf q /\ same_shape q im /\ forall y x, inb (ht im) (wd im) y x = true ->
    (px 0 q y x ==
       if border && negb (((5 <=? y) && (y <? Z.of_nat (ht im) - 5)) && ((5 <=? x) && (x <? Z.of_nat (wd im) - 5)))
       then 0 else inject_Z (px 0%Z im y x) / 255)%Q.
(** Non-maximum suppression with the parameters used by the evaluation: distance 1, border 5,
    factor 1.01. *)
Definition suppressed (orient cosf sinf : Q -> Q) (p q : image Q) : Prop :=
  exists smooth blurred, triangle_smoothed 1 p smooth /\ triangle_smoothed 4 smooth blurred /\ wf q /\ same_shape p q /\
    forall y x, inb (ht p) (wd p) y x = true -> exists v,
      (v == tangent (ht p) (wd p) (px 0 blurred) y x)%Q /\
      (locally_maximal smooth 1 (101 # 100) (cosf (orient v)) (sinf (orient v)) y x ->
        (px 0 q y x == px 0 smooth y x * fade (wd p) (border_of (ht p) (wd p) 5) x * fade (ht p) (border_of (ht p) (wd p) 5) y)%Q) /\
      (~ locally_maximal smooth 1 (101 # 100) (cosf (orient v)) (sinf (orient v)) y x -> (px 0 q y x == 0)%Q).
(** The strengths that are thresholded, from the bytes of the prediction file. *)
Definition strengths (orient cosf sinf : Q -> Q) (border nms : bool) (im : image Z) (q : image Q) : Prop :=
  exists p, strength_map border im p /\ if nms then suppressed orient cosf sinf p q else q = p.

(** The edge pixels of class [c] (from 1) in a multi-label PNG with channels R, G, B: bit [c-1] of
    the 24-bit number B + 256 G + 65536 R. *)
Definition class_edges (r g b : image Z) (c : Z) (e : image bool) : Prop :=
  wf e /\ same_shape e r /\ forall y x, px false e y x = true <->
    inb (ht r) (wd r) y x = true /\ Z.testbit (px 0 b y x + 256 * px 0 g y x + 65536 * px 0 r y x) (c - 1) = true.
(** The pixels of a label map with the given label. *)
Definition label_mask (seg : image Z) (label : Z) (m : image bool) : Prop :=
  wf m /\ same_shape m seg /\ forall y x, px false m y x = true <-> inb (ht seg) (wd seg) y x = true /\ px 0 seg y x = label.

(** The predicted pixels that are scored at a threshold. *)
Definition scored_pixels (thin kill : bool) (q : image Q) (t : Q) (g m : image bool) (tol2 : Q) (p' : image bool) : Prop :=
  exists p, predicted thin q t p /\
    if kill then ((exists y x, px false g y x = true) /\ killed p g m tol2 p') \/ ((forall y x, px false g y x = false) /\ p' = p)
    else p' = p.
(** The counts of one class of one image at one threshold; a class without ground truth edges may
    be skipped. *)
Definition class_counts (thin kill skip : bool) (q : image Q) (g m : image bool) (tol2 : Q) (t : Q) (cr sr cp sp : Z) : Prop :=
  if skip && negb (any_true g) then cr = 0 /\ sr = 0 /\ cp = 0 /\ sp = 0
  else exists p, scored_pixels thin kill q t g m tol2 p /\ counted p g tol2 cr sr cp sp.
