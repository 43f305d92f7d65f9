(** Specification of triangle smoothing and of non-maximum suppression. *)
From Verif Require Export ModelImage.
From Coq Require Export QArith Qround Qminmax Qabs.
Open Scope Z_scope.

(** [F lo + F (lo+1) + ... ] ([n] terms). *)
Definition sum_from (lo : Z) (n : nat) (F : Z -> Q) : Q :=
  fold_right Qplus 0%Q (map (fun k => F (lo + k)) (zseq n)).
(** Sum over all offsets from [-r] to [r]. *)
Definition sum_around (r : Z) (F : Z -> Q) : Q := sum_from (- r) (Z.to_nat (2 * r + 1)) F.

(** Triangle weight of offset [d] for radius [r]. *)
Definition tri (r d : Z) : Q := (inject_Z (r + 1 - Z.abs d) / inject_Z ((r + 1) * (r + 1)))%Q.

(** [mirror n i j]: index [i] of the mirrored extension (edge pixel repeated) of an axis of length
    [n] is index [j] of the axis. *)
Inductive mirror (n : Z) : Z -> Z -> Prop :=
| mirror_in : forall i, 0 <= i < n -> mirror n i i
| mirror_low : forall i j, mirror n i j -> mirror n (- 1 - i) j
| mirror_high : forall i j, mirror n i j -> mirror n (2 * n - 1 - i) j.

(** [out] is the triangle-smoothed [im]: each pixel is the weighted average of the pixels around
    it, pixels outside being mirrored at the border. *)
Definition triangle_smoothed (r : Z) (im out : image Q) : Prop :=
  wf out /\ same_shape im out /\
  forall ref : Z -> Z -> Z,
    (forall n i, 0 < n -> mirror n i (ref n i)) ->
    forall y x, inb (ht im) (wd im) y x = true ->
    (px 0 out y x == sum_around r (fun dy => sum_around r (fun dx => tri r dy * tri r dx *
       px 0 im (ref (Z.of_nat (ht im)) (y + dy)%Z) (ref (Z.of_nat (wd im)) (x + dx)%Z))))%Q.

(** Bilinear interpolation of an image at a (column, row) position, moved into the image first. *)
Definition inside (n : nat) (v : Q) : Q := Qmax 0 (Qmin v (inject_Z (Z.of_nat n) - (1001 # 1000))).
Definition bilinear (im : image Q) (x y : Q) : Q :=
  let x := inside (wd im) x in let y := inside (ht im) y in
  let fx := (x - inject_Z (Qfloor x))%Q in let fy := (y - inject_Z (Qfloor y))%Q in
  let v00 := px 0%Q im (Qfloor y) (Qfloor x) in
  let v01 := px 0%Q im (Qfloor y) (Qfloor x + 1) in
  let v10 := px 0%Q im (Qfloor y + 1) (Qfloor x) in
  let v11 := px 0%Q im (Qfloor y + 1) (Qfloor x + 1) in
  ((1 - fy) * ((1 - fx) * v00 + fx * v01) + fy * ((1 - fx) * v10 + fx * v11))%Q.

(** Pixel (y, x) is a local maximum up to the factor [m] along the direction (co, si). *)
Definition locally_maximal (edge : image Q) (r : Z) (m co si : Q) (y x : Z) : Prop :=
  forall d, - r <= d <= r -> d <> 0 ->
    (bilinear edge (inject_Z x + inject_Z d * co) (inject_Z y + inject_Z d * si) <= px 0 edge y x * m)%Q.

(** Attenuation near the border: linear over [s] pixels from each end of an axis of length [n]. *)
Definition fade (n : nat) (s k : Z) : Q :=
  let b := Z.min k (Z.of_nat n - 1 - k) in
  if b <? s then (inject_Z b / inject_Z s)%Q else 1%Q.
(** The border is at most half of each side. *)
Definition border_of (h w : nat) (s : Z) : Z := Z.min s (Z.min (Z.of_nat w / 2) (Z.of_nat h / 2)).

(** Derivative of a sampled function on 0 .. n-1: the slope between the neighbours that exist. *)
Definition slope (n : nat) (g : Z -> Q) (i : Z) : Q :=
  let hi := Z.min (i + 1) (Z.of_nat n - 1) in let lo := Z.max (i - 1) 0 in
  ((g hi - g lo) / inject_Z (hi - lo))%Q.
(** Partial derivatives of an image given as a function of (row, column). *)
Definition along_x (w : nat) (f : Z -> Z -> Q) (y x : Z) : Q := slope w (fun k => f y k) x.
Definition along_y (h : nat) (f : Z -> Z -> Q) (y x : Z) : Q := slope h (fun k => f k x) y.
Definition signum (v : Q) : Q := match (v ?= 0)%Q with Lt => (-1)%Q | Eq => 0%Q | Gt => 1%Q end.
(** The argument of the arc tangent: f_yy * sign(-f_xy) / f_xx, with 1e-5 for a vanishing f_xx. *)
Definition tangent (h w : nat) (f : Z -> Z -> Q) (y x : Z) : Q :=
  let fx := along_x w f in let fy := along_y h f in
  let fxx := along_x w fx y x in
  (along_y h fy y x * signum (- along_x w fy y x) / (if Qeq_bool fxx 0 then (1 # 100000) else fxx))%Q.
