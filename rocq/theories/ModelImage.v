(** Two-dimensional arrays (numpy ndarrays with ndim = 2).

    An image carries its shape explicitly (numpy keeps the width of a 0-row array)
    and its rows.  Pixel coordinates are integers [(y, x)]; reading outside gives the
    default value, which models zero padding. *)
From Verif Require Export ModelBase.

Record image (A : Type) := mkImage { ht : nat; wd : nat; rows : list (list A) }.
Arguments mkImage {A} ht wd rows.
Arguments ht {A} i.
Arguments wd {A} i.
Arguments rows {A} i.

(** The array really has the announced shape. *)
Definition wf {A} (im : image A) : Prop :=
  length (rows im) = ht im /\ Forall (fun r => length r = wd im) (rows im).

(** [(y,x)] is a valid index of an [h] x [w] array. *)
Definition inb (h w : nat) (y x : Z) : bool :=
  (0 <=? y) && (y <? Z.of_nat h) && (0 <=? x) && (x <? Z.of_nat w).

(** [im[y, x]], with [d] outside. *)
Definition px {A} (d : A) (im : image A) (y x : Z) : A :=
  if (0 <=? y) && (0 <=? x)
  then nth (Z.to_nat x) (nth (Z.to_nat y) (rows im) []) d
  else d.

(** The array of shape [(h, w)] whose entry at [(y, x)] is [f y x]. *)
Definition tab {A} (h w : nat) (f : Z -> Z -> A) : image A :=
  mkImage h w (map (fun y => map (fun x => f y x) (zseq w)) (zseq h)).

(** Elementwise map. *)
Definition imap {A B} (f : A -> B) (im : image A) : image B :=
  mkImage (ht im) (wd im) (map (map f) (rows im)).

(** All pixel coordinates in raster order. *)
Definition coords (h w : nat) : list (Z * Z) :=
  flat_map (fun y => map (fun x => (y, x)) (zseq w)) (zseq h).

(** [im.sum()] of a boolean array: number of True entries. *)
Definition count_true (im : image bool) : nat :=
  length (filter (fun b => b) (concat (rows im))).

(** [np.any(im)] of a boolean array. *)
Definition any_true (im : image bool) : bool :=
  existsb (fun b => b) (concat (rows im)).

(** Boolean equality of boolean images. *)
Definition same_shape {A B} (a : image A) (b : image B) : Prop :=
  ht a = ht b /\ wd a = wd b.
