(** Geometric specification of boundaries, in terms of pixel sets and squared Euclidean
    distances. *)
From Verif Require Export ModelEdges SpecLabels.

(** A 0/1 array. *)
Definition binary (m : image Z) : Prop := forall y x, px 0 m y x = 0 \/ px 0 m y x = 1.
(** The pixel (y, x) belongs to the mask. *)
Definition member (m : image Z) (y x : Z) : Prop := px 0 m y x <> 0.
(** The pixel is an image pixel outside the mask and outside the ignored region. *)
Definition outside (m ign : image Z) (y x : Z) : Prop :=
  inb (ht m) (wd m) y x = true /\ px 0 m y x = 0 /\ px 0 ign y x = 0.

(** [ign] is an ignore map for [m]: same shape, small counts. *)
Definition ignore_for (m ign : image Z) : Prop :=
  wf m /\ wf ign /\ ht ign = ht m /\ wd ign = wd m /\ forall y x, 0 <= px 0 ign y x < 255.

(** The boundary band of radius [r] around the mask, pixel by pixel. *)
Definition boundary_spec (m ign : image Z) (r : Z) (y x : Z) : Prop :=
  0 <= r /\
  ((member m y x /\ exists y' x', outside m ign y' x' /\ sqd y x y' x' <= r * r) \/
   (outside m ign y x /\ exists y' x', member m y' x' /\ sqd y x y' x' <= r * r) \/
   (~ member m y x /\ px 0 ign y x <> 0 /\
      exists y1 x1 y2 x2, member m y1 x1 /\ outside m ign y2 x2 /\
        sum_within r (sqd y x y1 x1) (sqd y x y2 x2) = true)).

(** Pixels of the mask or the ignored region that have an outside pixel within [r]. *)
Definition internal_spec (m ign : image Z) (r : Z) (y x : Z) : Prop :=
  0 <= r /\ (member m y x \/ px 0 ign y x <> 0) /\
  exists y' x', outside m ign y' x' /\ sqd y x y' x' <= r * r.

(** One-hot stacks as produced by [mask2onehot]: every pixel has at most one class. *)
Definition channel (s : stack) (k : Z) : image Z := nth (Z.to_nat k) (chans s) (zeros (s_h s) (s_w s)).
(** The ignored classes [ids] of the stack, as a pixel count. *)
Definition ignored_count (s : stack) (ids : list Z) (y x : Z) : Z :=
  zsum (map (fun i => px 0 (channel s i) y x) ids).
