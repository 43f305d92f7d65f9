(** The ranges of machine integers and sizes of images for which they suffice. *)
From Verif Require Export ModelInts.
Open Scope Z_scope.
Open Scope list_scope.

Definition int32 (z : Z) : Prop := - 2 ^ 31 <= z < 2 ^ 31.
Definition uint32 (z : Z) : Prop := 0 <= z < 2 ^ 32.
(** No more than [k] pixels lie within the distance (whose square is) [md2] of a pixel. *)
Definition at_most (k : Z) (md2 : Q) : Prop :=
  forall l : list (Z * Z), NoDup l -> (forall u v, In (u, v) l -> inject_Z (u * u + v * v) <= md2)%Q -> Z.of_nat (length l) <= k.
(** No more than [n] pixels of an image are edge pixels. *)
Definition edge_pixels_at_most (n : Z) (b : image bool) : Prop :=
  forall l : list (Z * Z), NoDup l -> (forall y x, In (y, x) l -> px false b y x = true) -> Z.of_nat (length l) <= n.
(** Sizes: at most [n] edge pixels in either image, [k] pixels around a pixel, the diagonal, the squares of the tolerance and of
    the outlier cost (in pixels). *)
Definition moderate (h w : nat) (b1 b2 : image bool) (n k : Z) (md2 oc2 : Q) : Prop :=
  edge_pixels_at_most n b1 /\ edge_pixels_at_most n b2 /\ at_most k md2 /\ 3 * (n * (k + 20) + 1) < 2 ^ 32 /\
  Z.of_nat h * Z.of_nat h + Z.of_nat w * Z.of_nat w < 2 ^ 30 /\
  (md2 <= inject_Z (30000 * 30000))%Q /\ (oc2 <= inject_Z (214748 * 214748))%Q.
