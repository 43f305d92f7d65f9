(** What a correspondence between two edge maps is. *)
From Verif Require Export ModelImage.
From Coq Require Export QArith.
Open Scope Z_scope.

(** A pixel is reported by its column-major number plus one (0 means "no partner"). *)
Definition pixel_code (h : nat) (y x : Z) : Z := x * Z.of_nat h + y + 1.
Definition sqdist (y x y' x' : Z) : Z := (x - x') * (x - x') + (y - y') * (y - y').

(** One direction: a non-zero entry sits on an edge pixel, names an edge pixel of the other map
    whose distance is at most the tolerance (given by its square), and that pixel points back. *)
Definition points_back (b1 b2 : image bool) (tol2 : Q) (m1 m2 : image Z) : Prop :=
  forall y x, px 0 m1 y x <> 0 ->
    px false b1 y x = true /\
    exists y' x', px 0 m1 y x = pixel_code (ht b1) y' x' /\ px false b2 y' x' = true /\
      (inject_Z (sqdist y x y' x') <= tol2)%Q /\ px 0 m2 y' x' = pixel_code (ht b1) y x.

Definition is_correspondence (b1 b2 : image bool) (tol2 : Q) (m1 m2 : image Z) : Prop :=
  (wf m1 /\ same_shape m1 b1) /\ (wf m2 /\ same_shape m2 b2) /\
  points_back b1 b2 tol2 m1 m2 /\ points_back b2 b1 tol2 m2 m1.

(** The number of non-zero entries. *)
Definition matched (m : image Z) : nat := count_true (imap (fun v => negb (v =? 0)) m).
(** The number of edge pixels without partner. *)
Definition unmatched (b : image bool) (m : image Z) : nat :=
  length (filter (fun p => px false b (fst p) (snd p) && (px 0 m (fst p) (snd p) =? 0)) (coords (ht b) (wd b))).

(** The squared distance from an entry to the partner its code names. *)
Definition partner_sqdist (m : image Z) (p : Z * Z) : Z :=
  let c := px 0 m (fst p) (snd p) - 1 in
  sqdist (fst p) (snd p) (c mod Z.of_nat (ht m)) (c / Z.of_nat (ht m)).
(** The squared distances of all matched pixels. *)
Definition matched_sqdists (m : image Z) : list Z :=
  map (partner_sqdist m) (filter (fun p => negb (px 0 m (fst p) (snd p) =? 0)) (coords (ht m) (wd m))).

(** The tolerance is [max_dist] times the image diagonal; its square. *)
Definition tolerance2 (max_dist : Q) (b : image bool) : Q :=
  (max_dist * max_dist * inject_Z (Z.of_nat (ht b) * Z.of_nat (ht b) + Z.of_nat (wd b) * Z.of_nat (wd b)))%Q.
(** Two edge pixels close enough to be matched. *)
Definition matchable_pair (b1 b2 : image bool) (tol2 : Q) (y x y' x' : Z) : Prop :=
  px false b1 y x = true /\ px false b2 y' x' = true /\ (inject_Z (sqdist y x y' x') <= tol2)%Q.
