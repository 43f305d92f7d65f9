(** The assignment problem that a correspondence solves, described without reference to the code.

    [A] and [B] are the edge pixels, as (x, y), of the two maps that take part.  The graph has the
    pixels of [A] followed by one spare node per pixel of [B] on the left, and the pixels of [B]
    followed by one spare node per pixel of [A] on the right.  Matching a pixel with a spare node
    declares it an outlier. *)
From Verif Require Export SpecCorrespond SpecMatch.
Open Scope Z_scope.
Open Scope list_scope.

(** [c] is 100 * sqrt(d2) rounded to the nearest integer (there are no ties). *)
Definition nearest_hundredths (d2 c : Z) : Prop :=
  0 <= c /\ 40000 * d2 < (2 * c + 1) * (2 * c + 1) /\ (c = 0 \/ (2 * c - 1) * (2 * c - 1) < 40000 * d2).
(** [c] is the least non-negative integer that is at least 100 * sqrt(q). *)
Definition ceiling_hundredths (q : Q) (c : Z) : Prop :=
  0 <= c /\ (10000 * q <= inject_Z (c * c))%Q /\ forall d, 0 <= d -> (10000 * q <= inject_Z (d * d))%Q -> c <= d.

(** [k] different numbers below [n], none of them [self] (if given). *)
Definition choice (k n : nat) (self : option nat) (l : list nat) : Prop :=
  length l = k /\ NoDup l /\ forall j, In j l -> (j < n)%nat /\ Some j <> self.

Record assignment_graph (A B : list (Z * Z)) (tol2 : Q) (W : Z) (g : list garc) : Prop := {
  (** pixel to pixel: exactly the pairs within tolerance, at their rounded distance *)
  ag_pixels : forall i j x y x' y' c, nth_error A i = Some (x, y) -> nth_error B j = Some (x', y') ->
    (In (mkArc i j c) g <-> (inject_Z (sqdist y x y' x') <= tol2)%Q /\ nearest_hundredths (sqdist y x y' x') c);
  (** pixel of A to spare: up to six spares of other pixels at cost W, its own at cost 100 W *)
  ag_outliers1 : forall i, (i < length A)%nat -> exists l, choice (Nat.min 6 (length A - 1)) (length A) (Some i) l /\
    forall j c, (j < length A)%nat -> (In (mkArc i (length B + j) c) g <-> (In j l /\ c = W) \/ (j = i /\ c = 100 * W));
  (** spare to pixel of B, likewise *)
  ag_outliers2 : forall j, (j < length B)%nat -> exists l, choice (Nat.min 6 (length B - 1)) (length B) (Some j) l /\
    forall i c, (i < length B)%nat -> (In (mkArc (length A + i) j c) g <-> (In i l /\ c = W) \/ (i = j /\ c = 100 * W));
  (** spare to spare: every spare of the larger side has up to six partners, at cost W *)
  ag_spare_lt : (length A < length B)%nat -> forall i, (i < length B)%nat ->
    exists l, choice (Nat.min 6 (length A)) (length A) None l /\
    forall j c, (j < length A)%nat -> (In (mkArc (length A + i) (length B + j) c) g <-> In j l /\ c = W);
  ag_spare_ge : (length B <= length A)%nat -> forall j, (j < length A)%nat ->
    exists l, choice (Nat.min 6 (length B)) (length B) None l /\
    forall i c, (i < length B)%nat -> (In (mkArc (length A + i) (length B + j) c) g <-> In i l /\ c = W);
  (** nothing else, and no arc twice *)
  ag_range : forall a, In a g -> (a_tail a < length A + length B)%nat /\ (a_head a < length A + length B)%nat;
  ag_nodup : NoDup (map (fun a => (a_tail a, a_head a)) g) }.
