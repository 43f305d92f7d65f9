(** Small specification used in the statements of PropertiesMetrics: independent of how the
    model computes. *)
From Verif Require Export ModelMetrics.
From Coq Require Export List.
Open Scope Q_scope.

(** First index of the maximum of [l]. *)
Definition first_max (l : list Q) (i : nat) : Prop :=
  (i < length l)%nat /\ (forall j, (j < length l)%nat -> nth j l 0 <= nth i l 0) /\
  (forall j, (j < i)%nat -> nth j l 0 < nth i l 0).

(** A sample's four count arrays all have [n] entries. *)
Definition shaped (n : nat) (c : counts) : Prop :=
  length (count_r c) = n /\ length (sum_r c) = n /\ length (count_p c) = n /\ length (sum_p c) = n.

(** Recall / precision of one image (or total) at threshold number [i]. *)
Definition rec_at (c : counts) i := recall (nth i (count_r c) 0%Z) (nth i (sum_r c) 0%Z).
Definition prec_at (c : counts) i := precision (nth i (count_p c) 0%Z) (nth i (sum_p c) 0%Z).

(** Sum over the samples of one of the four count arrays at threshold number [i]. *)
Definition total (f : counts -> list Z) (i : nat) (samples : list (string * counts)) : Z :=
  zsum (map (fun s => nth i (f (snd s)) 0%Z) samples).

Definition unit_list (l : list Q) : Prop := forall x, In x l -> 0 <= x <= 1.

(** All counts of a sample are sane: 0 <= count <= sum at every threshold. *)
Definition sane (c : counts) : Prop := forall i,
  (0 <= nth i (count_r c) 0 <= nth i (sum_r c) 0)%Z /\ (0 <= nth i (count_p c) 0 <= nth i (sum_p c) 0)%Z.
