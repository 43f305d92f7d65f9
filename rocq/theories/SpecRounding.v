(** Statements about the metrics computed with binary64 numbers. *)
From Verif Require Export ModelFloat SpecMetrics.
From Coq Require Export Qreals.
Open Scope R_scope.
Open Scope list_scope.

(** Half a unit in the last place of 1. *)
Definition eps : R := / 2 ^ 53.
(** [x] is [q] up to [n] eps. *)
Definition near (n : R) (x : R) (q : Q) : Prop := Rabs (x - Q2R q) <= n * eps.
(** The harmonic mean of precision and recall (0 if both are 0). *)
Definition harmonic (p r : R) : R := if Req_EM_T (p + r) 0 then 0 else 2 * p * r / (p + r).
Definition in_unit (x : R) : Prop := 0 <= x <= 1.
(** The counts of a sample, its recall, precision and F1 (exact) at threshold number [i]. *)
Definition f1_at (c : counts) (i : nat) : Q := f1 (prec_at c i) (rec_at c i).
(** The sum over the samples of one of their four arrays, each at its own threshold. *)
Fixpoint chosen (f : counts -> list Z) (samples : list (string * counts)) (choice : list nat) : Z :=
  match samples, choice with s :: ss, i :: is => nth i (f (snd s)) 0 + chosen f ss is | _, _ => 0 end%Z.
(** No total reaches 2^53 (9007199254740992) pixels, whatever threshold is taken for each image. *)
Definition countable (samples : list (string * counts)) : Prop :=
  forall choice, List.length choice = List.length samples -> (chosen sum_r samples choice <= 2 ^ 53)%Z /\ (chosen sum_p samples choice <= 2 ^ 53)%Z.
(** A reported row of a sample: the threshold, recall and precision of one threshold, and an F1 that is the
    best one of the sample. *)
Definition row_near (th : list R) (s : string * counts) (exact : sample_row) (r : frow) (i : nat) : Prop :=
  f_name r = fst s /\ (i < List.length th)%nat /\ f_thr r = nth i th 0 /\
  near 1 (f_rec r) (rec_at (snd s) i) /\ near 1 (f_prec r) (prec_at (snd s) i) /\ near 8 (f_f1 r) (f1_at (snd s) i) /\ near 8 (f_f1 r) (r_f1 exact) /\
  in_unit (f_rec r) /\ in_unit (f_prec r) /\ in_unit (f_f1 r).
Fixpoint rows_near (th : list R) (samples : list (string * counts)) (exact : list sample_row) (rows : list frow) (choice : list nat) : Prop :=
  match samples, exact, rows, choice with
  | [], [], [], [] => True
  | s :: ss, e :: es, r :: rs, i :: is => row_near th s e r i /\ rows_near th ss es rs is
  | _, _, _, _ => False
  end.
(** A row of the threshold table. *)
Definition threshold_near (exact : score) (r : fscore) : Prop :=
  near 1 (fs_r r) (sc_r exact) /\ near 1 (fs_p r) (sc_p exact) /\ near 8 (fs_f r) (sc_f exact) /\
  in_unit (fs_r r) /\ in_unit (fs_p r) /\ in_unit (fs_f r).
(** No recall is within 3 eps of one of the levels 0.01, ..., 0.99. *)
Definition off_grid (samples : list (string * counts)) (n : nat) : Prop :=
  forall i k, (i < n)%nat -> (1 <= k <= 99)%Z ->
    3 * eps < Rabs (Q2R (recall (total count_r i samples) (total sum_r i samples)) - IZR k / 100).
(** [b] is the point [k] hundredths of the way from threshold number [i - 1] to threshold number [i]
    (threshold number 0 itself for [i = 0]), up to 12 eps: its recall, its precision and, for thresholds in
    [0,1], its threshold. *)
Definition along (a b : R) (k : Z) : R := a + (b - a) * IZR k / 100.
Definition on_segment (thf : list R) (trs : list score) (b : fscore) (i : nat) (k : Z) : Prop :=
  let s0 := nth (i - 1) trs (0, 0, 0, 0)%Q in let s1 := nth i trs (0, 0, 0, 0)%Q in
  Rabs (fs_r b - along (Q2R (sc_r s0)) (Q2R (sc_r s1)) k) <= 12 * eps /\
  Rabs (fs_p b - along (Q2R (sc_p s0)) (Q2R (sc_p s1)) k) <= 12 * eps /\
  (Forall in_unit thf -> Rabs (fs_t b - along (nth (i - 1) thf 0) (nth i thf 0) k) <= 12 * eps).
