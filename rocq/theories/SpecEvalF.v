(** The vocabulary of C60: evaluation with every floating point number a double. *)
From Verif Require Export SpecEval SpecSingle SpecRounding.
Open Scope Z_scope.

(** Whatever the step bounds, the computation raises no exception, and its result, if there is one, satisfies
    [post] (and leaves the random generator with 48-bit values). *)
Definition never_fails {A} (m : nat -> nat -> run A) (s : stream) (post : A -> Prop) : Prop :=
  forall fuel pfuel, exists r, m fuel pfuel s = Ok r /\ forall a s', r = Some (a, s') -> raw_values s' /\ post a.
(** Moreover, if [small] holds, then with large enough step bounds there is a result, always the same. *)
Definition evaluates {A} (small : Prop) (m : nat -> nat -> run A) (s : stream) (post : A -> Prop) : Prop :=
  never_fails m s post /\
  (small -> exists F P a s', forall fuel pfuel, (F <= fuel)%nat -> (P <= pfuel)%nat -> m fuel pfuel s = Ok (Some (a, s'))).

(** The tolerance k/N of the image diagonal can be used for images of [h] x [w] pixels: not larger than 1, and
    the squared tolerance in pixels is not an integer (otherwise pixels exactly that far apart may or may not
    match, see C58), with a numerator that is small enough to see that in double precision. *)
Definition usable (k N : positive) (h w : nat) : Prop :=
  (0 < h)%nat /\ (0 < w)%nat /\ Z.of_nat h <= 2 ^ 14 /\ Z.of_nat w <= 2 ^ 14 /\ Zpos k <= Zpos N <= 2 ^ 64 /\
  let d2 := Z.of_nat h * Z.of_nat h + Z.of_nat w * Z.of_nat w in
  Zpos k * Zpos k * d2 <= 2 ^ 49 /\ forall m, m * (Zpos N * Zpos N) <> Zpos k * Zpos k * d2.
(** [n] thresholds (1/(n+1), ..., n/(n+1)) that no pixel of the 8-bit image hits exactly; with 99, the default,
    it does not matter (C59). *)
Definition clear_thresholds (n : Z) (im : image Z) : Prop :=
  1 <= n <= 2 ^ 40 /\ (forall y x, 0 <= px 0 im y x <= 255) /\
  (n = 99 \/ forall y x k, inb (ht im) (wd im) y x = true -> 1 <= k <= n -> px 0 im y x * (n + 1) <> 255 * k).
(** The pixels of an image that are not 0, counted. *)
Definition edge_count (im : image Z) : nat := count_true (imap (fun v => negb (v =? 0)) im).
(** [K] edge pixels in images of [h] x [w] pixels, predicted and annotated together, are few enough for the solver
    to terminate for certain (C58); [W] bounds 100 x 100 x the tolerance in pixels. *)
Definition few (k N : positive) (h w K : nat) : Prop :=
  let d2 := Z.of_nat h * Z.of_nat h + Z.of_nat w * Z.of_nat w in
  exists W, 1 <= W /\ 10 ^ 8 * (Zpos k * Zpos k * d2) <= (W - 1) ^ 2 * (Zpos N * Zpos N) /\ Z.of_nat K ^ 2 * (100 * W) <= 2 ^ 41.
(** A scale like 1, 0.5 or 0.25: a double that is the number meant. *)
Definition dyadic (scale : Q) : Prop :=
  exists m j, 0 < m <= 2 ^ 30 /\ 0 <= j <= 30 /\ (scale == inject_Z m / inject_Z (2 ^ j))%Q.

(** The reported scores [frows], [ftrs], [fov] are those of the exact computation ([rows], [trs], [ov]) on the
    same counts, up to multiples of eps = 2^-53 (C56). *)
Definition scores_agree (thf : list R) (samples : list (string * counts)) (rows : list sample_row) (trs : list score) (ov : overall)
    (frows : list frow) (ftrs : list fscore) (fov : foverall) : Prop :=
  exists choice, rows_near thf samples rows frows choice /\ Forall2 threshold_near trs ftrs /\ map fs_t ftrs = thf /\
    near 52%R (fs_f (fODS fov)) (ODS_f1 ov) /\
    (let r := recall (chosen count_r samples choice) (chosen sum_r samples choice) in
     let p := precision (chosen count_p samples choice) (chosen sum_p samples choice) in
     near 1%R (fOIS_recall fov) r /\ near 1%R (fOIS_precision fov) p /\ near 8%R (fOIS_f1 fov) (f1 p r)) /\
    in_unit (fs_f (fODS fov)) /\ in_unit (fOIS_f1 fov) /\ in_unit (fAP fov) /\
    (off_grid samples (List.length thf) -> near 300%R (fAP fov) (AP ov)).
