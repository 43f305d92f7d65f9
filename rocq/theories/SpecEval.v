(** What the counts of one evaluated image mean. *)
From Verif Require Export SpecCorrespond SpecEdges ModelEval.
Open Scope Z_scope.
Open Scope list_scope.

(** The pixels whose strength reaches the threshold. *)
Definition strong_pixels (pred : image Q) (t : Q) (q : image bool) : Prop :=
  wf q /\ same_shape q pred /\
  forall y x, px false q y x = true <-> inb (ht pred) (wd pred) y x = true /\ (t <= px 0%Q pred y x)%Q.
(** The predicted edge map at a threshold, thinned if asked. *)
Definition predicted (thin : bool) (pred : image Q) (t : Q) (p : image bool) : Prop :=
  if thin then exists q r, strong_pixels pred t q /\ binary_thin None (Bin q) = Some r /\ p = as_bool r
  else strong_pixels pred t p.
(** The edge map of a ground truth array. *)
Definition edge_pixels (gt : image Z) (g : image bool) : Prop :=
  wf g /\ same_shape g gt /\ forall y x, px false g y x = true <-> px 0 gt y x <> 0.

(** The four counts [cr, sr, cp, sp] come from one correspondence between the predicted map [p]
    and the ground truth [g]. *)
Definition counted (p g : image bool) (tol2 : Q) (cr sr cp sp : Z) : Prop :=
  exists m1 m2, is_correspondence p g tol2 m1 m2 /\
    cr = Z.of_nat (matched m2) /\ sr = Z.of_nat (count_true g) /\
    cp = Z.of_nat (matched m1) /\ sp = Z.of_nat (count_true p).

(** The pixel (y, x) is a match for at least one annotator. *)
Definition some_match (ms : list (image Z)) (u : image bool) : Prop :=
  forall y x, px false u y x = true <-> exists m, In m ms /\ px 0 m y x <> 0.
(** The four counts against several annotators: one correspondence [(m1, m2)] each; recall adds
    up, a predicted pixel counts once. *)
Definition counted_all (p : image bool) (gs : list (image bool)) (tol2 : Q) (cr sr cp sp : Z) : Prop :=
  exists ms : list (image Z * image Z), Forall2 (fun g m => is_correspondence p g tol2 (fst m) (snd m)) gs ms /\
    cr = zsum (map (fun m => Z.of_nat (matched (snd m))) ms) /\
    sr = zsum (map (fun g => Z.of_nat (count_true g)) gs) /\
    (exists u, wf u /\ same_shape u p /\ some_match (map fst ms) u /\ cp = Z.of_nat (count_true u)) /\
    sp = Z.of_nat (count_true p).

(** [p'] is [p] without the pixels inside the mask [seg] that are farther than the tolerance from
    every ground truth pixel. *)
Definition killed (p g seg : image bool) (tol2 : Q) (p' : image bool) : Prop :=
  wf p' /\ same_shape p' p /\
  forall y x, px false p' y x = true <->
    px false p y x = true /\
    ~ (px false seg y x = true /\ forall y' x', px false g y' x' = true -> (tol2 < inject_Z (sqdist y x y' x'))%Q).

(** Every threshold has its entry in each of the four arrays, and it satisfies [post]. *)
Definition per_threshold (ths : list Q) (c : counts) (post : Q -> Z -> Z -> Z -> Z -> Prop) : Prop :=
  List.length (count_r c) = List.length ths /\ List.length (sum_r c) = List.length ths /\
  List.length (count_p c) = List.length ths /\ List.length (sum_p c) = List.length ths /\
  forall i t, nth_error ths i = Some t ->
    post t (nth i (count_r c) 0) (nth i (sum_r c) 0) (nth i (count_p c) 0) (nth i (sum_p c) 0).

(** A raw value of the generator has 48 bits. *)
Definition raw_values (s : stream) : Prop := forall n, 0 <= s n < 2 ^ 48.
(** Whatever the step bounds, the computation raises no exception and its result, if there is one,
    satisfies [post]; and with large enough step bounds there is a result, always the same. *)
Definition delivers {A} (m : nat -> nat -> run A) (s : stream) (post : A -> Prop) : Prop :=
  (forall fuel pfuel, exists r, m fuel pfuel s = Ok r /\
     forall a s', r = Some (a, s') -> raw_values s' /\ post a) /\
  (exists F P a s', forall fuel pfuel, (F <= fuel)%nat -> (P <= pfuel)%nat -> m fuel pfuel s = Ok (Some (a, s'))).
