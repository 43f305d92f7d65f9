(** What interleaved file operations may do. *)
From Verif Require Export SpecConvert SpecSBD ModelJobs.
Open Scope Z_scope.
Open Scope list_scope.

(** The files a job would write if it ran alone, with what it writes in between and in the end. *)
Fixpoint trace (q : prog) (s : store) : list (text * content) :=
  match q with
  | Ret _ => []
  | Get p k => trace (k (s p)) s
  | Put p c k => (p, c) :: trace k (put p c s)
  end.
(** Job [i] keeps to its files: [own] says which job a file belongs to, if any.  Alone, the job writes only
    its own files and reads only those and files belonging to nobody. *)
Fixpoint keeps_to (own : text -> option nat) (i : nat) (q : prog) (s : store) : Prop :=
  match q with
  | Ret _ => True
  | Get p k => (own p = None \/ own p = Some i) /\ keeps_to own i (k (s p)) s
  | Put p c k => own p = Some i /\ keeps_to own i k (put p c s)
  end.
Definition orderly (own : text -> option nat) (jobs : list prog) (s : store) : Prop :=
  (forall i q, nth_error jobs i = Some q -> keeps_to own i q s) /\ (forall p i, own p = Some i -> (i < List.length jobs)%nat).
(** The first exception, if any. *)
Fixpoint first_error (l : list (res unit)) : res unit :=
  match l with [] => Ok tt | Err e :: _ => Err e | Ok _ :: l => first_error l end.
(** The complete files. *)
Definition complete (s : store) : disk := fun p => match s p with Some (Whole c) => Some c | _ => None end.
(** Files saved one after the other. *)
Definition saves (l : list (text * picture)) (s : store) : store := fold_left (fun s w => put (fst w) (Whole (snd w)) (put (fst w) Partial s)) l s.
(** The files [w] and no others are written: all of them if the run has ended, otherwise each of them is as
    before, partly written or finished. *)
Definition writes_only (w : list (text * picture)) (s : store) (o : option (res unit)) (s' : store) : Prop :=
  (forall r, o = Some r -> r = Ok tt) /\
  (forall q, ~ In q (map fst w) -> s' q = s q) /\
  (forall t p, In (t, p) w -> s' t = s t \/ s' t = Some Partial \/ s' t = Some (Whole p)) /\
  (o <> None -> forall t p, In (t, p) w -> s' t = Some (Whole p)).
(** Polygon files and the images of train ids made of them. *)
Definition polygon_file (root split n : text) : text := root ++ lit "/gtFine/" ++ split ++ lit "/" ++ n ++ lit "_gtFine_polygons.json".
Definition trainid_file (root proc split n : text) : text := root ++ lit "/" ++ proc ++ lit "/" ++ split ++ lit "/" ++ n ++ lit "_gtFine_labelTrainIds.png".
