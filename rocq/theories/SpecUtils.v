(** What the utilities must do. *)
From Verif Require Export ModelUtils SpecCLI.
Open Scope Z_scope.
Open Scope list_scope.

(** ** Timer *)
(** The clock never goes back. *)
Definition monotone (clk : clock) : Prop := forall i j, (i <= j)%nat -> (clk i <= clk j)%Q.
(** After history [h] a (not yet started) timer is running: it was started and not left since. *)
Definition is_running (h : list top) : Prop := exists h1 h2, h = h1 ++ TStart :: h2 /\ ~ In TExit h2.
(** The number of clock readings made during a history. *)
Definition readings (clk : clock) (h : list top) : nat := snd (timer_run clk h unstarted 0).
(** The result of operation [o] after history [h]. *)
Definition outcome_of (clk : clock) (h : list top) (o : top) : tres :=
  let '(_, t, n) := timer_run clk h unstarted 0 in fst (fst (timer_op clk o t n)).
(** The sum of the check intervals reported during a history. *)
Fixpoint reported (ops : list top) (rs : list tres) : Q :=
  match ops, rs with
  | TSinceLast :: ops, Ok (Some v) :: rs => v + reported ops rs
  | _ :: ops, _ :: rs => reported ops rs
  | _, _ => 0
  end.
Definition results_of (clk : clock) (h : list top) : list tres := fst (fst (timer_run clk h unstarted 0)).

(** ** Logger *)
Definition file_handlers (f : option text) : list handler := match f with Some f => [FileHandler f] | None => [] end.
Definition called_names (calls : list (text * option text * Z)) : list text := map (fun c => fst (fst c)) calls.
Definition is_stream (h : handler) : bool := match h with Stream => true | _ => false end.

(** ** Directories *)
(** [at_path d names x]: following [names] from directory [d] leads to [x]. *)
Inductive at_path : node -> list text -> node -> Prop :=
  | at_here : forall d, at_path d [] d
  | at_entry : forall es name d ns x, In (name, d) es -> at_path d ns x -> at_path (Dir es) (name :: ns) x.
(** File names are not empty, contain no slash, and are unique in their directory. *)
Inductive wf_node : node -> Prop :=
  | wf_file : wf_node File
  | wf_other : wf_node Other
  | wf_dir : forall es, NoDup (map fst es) -> Forall (fun e => fst e <> [] /\ ~ In "/"%char (fst e) /\ wf_node (snd e)) es -> wf_node (Dir es).
(** The suffix condition. *)
Definition suffix_matches (suffix : option (list text)) (case_sensitive : bool) (p : text) : Prop :=
  match suffix with
  | None => True
  | Some l => exists s u, In s l /\ if case_sensitive then p = u ++ s else lower_text p = u ++ lower_text s
  end.
(** A file of interest: the path of a regular file whose own name is not hidden. *)
Definition of_interest (d : node) (suffix : option (list text)) (recursive case_sensitive : bool) (p : text) : Prop :=
  exists dirs name, at_path d (dirs ++ [name]) File /\ ~ (exists r, name = "."%char :: r) /\ (recursive = true \/ dirs = []) /\
    p = join_with "/" (dirs ++ [name]) /\ suffix_matches suffix case_sensitive p.

(** ** Split files *)
(** No character at which a text file is split into lines. *)
Definition one_line (n : text) : Prop := Forall (fun c => is_linebreak c = false) n.
