(** Files and the directories above them. *)
From Verif Require Export SpecPaths SpecJobs ModelDirs.
Open Scope Z_scope.
Open Scope list_scope.

(** [p] is a directory on the way to [f]. *)
Definition above (p f : text) : Prop := directory p /\ exists rest, f = p ++ "/"%char :: rest.
(** Nothing but directories on the way to [f], and no directory in its place. *)
Definition free (t : tree) (f : text) : Prop :=
  t f <> Some Dir /\ forall p, above p f -> t p = None \/ t p = Some Dir.
(** The path is written without "." between its slashes. *)
Definition no_dots (f : text) : Prop := ~ occurs (lit "/./") f.
(** All files a program may write, whatever it reads. *)
Fixpoint puts (W : text -> Prop) (q : prog) : Prop :=
  match q with
  | Ret _ => True
  | Get p k => forall c, puts W (k c)
  | Put p c k => W p /\ puts W k
  end.
(** A program that has something to do. *)
Definition busy (q : prog) : Prop := match q with Ret _ => False | _ => True end.
(** Whatever there is lies in a directory. *)
Definition closed (t : tree) : Prop := forall p, directory p -> t p <> None -> dir_in t (dirname p) = true.
