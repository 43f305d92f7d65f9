(** Paths, for the statements about file names. *)
From Verif Require Export ModelText.
Open Scope list_scope.

(** The path of [rel] inside directory [dir] (no doubled slash; the empty directory name is the
    current directory). *)
Inductive inside : text -> text -> text -> Prop :=
| in_here rel : inside [] rel rel
| in_slash d rel : inside (d ++ ["/"%char]) rel (d ++ "/"%char :: rel)
| in_dir d c rel : c <> "/"%char -> inside (d ++ [c]) rel (d ++ c :: "/"%char :: rel).
(** [pat] occurs in [t]. *)
Definition occurs (pat t : text) : Prop := exists a b, t = a ++ pat ++ b.
(** A relative path: not starting with a slash. *)
Definition relative (t : text) : Prop := match t with c :: _ => c <> "/"%char | [] => True end.
(** A single path component. *)
Definition component (t : text) : Prop := t <> [] /\ ~ In "/"%char t.
(** The name of a directory as one writes it: non-empty and not ending with a slash. *)
Definition directory (t : text) : Prop := t <> [] /\ forall d, t <> d ++ ["/"%char].
