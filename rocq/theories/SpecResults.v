(** What it means to read a result file back. *)
From Verif Require Export ModelResults.
From Coq Require Export Qabs.
Open Scope Z_scope.
Open Scope list_scope.

(** A table file: one row per line, cells separated by white space. *)
Definition table (t : text) : list (list text) := map words (drop_last_empty (split_by (Ascii.eqb LF) t)).
(** The cell [c] is a decimal numeral within half a unit in the sixth decimal of [v]. *)
Definition shows (v : Q) (c : text) : Prop := exists r, py_float c = Ok (Fin r) /\ (Qabs (r - v) <= 1 # 2000000)%Q.
(** A text without white space. *)
Definition one_word (t : text) : Prop := t <> [] /\ Forall (fun c => is_space c = false) t.
