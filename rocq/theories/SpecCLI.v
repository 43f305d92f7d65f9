(** What the command line arguments mean. *)
From Verif Require Export SpecEvaluator ProofsText.
Open Scope Z_scope.
Open Scope list_scope.

(** Texts joined by a separator. *)
Fixpoint join_with (sep : ascii) (l : list text) : text :=
  match l with [] => [] | [w] => w | w :: l => w ++ sep :: join_with sep l end.
(** A sign: none, plus (false) or minus (true). *)
Definition sign_text (s : option bool) : text := match s with None => [] | Some false => ["+"%char] | Some true => ["-"%char] end.
Definition sign_neg (s : option bool) : bool := match s with Some true => true | _ => false end.
(** An integer as Python reads it: white space, an optional sign, groups of digits separated by single
    underscores, white space. *)
Definition int_numeral (t : text) (v : Z) : Prop :=
  exists s1 sg gs s2, spaces s1 /\ spaces s2 /\ gs <> [] /\ Forall (fun g => is_digits g /\ g <> []) gs /\
    t = s1 ++ sign_text sg ++ join_with "_" (map (map digit_char) gs) ++ s2 /\
    v = (if sign_neg sg then - undigits (List.concat gs) else undigits (List.concat gs)).
(** A bracketed list of comma separated items, with white space around the brackets. *)
Definition list_text (t : text) (items : list text) : Prop :=
  items <> [] /\ Forall (fun i => ~ In ","%char i) items /\
  exists s1 s2, spaces s1 /\ spaces s2 /\ t = s1 ++ "["%char :: join_with "," items ++ "]"%char :: s2.
(** A decimal fraction: digits, point, digits (at least one digit), possibly signed and padded. *)
Definition decimal_numeral (t : text) (q : Q) : Prop :=
  exists s1 sg ip fp s2, spaces s1 /\ spaces s2 /\ is_digits ip /\ is_digits fp /\ ip ++ fp <> [] /\
    t = s1 ++ sign_text sg ++ map digit_char ip ++ "."%char :: map digit_char fp ++ s2 /\
    let v := (inject_Z (undigits ip) + inject_Z (undigits fp) / inject_Z (10 ^ Z.of_nat (List.length fp)))%Q in
    (q == if sign_neg sg then - v else v)%Q.

(** The categories denoted by the option. *)
Definition categories_text (t : text) (l : list Z) : Prop :=
  (exists v, int_numeral t v /\ l = [v]) \/ exists items, list_text t items /\ Forall2 int_numeral items l.
(** The option the script was given as categories, after the default. *)
Definition cats_given (n : nat) (arg : option text) (l : list Z) : Prop :=
  match arg with None => l = map (fun i => i + 1) (zseq n) | Some t => categories_text t l end.
