(** Floating point literals, as documented for Python's [float]. *)
From Verif Require Export SpecCLI.
Open Scope Z_scope.
Open Scope list_scope.

(** Groups of digits, separated by single underscores; their text and their digits. *)
Definition groups (gs : list (list Z)) : Prop := Forall (fun g => is_digits g /\ g <> []) gs.
Definition groups_text (gs : list (list Z)) : text := join_with "_" (map (map digit_char) gs).
(** The letter [c] is the lower case letter [l] or its upper case form. *)
Definition either_case (c l : ascii) : Prop := c = l \/ code c + 32 = code l.
(** An exponent: none, or e/E, an optional sign and digits. *)
Definition exponent_text (t : text) (n : Z) : Prop :=
  t = [] /\ n = 0 \/
  exists c sg gs, either_case c "e" /\ groups gs /\ gs <> [] /\ t = c :: sign_text sg ++ groups_text gs /\
    n = (if sign_neg sg then - undigits (List.concat gs) else undigits (List.concat gs)).
(** The number 10 ^ n. *)
Definition ten_to (n : Z) : Q := if n <? 0 then (1 / inject_Z (10 ^ (- n)))%Q else inject_Z (10 ^ n).
(** Digits with at most one point and at least one digit, then an exponent. *)
Definition number_text (t : text) (q : Q) : Prop :=
  exists ip fp point e n, groups ip /\ groups fp /\ ip ++ fp <> [] /\ exponent_text e n /\
    (point = [] /\ fp = [] \/ point = ["."%char]) /\
    t = groups_text ip ++ point ++ groups_text fp ++ e /\
    (q == (inject_Z (undigits (List.concat ip)) + inject_Z (undigits (List.concat fp)) / ten_to (Z.of_nat (List.length (List.concat fp)))) * ten_to n)%Q.
(** A literal, possibly signed and padded with white space. *)
Definition float_text (t : text) (v : pyfloat) : Prop :=
  exists s1 sg body s2, spaces s1 /\ spaces s2 /\ t = s1 ++ sign_text sg ++ body ++ s2 /\
  match v with
  | NaN => Forall2 either_case body (lit "nan")
  | Inf neg => (Forall2 either_case body (lit "inf") \/ Forall2 either_case body (lit "infinity")) /\ neg = sign_neg sg
  | Fin q => exists a, number_text body a /\ (q == if sign_neg sg then - a else a)%Q
  end.
(** The same value. *)
Definition same_float (a b : pyfloat) : Prop :=
  match a, b with Fin p, Fin q => (p == q)%Q | Inf m, Inf n => m = n | NaN, NaN => True | _, _ => False end.
