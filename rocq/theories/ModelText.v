(** Python strings and the few string functions the project uses.
    A character is a code point below 256 (simplification: larger code points, in particular the
    non-Latin digits and spaces that [int], [float] and [str.strip] also accept, are not modelled). *)
From Coq Require Export Ascii String QArith Qround.
From Verif Require Export ModelBase ModelDec.
Open Scope Z_scope.
Open Scope list_scope.

Definition text : Type := list ascii.
(** A string literal. *)
Definition lit (s : string) : text := list_ascii_of_string s.
Definition code (c : ascii) : Z := Z.of_N (N_of_ascii c).
Definition chr (n : Z) : ascii := ascii_of_N (Z.to_N n).

(** [str.isspace] for one character: tab..carriage return, the separators 28-31, space, NEL, NBSP. *)
Definition is_space (c : ascii) : bool :=
  let n := code c in
  (9 <=? n) && (n <=? 13) || (28 <=? n) && (n <=? 32) || (n =? 133) || (n =? 160).
(** The characters at which [str.splitlines] splits (after universal newline translation there is
    no carriage return left). *)
Definition is_linebreak (c : ascii) : bool :=
  let n := code c in (10 <=? n) && (n <=? 13) || (28 <=? n) && (n <=? 30) || (n =? 133).

(** [s.lstrip()], [s.rstrip()], [s.strip()]. *)
Fixpoint lstrip (t : text) : text :=
  match t with c :: r => if is_space c then lstrip r else t | [] => [] end.
Definition rstrip (t : text) : text := rev (lstrip (rev t)).
Definition strip (t : text) : text := rstrip (lstrip t).

(** Splitting at every character satisfying [p]; [s.split(",")] is [split_by (Ascii.eqb ",")]. *)
Fixpoint split_by (p : ascii -> bool) (t : text) : list text :=
  match t with
  | [] => [[]]
  | c :: r => if p c then [] :: split_by p r
              else match split_by p r with [] => [[c]] | w :: ws => (c :: w) :: ws end
  end.
Definition nonempty {A} (l : list A) : bool := match l with [] => false | _ => true end.
(** [s.split()]. *)
Definition words (t : text) : list text := filter nonempty (split_by is_space t).
(** [s.splitlines()]: no empty last line. *)
Fixpoint drop_last_empty (l : list text) : list text :=
  match l with
  | [] => []
  | [w] => if nonempty w then [w] else []
  | w :: l => w :: drop_last_empty l
  end.
Definition splitlines (t : text) : list text := drop_last_empty (split_by is_linebreak t).
(** Reading a file in text mode translates "\r\n" and "\r" to "\n". *)
Definition CR : ascii := chr 13.
Definition LF : ascii := chr 10.
Fixpoint universal_newlines (t : text) : text :=
  match t with
  | [] => []
  | c :: r => if Ascii.eqb c CR
              then match r with
                   | d :: r' => if Ascii.eqb d LF then LF :: universal_newlines r' else LF :: universal_newlines r
                   | [] => [LF]
                   end
              else c :: universal_newlines r
  end.

(** [s.startswith(p)], [s.endswith(p)]. *)
Fixpoint startswith (t p : text) : bool :=
  match p, t with
  | [], _ => true
  | a :: p, c :: t => Ascii.eqb a c && startswith t p
  | _ :: _, [] => false
  end.
Definition endswith (t p : text) : bool := startswith (rev t) (rev p).
Definition text_eqb (a b : text) : bool := if list_eq_dec ascii_dec a b then true else false.

(** ** Numerals *)
Definition is_digit (c : ascii) : bool := let n := code c in (48 <=? n) && (n <=? 57).
Definition digit_char (d : Z) : ascii := chr (48 + d).
(** [str(n)]. *)
Definition str_nat (n : Z) : text := map digit_char (digits n).
(** [str(n).zfill(w)] for n >= 0. *)
Definition str_zfill (w : nat) (n : Z) : text := map digit_char (zfill w (digits n)).

(** A maximal digit part: digits, with single underscores allowed between digits. [after_digit] tells
    whether the preceding character was a digit. *)
Fixpoint digitpart (after_digit : bool) (t : text) : list Z * text :=
  match t with
  | [] => ([], [])
  | c :: r =>
    if is_digit c then let '(ds, rest) := digitpart true r in (code c - 48 :: ds, rest)
    else if after_digit && Ascii.eqb c "_" then
      match r with
      | c' :: _ => if is_digit c' then digitpart false r else ([], t)
      | [] => ([], t)
      end
    else ([], t)
  end.
(** An optional sign. *)
Definition take_sign (t : text) : bool * text :=
  match t with
  | c :: r => if Ascii.eqb c "-" then (true, r) else if Ascii.eqb c "+" then (false, r) else (false, t)
  | [] => (false, [])
  end.
Definition signed (neg : bool) (n : Z) : Z := if neg then - n else n.
(** [int(s)] for a decimal string (Python's limit of 4300 digits is not modelled). *)
Definition py_int (s : text) : res Z :=
  let '(neg, t) := take_sign (strip s) in
  match digitpart false t with
  | (d :: ds, []) => Ok (signed neg (undigits (d :: ds)))
  | _ => Err ValueError
  end.

(** [float(s)]; the value is exact (rounding to a double and overflow are not modelled). *)
Inductive pyfloat := Fin (q : Q) | Inf (neg : bool) | NaN.
Definition lower (c : ascii) : ascii := let n := code c in if (65 <=? n) && (n <=? 90) then chr (n + 32) else c.
(** The value [n * 10 ^ e]. *)
Definition pow10 (e : Z) : Q := if e <? 0 then (/ inject_Z (10 ^ (- e)))%Q else inject_Z (10 ^ e).
(** What follows the mantissa: nothing, or an exponent. *)
Definition exponent (t : text) : option Z :=
  match t with
  | [] => Some 0
  | c :: r => if Ascii.eqb (lower c) "e" then
                let '(neg, r) := take_sign r in
                match digitpart false r with
                | (d :: ds, []) => Some (signed neg (undigits (d :: ds)))
                | _ => None
                end
              else None
  end.
Definition py_float (s : text) : res pyfloat :=
  let '(neg, t) := take_sign (strip s) in
  let l := map lower t in
  if text_eqb l (lit "nan") then Ok NaN
  else if text_eqb l (lit "inf") || text_eqb l (lit "infinity") then Ok (Inf neg)
  else
    let '(ip, t) := digitpart false t in
    let '(fp, t) := match t with
                    | c :: r => if Ascii.eqb c "." then digitpart false r else ([], t)
                    | [] => ([], t)
                    end in
    if nonempty (ip ++ fp) then
      match exponent t with
      | Some e => Ok (Fin (inject_Z (signed neg (undigits (ip ++ fp))) * pow10 (e - Z.of_nat (List.length fp)))%Q)
      | None => Err ValueError
      end
    else Err ValueError.

(** ** "{:<10.6f}".format(v) *)
(** Rounding to the nearest integer, ties to even. *)
Definition round_half_even (q : Q) : Z :=
  let f := Qfloor q in
  let r := (q - inject_Z f)%Q in
  match Qcompare r (1 # 2) with
  | Lt => f
  | Gt => f + 1
  | Eq => if Z.even f then f else f + 1
  end.
Definition million : Z := 1000000.
(** "{:.6f}": the value is rounded to six decimals; a negative value keeps its sign. *)
Definition fixed6 (v : Q) : text :=
  let neg := negb (Qle_bool 0 v) in
  let n := round_half_even ((if neg then - v else v) * inject_Z million)%Q in
  (if neg then ["-"%char] else []) ++ str_nat (n / million) ++ "."%char :: str_zfill 6 (n mod million).
(** "{:<10}": padded on the right with spaces. *)
Definition pad_right (w : nat) (t : text) : text := t ++ repeat " "%char (w - List.length t).
Definition field (v : Q) : text := pad_right 10 (fixed6 v).

(** ** Paths *)
(** [os.path.join(a, b)]. *)
Definition path_join (a b : text) : text :=
  if startswith b (lit "/") then b
  else if nonempty a then if endswith a (lit "/") then a ++ b else a ++ "/"%char :: b
  else b.
