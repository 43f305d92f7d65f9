(** Python's [str(int)], [str.zfill] and [int(str)] on non-negative decimal numerals.
    A numeral is its list of digits, most significant first (the characters '0'..'9' as
    0..9). *)
From Verif Require Export ModelBase.

Fixpoint digits_fuel (fuel : nat) (n : Z) : list Z :=
  match fuel with
  | O => [n]
  | S f => if n <? 10 then [n] else digits_fuel f (n / 10) ++ [n mod 10]
  end.
(** [str(n)], n >= 0. *)
Definition digits (n : Z) : list Z := digits_fuel (Z.to_nat (Z.log2 n)) n.
(** [s.zfill(w)]. *)
Definition zfill (w : nat) (s : list Z) : list Z := repeat 0 (w - length s) ++ s.
(** [int(s)] (for the empty string Python raises ValueError: see [int_of]). *)
Definition undigits (s : list Z) : Z := fold_left (fun a d => 10 * a + d) s 0.
Definition int_of (s : list Z) : res Z := match s with [] => Err ValueError | _ => Ok (undigits s) end.
