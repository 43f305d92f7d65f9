(** Independent readings for C66 and C67. *)
From Verif Require Export ModelTools SpecLabels.
Open Scope Z_scope.

(** Bytes. *)
Definition byte (b : Z) : Prop := 0 <= b < 256.
(** Bit [k] of the little-endian 32-bit word with index [i] of a file. *)
Definition file_bit (bytes : list Z) (i k : nat) : Z :=
  b2z (Z.testbit (nth (4 * i + k / 8) bytes 0) (Z.of_nat (k mod 8))).
(** Channel [ch] (0 red, 1 green, 2 blue) of a colour. *)
Definition part (ch : nat) (c : Z * Z * Z) : Z :=
  let '(r, g, b) := c in match ch with O => r | S O => g | _ => b end.
