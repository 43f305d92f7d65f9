(** The machine integers of the matcher (pyEdgeEval/_lib/correspond_pixels.pyx, src/match.cc,
    include/Array.hh, include/csa.hh).  ModelMatch.v computes with unbounded integers; here are the values
    the code keeps in variables and subexpressions of type int and unsigned, as functions of the same inputs.
    Left out: loop counters below a bound that is listed; the random generator and kofn.cc (values below n1 + n2,
    C47); the solver's own fields (long and double: C46, C57). *)
From Verif Require Export ModelMatch.
Open Scope Z_scope.
Open Scope list_scope.

Section Ints.
Variable h w : nat.
Variable b1 b2 : image bool.
Variable md2 oc2 : Q.
Notation n1 := (Z.of_nat (n1 h w b1 b2 md2)).
Notation n2 := (Z.of_nat (n2 h w b1 b2 md2)).

(** Values of type int. *)
(** correspond_pixels.pyx:20-22: rows, cols and [rows * rows + cols * cols]; match.cc:61, 72-77 and 119-124: the radius,
    the largest and smallest offsets and coordinates, the largest [u*u + v*v]. *)
Definition scan_ints : list Z :=
  let r := radius md2 in
  [Z.of_nat h; Z.of_nat w; Z.of_nat h * Z.of_nat h; Z.of_nat w * Z.of_nat w; Z.of_nat h * Z.of_nat h + Z.of_nat w * Z.of_nat w;
   r; - r; Z.of_nat h - 1 + r; Z.of_nat w - 1 + r; r * r; r * r + r * r].
(** match.cc:91-112, 141-162: the numbers of nodes, the degrees and the sum [m], term by term; [2*n] at line 262. *)
Definition count_ints : list Z :=
  let e := Z.of_nat (length (real_edges h w b1 b2 md2)) in
  let a := deg1 h w b1 b2 md2 * n1 in
  let b := deg2 h w b1 b2 md2 * n2 in
  let c := deg3 h w b1 b2 md2 * Z.of_nat (nmax h w b1 b2 md2) in
  [n1; n2; n1 - 1; n2 - 1; n1 + n2; 2 * (n1 + n2); deg1 h w b1 b2 md2; deg2 h w b1 b2 md2; deg3 h w b1 b2 md2;
   e; a; b; c; e + a; e + a + b; e + a + b + c; e + a + b + c + (n1 + n2)].
(** match.cc:170, 242, 284: [ow] and [ow * multiplier]. *)
Definition weight_ints : list Z := [ow oc2; ow oc2 * multiplier].
(** match.cc:174-259: an entry of [igraph], before and after the shift of the node ids (lines 257-258). *)
Definition arc_ints (a : garc) : list Z :=
  let i := Z.of_nat (a_tail a) in
  let j := Z.of_nat (a_head a) in
  [i; j; i + 1; j + (1 + (n1 + n2)); a_cost a].
(** match.cc:289-292, 341-343: dx, dy and the sum of their squares for a matched pair of pixels. *)
Definition pair_ints (e : pixel * pixel) : list Z :=
  let dx := fst (fst e) - fst (snd e) in
  let dy := snd (fst e) - snd (snd e) in
  [dx; dy; dx * dx; dy * dy; dx * dx + dy * dy].
(** match.cc:325, 330: the code of a pixel. *)
Definition code_ints (p : pixel) : list Z := [fst p * Z.of_nat h; fst p * Z.of_nat h + snd p; code h p].

(** Values of type unsigned: Array.hh:149 [_n = d0 * d1] of the arrays at match.cc:51-52, 65-66, 94-95 (width x height),
    176 (m x 3) and 265 (n x 3); csa.hh:676 [m + 1]; 3 * i + k at csa.hh:714-716 is below m * 3. *)
Definition array_sizes : list Z :=
  let m := n_arcs h w b1 b2 md2 in
  [Z.of_nat w * Z.of_nat h; m; m * 3; m + 1; (n1 + n2) * 3; 2 * (n1 + n2)].
End Ints.

(** csa.hh:409-425: [result_cost] (an int), the sum of the costs of the solution; [cost()] returns it, match.cc never asks for it. *)
Definition result_cost (l : list (nat * Z)) : Z := fold_left (fun s e => s + snd e) l 0.
