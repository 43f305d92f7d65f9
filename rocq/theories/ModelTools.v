(** Tools beside the evaluation: binary edge files (common/multi_label/edge_decoding.py:11-44) and the Pascal
    VOC colour map (scripts/other/pascal_voc_colormap.py).

    Simplifications: a file is its list of bytes; the machine is little endian ([sys.byteorder]). *)
From Coq Require Export QArith.
From Verif Require Export ModelLabels.
Open Scope Z_scope.
Open Scope list_scope.

(** [ndarray.tofile] of an array of type uint32: row by row, four bytes each, least significant first. *)
Definition word_bytes (v : Z) : list Z := map (fun i => v / 2 ^ (8 * i) mod 256) [0; 1; 2; 3].
Definition tofile (im : image Z) : list Z := flat_map word_bytes (List.concat (rows im)).
(** edge_decoding.py:27 [np.fromfile(path, dtype=np.uint32)]: complete words only. *)
Fixpoint fromfile (fuel : nat) (bytes : list Z) : list (list Z) :=
  match fuel, bytes with
  | S fuel, a :: b :: c :: d :: bytes => [a; b; c; d] :: fromfile fuel bytes
  | _, _ => []
  end.
(** edge_decoding.py:33-44: [reshape], [view(np.uint8)], [unpackbits(count=n, bitorder="little")] (zero padded; a negative
    count drops bits from the end), [transpose]. *)
Definition binary_multilabel_decoding (bytes : list Z) (h w : nat) (num_classes : Z) : res stack :=
  let words := fromfile (List.length bytes) bytes in
  if negb (Nat.eqb (List.length words) (h * w)) then Err ValueError
  else
    let n := if 0 <=? num_classes then num_classes else 32 + num_classes in
    if n <? 0 then Err ValueError
    else Ok (mkStack h w (map (fun k => tab h w (fun y x =>
      if k <? 32 then b2z (Z.testbit (nth (Z.to_nat (k / 8)) (nth (Z.to_nat (y * Z.of_nat w + x)) words []) 0) (k mod 8)) else 0)) (zseq (Z.to_nat n)))).

(** pascal_voc_colormap.py:15-16 [bitget]. *)
Definition bitget (v i : Z) : Z := b2z (negb (Z.land v (Z.shiftl 1 i) =? 0)).
(** pascal_voc_colormap.py:22-26: the loop over [j]. *)
Fixpoint colour_loop (j : nat) (n : nat) (c r g b : Z) : Z * Z * Z :=
  match n with
  | O => (r, g, b)
  | S n => let sh := 7 - Z.of_nat j in
           colour_loop (S j) n (Z.shiftr c 3) (Z.lor r (Z.shiftl (bitget c 0) sh)) (Z.lor g (Z.shiftl (bitget c 1) sh)) (Z.lor b (Z.shiftl (bitget c 2) sh))
  end.
(** pascal_voc_colormap.py:14-32 [color_map(N)] (the rows; an array of type uint8). *)
Definition color_map (N : nat) : list (Z * Z * Z) :=
  map (fun i => let '(r, g, b) := colour_loop 0 8 (Z.of_nat i) 0 0 0 in (wrap 8 r, wrap 8 g, wrap 8 b)) (seq 0 N).
(** With [normalized=True] (exact numbers instead of float32). *)
Definition color_map_normalized (N : nat) : list (Q * Q * Q) :=
  map (fun c => let '(r, g, b) := c in (inject_Z r / 255, inject_Z g / 255, inject_Z b / 255)%Q) (color_map N).
