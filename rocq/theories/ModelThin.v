(** Morphological thinning: the two implementations in
    pyEdgeEval/preprocess/thin/thin.py and pyEdgeEval/preprocess/thin/bwmorph_thin.py.

    Not modelled: numpy dtypes other than "bool" and "integer"; [np.bool] (bwmorph_thin.py:145)
    exists only in numpy < 1.24 or >= 2.0 — with other versions that line raises
    AttributeError, the model describes the versions in which it exists. *)
From Verif Require Export ModelImage.

(** ** thin.py *)

(** thin.py:19-27: bit masks of the neighbours. *)
Definition M_E := 32.  Definition M_NE := 4.  Definition M_N := 2.
Definition M_NW := 1.  Definition M_W := 8.   Definition M_SW := 64.
Definition M_S := 128. Definition M_SE := 256. Definition M_C := 16.

(** thin.py:32-42: [MASKS]. *)
Definition MASKS : list Z := [M_C; M_E; M_NE; M_N; M_NW; M_W; M_SW; M_S; M_SE].

(** thin.py:48-83 [binary_image_to_lut_indices] at one pixel.  The zero padding of line 68
    followed by the nine shifted slices is a read of the neighbour with default False. *)
Definition lut_index (x : image bool) (r c : Z) : Z :=
    b2z (px false x (r-1) (c-1)) * M_NW
  + b2z (px false x (r-1) c)     * M_N
  + b2z (px false x (r-1) (c+1)) * M_NE
  + b2z (px false x r (c-1))     * M_W
  + b2z (px false x r c)         * M_C
  + b2z (px false x r (c+1))     * M_E
  + b2z (px false x (r+1) (c-1)) * M_SW
  + b2z (px false x (r+1) c)     * M_S
  + b2z (px false x (r+1) (c+1)) * M_SE.

(** A lookup table is a list of 512 booleans; [lut[indices]] is elementwise [nth]. *)
Definition lut_get (lut : list bool) (i : Z) : bool := nth (Z.to_nat i) lut false.

(** thin.py:86-105 [apply_lut] (the two shape checks hold for all tables used here). *)
Definition apply_lut (x : image bool) (lut : list bool) : image bool :=
  tab (ht x) (wd x) (fun r c => lut_get lut (lut_index x r c)).

(** thin.py:45 [_LUT_INDS]. *)
Definition LUT_INDS : list Z := zseq 512.

(** thin.py:108-115. *)
Definition identity_lut : list bool :=
  map (fun i => negb (Z.land i M_C =? 0)) LUT_INDS.

(** thin.py:118-128: [lut != identity_lut()]. *)
Definition lut_mutate_mask (lut : list bool) : list bool :=
  map (fun p => xorb (fst p) (snd p)) (combine lut identity_lut).

(** thin.py:131-143 [lut_masks_zero] and 146-158 [lut_masks_one], one table entry. *)
Definition mask_at (neigh : nat) : Z :=
  nth (if Nat.ltb 8 neigh then neigh - 8 else neigh)%nat MASKS 0.
Definition zero_at (neigh : nat) (i : Z) : bool := Z.land i (mask_at neigh) =? 0.
Definition one_at (neigh : nat) (i : Z) : bool := negb (Z.land i (mask_at neigh) =? 0).

(** thin.py:161-173 [_thin_cond_g1], one entry. *)
Definition cond_g1 (i : Z) : bool :=
  fold_left (fun b k => b + b2z (zero_at (2*k-1) i && (one_at (2*k) i || one_at (2*k+1) i)))
            [1;2;3;4]%nat 0 =? 1.

(** thin.py:176-189 [_thin_cond_g2]. *)
Definition cond_g2 (i : Z) : bool :=
  let n1 := fold_left (fun n k => n + b2z (one_at (2*k-1) i || one_at (2*k) i)) [1;2;3;4]%nat 0 in
  let n2 := fold_left (fun n k => n + b2z (one_at (2*k) i || one_at (2*k+1) i)) [1;2;3;4]%nat 0 in
  let m := Z.min n1 n2 in (2 <=? m) && (m <=? 3).

(** thin.py:192-202 [_thin_cond_g3]. *)
Definition cond_g3 (i : Z) : bool :=
  negb ((one_at 2 i || one_at 3 i || zero_at 8 i) && one_at 1 i).

(** thin.py:205-213 [_thin_cond_g3_prime]. *)
Definition cond_g3p (i : Z) : bool :=
  negb ((one_at 6 i || one_at 7 i || zero_at 4 i) && one_at 5 i).

(** thin.py:216-226 and 229-239: identity with the condition entries set to False. *)
Definition thin_iter_1_lut : list bool :=
  map (fun i => negb (Z.land i M_C =? 0) && negb (cond_g1 i && cond_g2 i && cond_g3 i)) LUT_INDS.
Definition thin_iter_2_lut : list bool :=
  map (fun i => negb (Z.land i M_C =? 0) && negb (cond_g1 i && cond_g2 i && cond_g3p i)) LUT_INDS.

(** thin.py:242-281 [binary_thin].  The working array is the caller's array [Raw] (any
    integers, converted by [x != 0] on each use, lines 64-65) until the first table
    lookup makes it boolean. *)
Inductive arr := Raw (im : image Z) | Bin (im : image bool).

Definition nonzero (im : image Z) : image bool := imap (fun v => negb (v =? 0)) im.
Definition as_bool (a : arr) : image bool :=
  match a with Raw im => nonzero im | Bin im => im end.

(** The loop, lines 261-279, with explicit fuel ([None]: fuel exhausted).
    [left] is [max_iter - iter_count], [None] for [max_iter is None]. *)
Fixpoint binary_thin_loop (fuel : nat) (left : option Z) (a : arr) : option arr :=
  match fuel with
  | O => None
  | S fuel' =>
    if match left with None => true | Some k => 0 <? k end then
      let x := as_bool a in
      if Nat.eqb (count_true (apply_lut x (lut_mutate_mask thin_iter_1_lut))) 0 then Some a
      else
        let x1 := apply_lut x thin_iter_1_lut in
        if Nat.eqb (count_true (apply_lut x1 (lut_mutate_mask thin_iter_2_lut))) 0 then Some (Bin x1)
        else binary_thin_loop fuel' (option_map (fun k => k - 1) left)
                              (Bin (apply_lut x1 thin_iter_2_lut))
    else Some a
  end.

(** The fuel that [binary_thin_terminates] proves sufficient: one more than the number of
    foreground pixels. *)
Definition binary_thin (max_iter : option Z) (a : arr) : option arr :=
  binary_thin_loop (S (count_true (as_bool a))) max_iter a.

(** ** bwmorph_thin.py *)

(** bwmorph_thin.py:16-27, the literal table. *)
Definition G123_LUT_src : list Z :=
  [0; 0; 0; 0; 0; 0; 0; 0; 0; 0; 0; 0; 0; 0; 1; 0; 0; 0; 0; 0; 1; 0; 1;
   0; 0; 0; 0; 0; 1; 0; 1; 0; 0; 0; 0; 0; 0; 0; 0; 0; 0; 0; 0; 0; 0; 0;
   0; 0; 0; 0; 0; 0; 1; 0; 1; 0; 1; 0; 0; 0; 1; 0; 1; 0; 0; 0; 0; 0; 0;
   0; 0; 0; 0; 0; 0; 0; 0; 0; 0; 0; 1; 0; 0; 0; 1; 0; 1; 0; 1; 0; 0; 0;
   1; 0; 1; 0; 0; 0; 0; 0; 0; 0; 0; 0; 0; 0; 0; 0; 0; 0; 0; 0; 1; 0; 0;
   0; 1; 0; 1; 0; 1; 0; 0; 0; 1; 0; 1; 0; 0; 0; 0; 0; 0; 0; 0; 0; 0; 0;
   0; 0; 0; 0; 0; 0; 0; 0; 0; 0; 0; 0; 0; 0; 0; 0; 0; 0; 0; 0; 0; 0; 0;
   0; 0; 0; 0; 0; 0; 0; 0; 0; 0; 0; 0; 0; 0; 0; 0; 0; 0; 0; 0; 0; 0; 0;
   0; 0; 0; 0; 0; 0; 0; 0; 0; 1; 0; 0; 0; 0; 0; 0; 0; 0; 0; 0; 0; 0; 0;
   0; 1; 1; 0; 0; 1; 0; 0; 0; 1; 1; 0; 0; 1; 0; 0; 0; 1; 1; 0; 0; 0; 0;
   0; 0; 0; 0; 0; 0; 0; 0; 0; 0; 1; 1; 0; 0; 1; 0; 0; 0; 1; 1; 0; 0; 1;
   0; 0; 0].

(** bwmorph_thin.py:29-40, the literal table. *)
Definition G123P_LUT_src : list Z :=
  [0; 0; 0; 0; 0; 1; 0; 1; 0; 0; 0; 0; 0; 1; 1; 1; 0; 0; 0; 0; 0; 0; 0;
   0; 0; 0; 0; 0; 1; 1; 1; 1; 0; 0; 0; 0; 0; 0; 0; 0; 0; 0; 0; 0; 0; 0;
   0; 0; 0; 0; 0; 0; 0; 0; 0; 0; 0; 0; 0; 0; 0; 0; 0; 0; 0; 1; 0; 1; 0;
   1; 0; 1; 0; 0; 0; 0; 0; 1; 0; 1; 0; 0; 0; 0; 0; 0; 0; 0; 0; 0; 0; 0;
   0; 0; 0; 0; 0; 1; 0; 1; 0; 1; 0; 1; 0; 0; 0; 0; 0; 0; 0; 0; 0; 0; 0;
   0; 0; 0; 0; 0; 0; 0; 0; 0; 0; 0; 0; 0; 0; 0; 0; 1; 0; 1; 0; 1; 0; 0;
   0; 0; 0; 1; 0; 1; 0; 0; 0; 0; 0; 0; 0; 0; 0; 0; 0; 0; 0; 1; 0; 1; 0;
   0; 0; 0; 0; 0; 0; 0; 0; 0; 0; 0; 0; 0; 0; 0; 0; 0; 0; 0; 0; 0; 0; 0;
   0; 0; 0; 0; 0; 0; 0; 0; 0; 1; 0; 1; 0; 1; 0; 1; 0; 0; 0; 0; 0; 1; 0;
   1; 0; 0; 0; 0; 0; 0; 0; 0; 0; 0; 0; 0; 0; 0; 0; 0; 1; 1; 0; 1; 0; 1;
   0; 1; 0; 0; 0; 0; 0; 0; 0; 0; 0; 0; 0; 0; 0; 0; 0; 0; 0; 0; 0; 0; 0;
   0; 0; 0].

(** [dtype=bool]. *)
Definition to_bool (l : list Z) : list bool := map (fun v => negb (v =? 0)) l.
Definition G123_LUT := to_bool G123_LUT_src.
Definition G123P_LUT := to_bool G123P_LUT_src.

(** bwmorph_thin.py:121,130: correlation with the neighbourhood mask, zero padding.  The
    sum is below 256 for a 0/1 image, so uint8 does not wrap. *)
Definition bw_index (s : image bool) (r c : Z) : Z :=
    b2z (px false s (r-1) (c-1)) * 8
  + b2z (px false s (r-1) c)     * 4
  + b2z (px false s (r-1) (c+1)) * 2
  + b2z (px false s r (c-1))     * 16
  + b2z (px false s r c)         * 0
  + b2z (px false s r (c+1))     * 1
  + b2z (px false s (r+1) (c-1)) * 32
  + b2z (px false s (r+1) c)     * 64
  + b2z (px false s (r+1) (c+1)) * 128.

(** bwmorph_thin.py:128-134: one sub-iteration, [D = take(lut, N); skel[D] = 0]. *)
Definition bw_sub (lut : list bool) (s : image bool) : image bool :=
  tab (ht s) (wd s) (fun r c => if lut_get lut (bw_index s r c) then false else px false s r c).

(** bwmorph_thin.py:124-143: the loop; [n] is negative for "no limit". *)
Fixpoint bw_loop (fuel : nat) (n : Z) (s : image bool) : option (image bool) :=
  match fuel with
  | O => None
  | S fuel' =>
    if n =? 0 then Some s
    else
      let s2 := bw_sub G123P_LUT (bw_sub G123_LUT s) in
      if Nat.eqb (count_true s) (count_true s2) then Some s2
      else bw_loop fuel' (n - 1) s2
  end.

(** bwmorph_thin.py:45-145.  [Ok None] would be fuel exhaustion (proved impossible). *)
Definition bwmorph_thin (image : image Z) (n_iter : option Z) : res (option (ModelImage.image bool)) :=
  let run n :=
    if forallb (fun v => (v =? 0) || (v =? 1)) (concat (rows image))
    then Ok (bw_loop (S (S (count_true (nonzero image)))) n (nonzero image))
    else Err ValueError in
  match n_iter with
  | None => run (-1)
  | Some k => if k <=? 0 then Err ValueError else run k
  end.

(** bwmorph_thin.py:151-194: the recipe (in a string literal of the source) that generated
    the tables. *)
Definition nabe (n : Z) (i : nat) : bool := Z.testbit n (Z.of_nat i).
Definition gen_G1 (n : Z) : bool :=
  fold_left (fun s i => if negb (nabe n i) && (nabe n (i+1) || nabe n ((i+2) mod 8)) then s + 1 else s)
            [0;2;4;6]%nat 0 =? 1.
Definition gen_G2 (n : Z) : bool :=
  let n1 := fold_left (fun s k => if nabe n k || nabe n (k-1) then s + 1 else s) [1;3;5;7]%nat 0 in
  let n2 := fold_left (fun s k => if nabe n k || nabe n ((k+1) mod 8) then s + 1 else s) [1;3;5;7]%nat 0 in
  existsb (fun v => Z.min n1 n2 =? v) [2; 3].
Definition gen_G3 (n : Z) : bool := negb ((nabe n 1 || nabe n 2 || negb (nabe n 7)) && nabe n 0).
Definition gen_G3p (n : Z) : bool := negb ((nabe n 5 || nabe n 6 || negb (nabe n 3)) && nabe n 4).
Definition gen_g123_lut : list bool := map (fun n => gen_G1 n && gen_G2 n && gen_G3 n) (zseq 256).
Definition gen_g123p_lut : list bool := map (fun n => gen_G1 n && gen_G2 n && gen_G3p n) (zseq 256).
