(** matchEdgeMaps on its arrays: pyEdgeEval/_lib/src/match.cc over include/Array.hh and the interface of include/csa.hh.
    ModelMatch.v describes the function by lists and predicates; here every array, every read and every write is there.

    Simplifications: values of type int are unbounded (C69 bounds them), indices and sizes are unsigned 32-bit as in
    Array.hh; distances by their squares and the cost by its summands, kept for the two images separately (ModelMatch.v);
    std::vector is a list with checked access; the solver is
    [csa_mem_solve] (ModelCSAMem.v; ModelArrays64.v: with its doubles), with its own arrays.  [NullDereference] is any undefined behaviour: an index outside an array (an assertion of Array.hh when
    compiled with assertions) or a read of a cell never written. *)
From Verif Require Export ModelMatch.
From Verif Require ModelCSAMem.
Open Scope Z_scope.
Open Scope list_scope.

Definition fault {A} : res A := Err NullDereference.
Definition u32 (z : Z) : Z := z mod 2 ^ 32.
(** Array.hh:88-176 [Array2D], 38-86 [Array1D] (second dimension 1): dimensions, number of elements, cells. *)
Record arr (A : Type) : Type := mkArr { d0 : Z; d1 : Z; asize : Z; acell : Z -> option A }.
Arguments mkArr {A}. Arguments d0 {A}. Arguments d1 {A}. Arguments asize {A}. Arguments acell {A}.
(** Array.hh:148-153 [_alloc]. *)
Definition alloc {A} (a b : Z) : arr A := mkArr (u32 a) (u32 b) (u32 (u32 a * u32 b)) (fun _ => None).
(** Array.hh:113-117 [init]. *)
Definition init {A} (m : arr A) (v : A) : arr A :=
  mkArr (d0 m) (d1 m) (asize m) (fun k => if (0 <=? k) && (k <? asize m) then Some v else acell m k).
(** Array.hh:128-143 [operator()]. *)
Definition index {A} (m : arr A) (i j : Z) : res Z :=
  let i := u32 i in
  let j := u32 j in
  if negb (i <? d0 m) then fault
  else if negb (j <? d1 m) then fault
  else let k := u32 (i * d1 m + j) in if k <? asize m then Ok k else fault.
Definition rd {A} (m : arr A) (i j : Z) : res A :=
  bind (index m i j) (fun k => match acell m k with Some v => Ok v | None => fault end).
Definition wr {A} (m : arr A) (i j : Z) (v : A) : res (arr A) :=
  bind (index m i j) (fun k => Ok (mkArr (d0 m) (d1 m) (asize m) (fun k' => if k' =? k then Some v else acell m k'))).
(** [for] *)
Fixpoint foldM {A S} (f : A -> S -> res S) (l : list A) (s : S) : res S :=
  match l with [] => Ok s | a :: l => bind (f a s) (fun s => foldM f l s) end.
(** std::vector *)
Definition vget {A} (l : list A) (i : Z) : res A :=
  if i <? 0 then fault else match nth_error l (Z.to_nat i) with Some a => Ok a | None => fault end.
(** Matrix.cc:461-484: element access of an input matrix. *)
Definition bget (b : image bool) (y x : Z) : res bool :=
  if inb (ht b) (wd b) y x then Ok (px false b y x) else Err Terminate.
Definition require {A} (b : bool) (r : res A) : res A := if b then r else Err AssertionError.

Section Match.
Variable h w : nat.
Variable b1 b2 : image bool.
Variable md2 oc2 : Q.
Notation zh := (Z.of_nat h).
Notation zw := (Z.of_nat w).

(** match.cc:50-58. *)
Definition init_matches : res (arr pixel * arr pixel) :=
  foldM (fun (p : pixel) '(m1, m2) =>
    bind (wr m1 (fst p) (snd p) (-1, -1)) (fun m1 => bind (wr m2 (fst p) (snd p) (-1, -1)) (fun m2 => Ok (m1, m2))))
    (colmajor h w) (alloc zw zh, alloc zw zh).

(** match.cc:73-74: (u, v), v in the outer loop; 117-118: u in the outer loop. *)
Definition offsets_vu : list (Z * Z) := flat_map (fun v => map (fun u => (u, v)) (window (radius md2))) (window (radius md2)).
Definition offsets_uv : list (Z * Z) := flat_map (fun u => map (fun v => (u, v)) (window (radius md2))) (window (radius md2)).
(** match.cc:75-83, 119-125: continue unless the offset is near and leads to a pixel. *)
Definition step_ok (p : pixel) (o : Z * Z) : bool :=
  Qle_bool (inject_Z (fst o * fst o + snd o * snd o)) md2 && inb h w (snd p + snd o) (fst p + fst o).
Definition mark (p : pixel) (o : Z * Z) (s : arr bool * arr bool) : res (arr bool * arr bool) :=
  if step_ok p o then
    let x2 := fst p + fst o in let y2 := snd p + snd o in
    bind (bget b2 y2 x2) (fun b => if b then
      bind (wr (fst s) (fst p) (snd p) true) (fun k1 => bind (wr (snd s) x2 y2 true) (fun k2 => Ok (k1, k2))) else Ok s)
  else Ok s.
(** match.cc:65-86. *)
Definition scan : res (arr bool * arr bool) :=
  foldM (fun yx s => bind (bget b1 (fst yx) (snd yx)) (fun b => if b then foldM (mark (snd yx, fst yx)) offsets_vu s else Ok s))
    (coords h w) (init (alloc zw zh) false, init (alloc zw zh) false).

(** match.cc:91-112, for one image: pixToNode, nodeToPix, the counter. *)
Definition number1 (k : arr bool) (p : pixel) (s : arr Z * list pixel * Z) : res (arr Z * list pixel * Z) :=
  let '(t, v, n) := s in
  bind (wr t (fst p) (snd p) (-1)) (fun t => bind (rd k (fst p) (snd p)) (fun b => if b then
    bind (wr t (fst p) (snd p) n) (fun t => Ok (t, v ++ [p], n + 1)) else Ok (t, v, n))).
Definition number (k1 k2 : arr bool) : res ((arr Z * list pixel * Z) * (arr Z * list pixel * Z)) :=
  foldM (fun p '(s1, s2) => bind (number1 k1 p s1) (fun s1 => bind (number1 k2 p s2) (fun s2 => Ok (s1, s2))))
    (colmajor h w) ((alloc zw zh, [], 0), (alloc zw zh, [], 0)).

(** match.cc:119-136. *)
Definition edge_step (k2 : arr bool) (t1 t2 : arr Z) (n1 n2 : Z) (p : pixel) (o : Z * Z) (es : list (Z * Z * Z)) : res (list (Z * Z * Z)) :=
  if step_ok p o then
    let x2 := fst p + fst o in let y2 := snd p + snd o in
    bind (rd k2 x2 y2) (fun b => if b then
      bind (rd t1 (fst p) (snd p)) (fun i => bind (rd t2 x2 y2) (fun j =>
      let d := fst o * fst o + snd o * snd o in
      require ((0 <=? i) && (i <? n1) && ((0 <=? j) && (j <? n2)) && Qltb (inject_Z d) oc2) (Ok (es ++ [(i, j, d)])))) else Ok es)
  else Ok es.
(** match.cc:114-139. *)
Definition find_edges (k1 k2 : arr bool) (t1 t2 : arr Z) (n1 n2 : Z) : res (list (Z * Z * Z)) :=
  foldM (fun p es => bind (rd k1 (fst p) (snd p)) (fun b => if b then foldM (edge_step k2 t1 t2 n1 n2 p) offsets_uv es else Ok es))
    (colmajor h w) [].

(** Three writes to a row of [igraph] and [count++]. *)
Definition put (r : Z * Z * Z) (s : arr Z * Z) : res (arr Z * Z) :=
  let '(a, b, c) := r in
  bind (wr (fst s) (snd s) 0 a) (fun g => bind (wr g (snd s) 1 b) (fun g => bind (wr g (snd s) 2 c) (fun g => Ok (g, snd s + 1)))).
(** kofn.cc:5-21 [_kOfN_largeK], the loop from [i] with [j] values stored from [base] on; [left] = n - i. *)
Fixpoint large_into (left : nat) (i k j base : Z) (out : arr Z) (s : stream) : res (Z * arr Z * stream) :=
  match left with
  | O => Ok (j, out, s)
  | S left' =>
    require (k - j <=? Z.of_nat left) (* kofn.cc:14 *)
    (if s_hd s * Z.of_nat left <? (k - j) * two48
     then bind (wr out (base + j) 0 i) (fun out => large_into left' (i + 1) k (j + 1) base out (s_tl s))
     else large_into left' (i + 1) k j base out (s_tl s))
  end.
(** kofn.cc:23-51 [_kOfN_smallK] with [values] pointing to element [base]; the recursion on the right half has the pointer
    values + leftK, then leftN is added there. *)
Fixpoint small_into (fuel : nat) (k n base : Z) (out : arr Z) (s : stream) : res (arr Z * stream) :=
  match fuel with
  | O => fault
  | S fuel =>
    require ((0 <? k) && (k <=? n))
    (if k =? 1 then let (x, s) := i32 0 (n - 1) s in bind (wr out base 0 x) (fun out => Ok (out, s))
     else
       let leftN := n / 2 in
       let rightN := n - leftN in
       let (leftK, s) := split_k (Z.to_nat k) 0 n leftN 0 s in
       let rightK := k - leftK in
       bind (if 0 <? leftK then small_into fuel leftK leftN base out s else Ok (out, s)) (fun '(out, s) =>
       bind (if 0 <? rightK then small_into fuel rightK rightN (base + leftK) out s else Ok (out, s)) (fun '(out, s) =>
       bind (foldM (fun d out => bind (rd out (base + (leftK + d)) 0) (fun v => wr out (base + (leftK + d)) 0 (v + leftN)))
               (zseq (Z.to_nat (k - leftK))) out) (fun out => Ok (out, s)))))
  end.
(** kofn.cc:53-68, kOfN(k, n, outliers.data()). *)
Definition kofn_into (k n : Z) (out : arr Z) (s : stream) : res (arr Z * stream) :=
  require ((0 <=? k) && (0 <=? n))
  (if k =? 0 then Ok (out, s)
   else if k ^ k <? 2 ^ (n / 2) then small_into (S (Z.to_nat n)) k n 0 out s
   else require ((0 <? k) && (k <=? n))
     (bind (large_into (Z.to_nat n) 0 k 0 0 out s) (fun '(j, out, s) => require (j =? k) (Ok (out, s))))).
(** match.cc:187-237, one of the three loops: [deg] draws below [lim] for node i; [row] is the row for a draw, or nothing if an
    assertion fails. *)
Definition outlier_loop (deg lim : Z) (row : Z -> Z -> option (Z * Z * Z)) (i : Z) (s : (arr Z * Z) * arr Z * stream)
    : res ((arr Z * Z) * arr Z * stream) :=
  let '(gc, out, s) := s in
  bind (kofn_into deg lim out s) (fun '(out, s) =>
  bind (foldM (fun a gc => bind (rd out a 0) (fun j => match row i j with Some r => put r gc | None => Err AssertionError end))
    (zseq (Z.to_nat deg)) gc) (fun gc => Ok (gc, out, s))).
(** match.cc:191-199. *)
Definition row1 (n1 n2 ow : Z) (i j : Z) : option (Z * Z * Z) :=
  let j := if j >=? i then j + 1 else j in
  if negb (i =? j) && (0 <=? j) && (j <? n1) then Some (i, n2 + j, ow) else None.
(** match.cc:205-213. *)
Definition row2 (n1 n2 ow : Z) (j i : Z) : option (Z * Z * Z) :=
  let i := if i >=? j then i + 1 else i in
  if negb (i =? j) && (0 <=? i) && (i <? n2) then Some (n1 + i, j, ow) else None.
(** match.cc:219-235. *)
Definition row3 (n1 n2 ow : Z) (i j : Z) : option (Z * Z * Z) :=
  if (0 <=? j) && (j <? Z.min n1 n2) then
    if n1 <? n2 then if (0 <=? i) && (i <? n2) && ((0 <=? j) && (j <? n1)) then Some (n1 + i, n2 + j, ow) else None
    else if (0 <=? i) && (i <? n1) && ((0 <=? j) && (j <? n2)) then Some (n1 + j, n2 + i, ow) else None
  else None.
(** match.cc:141-150. *)
Definition deg1z (n1 : Z) : Z := Z.max 0 (Z.min degree (n1 - 1)).
(** match.cc:173-250. *)
Definition fill (edges : list (Z * Z * Z)) (n1 n2 m ow : Z) (s : stream) : res ((arr Z * Z) * stream) :=
  let d1 := deg1z n1 in let d2 := deg1z n2 in let d3 := Z.min degree (Z.min n1 n2) in
  bind (foldM (fun '(i, j, d) gc => require ((0 <=? i) && (i <? n1) && ((0 <=? j) && (j <? n2))) (put (i, j, weight d) gc)) edges (alloc m 3, 0)) (fun gc =>
  bind (foldM (outlier_loop d1 (n1 - 1) (row1 n1 n2 ow)) (zseq (Z.to_nat n1)) (gc, alloc (Z.max d1 (Z.max d2 d3)) 1, s)) (fun st =>
  bind (foldM (outlier_loop d2 (n2 - 1) (row2 n1 n2 ow)) (zseq (Z.to_nat n2)) st) (fun st =>
  bind (foldM (outlier_loop d3 (Z.min n1 n2) (row3 n1 n2 ow)) (zseq (Z.to_nat (Z.max n1 n2))) st) (fun st =>
  bind (foldM (fun i gc => put (i, n2 + i, ow * multiplier) gc) (zseq (Z.to_nat n1)) (fst (fst st))) (fun gc =>
  bind (foldM (fun i gc => put (n1 + i, i, ow * multiplier) gc) (zseq (Z.to_nat n2)) gc) (fun gc => Ok (gc, snd st))))))).
(** match.cc:251-259. *)
Definition shift_rows (m n : Z) (g : arr Z) : res (arr Z) :=
  foldM (fun i g =>
    bind (rd g i 0) (fun a => require ((0 <=? a) && (a <? n))
    (bind (rd g i 1) (fun b => require ((0 <=? b) && (b <? n))
    (bind (wr g i 0 (a + 1)) (fun g => wr g i 1 (b + (1 + n)))))))) (zseq (Z.to_nat m)) g.
(** csa.hh:713-731: reading the arcs from [graph] (3*i, 3*i+1, 3*i+2). *)
Definition csa_input (m n : Z) (g : arr Z) : res (list garc) :=
  foldM (fun i l =>
    bind (rd g i 0) (fun tail => bind (rd g i 1) (fun head => bind (rd g i 2) (fun cost =>
    let head := head - n in
    if (tail <? 1) || (n <? tail) || (head <? 1) || (n <? head) then Err ValueError
    else Ok (l ++ [mkArc (Z.to_nat (tail - 1)) (Z.to_nat (head - 1)) cost]))))) (zseq (Z.to_nat m)) [].
(** csa.hh:411-425 and match.cc:264-270: result_a, result_b, result_costs; [ograph]. *)
Definition solution_rows (n : Z) (l : list (nat * Z)) : res (arr Z) :=
  bind (foldM (fun i gc => bind (vget l i) (fun e => put (i + 1 - 1, Z.of_nat (fst e) + 1 + n - 1 - n, snd e) gc)) (zseq (Z.to_nat n)) (alloc n 3, 0))
    (fun gc => Ok (fst gc)).
(** match.cc:275-296. *)
Definition check_rows (n n1 n2 : Z) (v1 v2 : list pixel) (g : arr Z) : res unit :=
  foldM (fun a (_ : unit) => bind (rd g a 0) (fun i => bind (rd g a 1) (fun j => bind (rd g a 2) (fun c =>
    require ((0 <=? i) && (i <? n) && ((0 <=? j) && (j <? n)) && (0 <=? c))
    (if n1 <=? i then Ok tt else if n2 <=? j then Ok tt else
     bind (vget v1 i) (fun p => bind (vget v2 j) (fun q => require (weight (dist2 p q) =? c) (Ok tt)))))))) (zseq (Z.to_nat n)) tt.
(** match.cc:306-320. *)
Definition decode_rows (n n1 n2 : Z) (v1 v2 : list pixel) (g : arr Z) (ms : arr pixel * arr pixel) : res (arr pixel * arr pixel) :=
  foldM (fun a ms => bind (rd g a 0) (fun i => bind (rd g a 1) (fun j =>
     if n1 <=? i then Ok ms else if n2 <=? j then Ok ms else
     bind (vget v1 i) (fun p => bind (vget v2 j) (fun q =>
     bind (wr (fst ms) (fst p) (snd p) q) (fun m1 => bind (wr (snd ms) (fst q) (snd q) p) (fun m2 => Ok (m1, m2)))))))) (zseq (Z.to_nat n)) ms.
(** match.cc:321-334, one of the two matrices (zeros; column by column, Matrix.cc:469). *)
Definition fill_codes (b : image bool) (ma : arr pixel) : res (arr Z) :=
  foldM (fun (p : pixel) out => bind (bget b (snd p) (fst p)) (fun e => if e then
      bind (rd ma (fst p) (snd p)) (fun q => if pix_eqb q (-1, -1) then Ok out else wr out (fst p) (snd p) (code h q))
    else Ok out)) (colmajor h w) (init (alloc zw zh) 0).
(** match.cc:336-359, one of the two images. *)
Definition side_cost (b : image bool) (ma : arr pixel) : res cost :=
  foldM (fun (p : pixel) (c : cost) => bind (bget b (snd p) (fst p)) (fun e => if e then
      bind (rd ma (fst p) (snd p)) (fun q =>
        if pix_eqb q (-1, -1) then Ok (mkCost (S (c_outliers c)) (c_halves c))
        else Ok (mkCost (c_outliers c) (c_halves c ++ [dist2 p q])))
    else Ok c)) (colmajor h w) (mkCost 0 []).
(** The matrix as an image. *)
Definition matrix_image (m : arr Z) : image Z := tab h w (fun y x => match rd m x y with Ok v => v | Err _ => 0 end).

(** match.cc:27-363; [solver] is what CSA csa(n, m, igraph) and its edges() compute from n and the rows of igraph. *)
Definition array_match_with (solver : nat -> list garc -> res (option (list (nat * Z)))) (s : stream) : res (option (outcome * stream)) :=
  require (Qle_bool 0 md2 && Qltb md2 oc2)
  (bind init_matches (fun ms => bind scan (fun '(k1, k2) => bind (number k1 k2) (fun '((t1, v1, n1), (t2, v2, n2)) =>
   bind (find_edges k1 k2 t1 t2 n1 n2) (fun edges =>
   let d1 := deg1z n1 in let d2 := deg1z n2 in let d3 := Z.min degree (Z.min n1 n2) in
   let n := n1 + n2 in
   let m := Z.of_nat (length edges) + d1 * n1 + d2 * n2 + d3 * Z.max n1 n2 + n in
   require (((n1 =? 0) || ((0 <=? d1) && (d1 <? n1))) && ((n2 =? 0) || ((0 <=? d2) && (d2 <? n2))) && ((0 <=? d3) && (d3 <=? Z.min n1 n2)))
   (if m =? 0 then Ok (Some (nothing h w, s))
    else bind (fill edges n1 n2 m (ow oc2) s) (fun '((g, count), s) =>
      require (count =? m)
      (bind (shift_rows m n g) (fun g => bind (csa_input m n g) (fun arcs => bind (solver (Z.to_nat n) arcs) (fun r =>
       match r with
       | None => Ok None
       | Some l => bind (solution_rows n l) (fun og => bind (check_rows n n1 n2 v1 v2 og) (fun _ =>
           bind (decode_rows n n1 n2 v1 v2 og ms) (fun '(ma1, ma2) =>
           bind (fill_codes b1 ma1) (fun o1 => bind (fill_codes b2 ma2) (fun o2 =>
           bind (side_cost b1 ma1) (fun c1 => bind (side_cost b2 ma2) (fun c2 =>
             Ok (Some (mkOut (matrix_image o1) (matrix_image o2) (cost_add c1 c2), s)))))))))
       end))))))))))).
(** match.cc:27-363 with the solver of ModelCSAMem.v. *)
Definition array_match_edge_maps (fuel pfuel : nat) : stream -> res (option (outcome * stream)) :=
  array_match_with (ModelCSAMem.csa_mem_solve fuel pfuel).
End Match.

(** correspond_pixels.pyx:51-66 and 18-49, as [correspond_pixels] in ModelMatch.v, with the function above. *)
Definition array_correspond_pixels (img0 img1 : image bool) (max_dist outlier_cost : Q) (fuel pfuel : nat) (s : stream)
    : res (option (outcome * stream)) :=
  if negb (Nat.eqb (ht img0) (ht img1) && Nat.eqb (wd img0) (wd img1)) then Err ValueError
  else if Qle_bool max_dist 0 then Err ValueError
  else if Qle_bool outlier_cost 1 then Err ValueError
  else
    let d := inject_Z (diag2 (ht img0) (wd img0)) in
    array_match_edge_maps (ht img0) (wd img0) img0 img1
      (max_dist * max_dist * d)%Q (outlier_cost * outlier_cost * (max_dist * max_dist) * d)%Q fuel pfuel s.
