(** pyEdgeEval/_lib/src/match.cc and correspond_pixels.pyx a third time, with all numbers as the doubles they
    are in the code: the tolerance, the outlier cost, the distances and the reported cost are rounded
    to binary64 after every operation ([rnd], ModelFloat.v; [sqrt] is correctly rounded, as IEEE 754
    demands), and the solver is the binary64 solver of ModelCSA64.v.

    Simplifications: as in ModelMatch.v, except that numbers are binary64 numbers without an upper bound on
    the exponent; [int] is unbounded. *)
From Verif Require Export ModelMatch64.
From Flocq Require Export Core.
Open Scope Z_scope.
Open Scope list_scope.

Definition Rleb (a b : R) : bool := negb (Rltb b a).
(** [sqrt] of libm / [math.sqrt]. *)
Definition fsqrt (x : R) : R := rnd (sqrt x).
(** [(int) rint(x)], rounding ties to even. *)
Definition rint (x : R) : Z := ZnearestE x.
(** match.cc:181 and 294: [(int) rint(sqrt(d2) * multiplier)]. *)
Definition fweight (d2 : Z) : Z := rint (fmul (fsqrt (IZR d2)) (IZR multiplier)).

Section MatchF.
Variable h w : nat.
Variable b1 b2 : image bool.
(** [maxDist] and [outlierCost]. *)
Variable md oc : R.

(** match.cc:61. *)
Definition fradius : Z := Zceil md.
(** match.cc:75-76 and 122-123: not [d2 > maxDist*maxDist]. *)
Definition fclose (u v : Z) : bool := Rleb (IZR (u * u + v * v)) (fmul md md).
(** match.cc:73-80. *)
Definition faround_vu (p : pixel) : list pixel :=
  flat_map (fun v => flat_map (fun u =>
    if negb (fclose u v) then []
    else if inb h w (snd p + v) (fst p + u) then [(fst p + u, snd p + v)] else [])
    (window fradius)) (window fradius).
(** match.cc:120-127. *)
Definition faround_uv (p : pixel) : list pixel :=
  flat_map (fun u => flat_map (fun v =>
    if negb (fclose u v) then []
    else if inb h w (snd p + v) (fst p + u) then [(fst p + u, snd p + v)] else [])
    (window fradius)) (window fradius).
(** match.cc:65-86. *)
Definition fhits : list (pixel * pixel) :=
  flat_map (fun p : Z * Z =>
    let p1 := (snd p, fst p) in
    if at1 b1 p1 then flat_map (fun p2 => if at2 b2 p2 then [(p1, p2)] else []) (faround_vu p1) else [])
    (coords h w).
Definition fmatchable1 (p : pixel) : bool := existsb (fun e => pix_eqb (fst e) p) fhits.
Definition fmatchable2 (p : pixel) : bool := existsb (fun e => pix_eqb (snd e) p) fhits.
(** match.cc:88-112. *)
Definition fnodes1 : list pixel := filter fmatchable1 (colmajor h w).
Definition fnodes2 : list pixel := filter fmatchable2 (colmajor h w).
Definition fn1 : nat := List.length fnodes1.
Definition fn2 : nat := List.length fnodes2.
(** match.cc:114-139: the edges, with the square of [e.w]. *)
Definition freal_edges : list (nat * nat * Z) :=
  flat_map (fun p1 => if fmatchable1 p1 then
      flat_map (fun p2 => if fmatchable2 p2 then [(index_of p1 fnodes1, index_of p2 fnodes2, dist2 p1 p2)] else [])
        (faround_uv p1)
    else []) (colmajor h w).
(** match.cc:141-154. *)
Definition fnmin : nat := Nat.min fn1 fn2.
Definition fnmax : nat := Nat.max fn1 fn2.
Definition fdeg1 : Z := Z.max 0 (Z.min degree (Z.of_nat fn1 - 1)).
Definition fdeg2 : Z := Z.max 0 (Z.min degree (Z.of_nat fn2 - 1)).
Definition fdeg3 : Z := Z.min degree (Z.of_nat fnmin).
(** match.cc:156-162. *)
Definition fn_arcs : Z :=
  Z.of_nat (List.length freal_edges) + fdeg1 * Z.of_nat fn1 + fdeg2 * Z.of_nat fn2 + fdeg3 * Z.of_nat fnmax + Z.of_nat (fn1 + fn2).
(** match.cc:170: [(int) ceil(outlierCost * multiplier)]. *)
Definition fow : Z := Zceil (fmul oc (IZR multiplier)).
(** match.cc:189-202, 203-216, 217-237, 238-250. *)
Definition foutliers1 (i : nat) (s : stream) : res (list garc * stream) :=
  bind (kofn fdeg1 (Z.of_nat fn1 - 1) s) (fun '(l, s) =>
    let js := map (shift_diag (Z.of_nat i)) l in
    check (forallb (fun j => negb (Z.of_nat i =? j) && (0 <=? j) && (j <? Z.of_nat fn1)) js)
      (Ok (map (fun j => mkArc i (fn2 + Z.to_nat j) fow) js, s))).
Definition foutliers2 (j : nat) (s : stream) : res (list garc * stream) :=
  bind (kofn fdeg2 (Z.of_nat fn2 - 1) s) (fun '(l, s) =>
    let is := map (shift_diag (Z.of_nat j)) l in
    check (forallb (fun i => negb (Z.of_nat j =? i) && (0 <=? i) && (i <? Z.of_nat fn2)) is)
      (Ok (map (fun i => mkArc (fn1 + Z.to_nat i) j fow) is, s))).
Definition foutliers3 (i : nat) (s : stream) : res (list garc * stream) :=
  bind (kofn fdeg3 (Z.of_nat fnmin) s) (fun '(l, s) =>
    check (forallb (fun j => (0 <=? j) && (j <? Z.of_nat fnmin)) l)
      (Ok (map (fun j => if Nat.ltb fn1 fn2 then mkArc (fn1 + i) (fn2 + Z.to_nat j) fow
                         else mkArc (fn1 + Z.to_nat j) (fn2 + i) fow) l, s))).
Definition foverlay : list garc :=
  map (fun i => mkArc i (fn2 + i) (fow * multiplier)) (seq 0 fn1) ++
  map (fun i => mkArc (fn1 + i) i (fow * multiplier)) (seq 0 fn2).
(** match.cc:133-136 (the assertions on the edges), 152-154 and 176-259. *)
Definition fbuild_graph (s : stream) : res (list garc * stream) :=
  check ((Nat.eqb fn1 0 || ((0 <=? fdeg1) && (fdeg1 <? Z.of_nat fn1))) &&
         (Nat.eqb fn2 0 || ((0 <=? fdeg2) && (fdeg2 <? Z.of_nat fn2))) &&
         ((0 <=? fdeg3) && (fdeg3 <=? Z.of_nat fnmin)) &&
         forallb (fun '(i, j, d2) => Nat.ltb i fn1 && Nat.ltb j fn2 && Rltb (fsqrt (IZR d2)) oc) freal_edges)
  (bind (ModelMatch.sample_loop (seq 0 fn1) foutliers1 s) (fun '(o1, s) =>
   bind (ModelMatch.sample_loop (seq 0 fn2) foutliers2 s) (fun '(o2, s) =>
   bind (ModelMatch.sample_loop (seq 0 fnmax) foutliers3 s) (fun '(o3, s) =>
   let g := map (fun '(i, j, d2) => mkArc i j (fweight d2)) freal_edges ++ o1 ++ o2 ++ o3 ++ foverlay in
   check ((Z.of_nat (List.length g) =? fn_arcs) &&
          forallb (fun a => Nat.ltb (a_tail a) (fn1 + fn2) && Nat.ltb (a_head a) (fn1 + fn2)) g)
     (Ok (g, s)))))).
(** match.cc:306-320. *)
Definition fdecode_pairs (l : list (nat * Z)) : list (pixel * pixel) :=
  flat_map (fun '(i, (j, _)) =>
    if Nat.ltb i fn1 && Nat.ltb j fn2 then [(nth i fnodes1 (-1, -1), nth j fnodes2 (-1, -1))] else [])
    (combine (seq 0 (List.length l)) l).
(** match.cc:272-296. *)
Definition fcheck_solution (l : list (nat * Z)) : bool :=
  forallb (fun '(i, (j, c)) =>
    Nat.ltb j (fn1 + fn2) && (0 <=? c) &&
    (if Nat.ltb i fn1 && Nat.ltb j fn2
     then fweight (dist2 (nth i fnodes1 (-1, -1)) (nth j fnodes2 (-1, -1))) =? c else true))
    (combine (seq 0 (List.length l)) l).
(** match.cc:340-347 / 348-355: what one pixel of one map adds to the cost. *)
Definition fcost_pixel (b : image bool) (look : pixel -> option pixel) (c : R) (p : pixel) : R :=
  if px false b (snd p) (fst p) then
    match look p with
    | None => fadd c oc
    | Some q => fadd c (fmul (/ 2) (fsqrt (IZR (dist2 p q))))
    end
  else c.
(** match.cc:336-363. *)
Definition fcost (look1 look2 : pixel -> option pixel) : R :=
  fold_left (fun c p => fcost_pixel b2 look2 (fcost_pixel b1 look1 c p) p) (colmajor h w) 0%R.

Record foutcome := mkOutF { fm1 : image Z; fm2 : image Z; ftotal : R }.
(** match.cc:27-363 [matchEdgeMaps]. *)
Definition fmatch_edge_maps (fuel pfuel : nat) (s : stream) : res (option (foutcome * stream)) :=
  check (Rleb 0 md && Rltb md oc)
  (if Z.eqb fn_arcs 0 then Ok (Some (mkOutF (tab h w (fun _ _ => 0)) (tab h w (fun _ _ => 0)) 0, s))
   else
     bind (fbuild_graph s) (fun '(g, s) =>
     bind (csa_solve64 fuel pfuel (fn1 + fn2) g) (fun r =>
       match r with
       | None => Ok None
       | Some l =>
         check (Nat.eqb (List.length l) (fn1 + fn2) && fcheck_solution l)
         (let ps := fdecode_pairs l in
          Ok (Some (mkOutF (code_map h w b1 (lookup1 ps)) (code_map h w b2 (lookup2 ps))
                           (fcost (lookup1 ps) (lookup2 ps)), s)))
       end))).
End MatchF.

(** correspond_pixels.pyx:21-23 and 41: [idiag], [max_dist * idiag] and [oc]. *)
Definition fidiag (h w : nat) : R := fsqrt (IZR (diag2 h w)).
Definition fmax_dist (max_dist : R) (h w : nat) : R := fmul max_dist (fidiag h w).
Definition foutlier_cost (max_dist outlier_cost : R) (h w : nat) : R := fmul (fmul outlier_cost max_dist) (fidiag h w).
(** correspond_pixels.pyx:51-66 and 18-49; the fourth value returned is [oc]. *)
Definition fcorrespond_pixels (img0 img1 : image bool) (max_dist outlier_cost : R) (fuel pfuel : nat) (s : stream)
    : res (option (foutcome * R * stream)) :=
  if negb (Nat.eqb (ht img0) (ht img1) && Nat.eqb (wd img0) (wd img1)) then Err ValueError
  else if Rleb max_dist 0 then Err ValueError
  else if Rleb outlier_cost 1 then Err ValueError
  else
    let oc := foutlier_cost max_dist outlier_cost (ht img0) (wd img0) in
    bind (fmatch_edge_maps (ht img0) (wd img0) img0 img1 (fmax_dist max_dist (ht img0) (wd img0)) oc fuel pfuel s)
      (fun r => match r with None => Ok None | Some (out, s) => Ok (Some (out, oc, s)) end).
