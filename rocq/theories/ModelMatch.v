(** Pixel correspondence: pyEdgeEval/_lib/src/{Random,kofn,match}.cc, include/Random.hh and
    pyEdgeEval/_lib/correspond_pixels.pyx.

    Simplifications: distances are represented by their exact squares (maxDist, outlierCost and
    sqrt are doubles in the code); [int] is unbounded; the warning printed at match.cc:300-304 is
    left out.  An [assert] that fails is [Err AssertionError] (the model keeps the assertions even
    if the extension is compiled with NDEBUG). *)
From Verif Require Export ModelImage ModelCSA.
From Coq Require Export Qround.
Open Scope Z_scope.
Open Scope list_scope.

(** ** Random numbers *)
(** An infinite stream of raw 48-bit values of [erand48]; the head is the next one drawn. *)
Definition stream : Type := nat -> Z.
Definition s_hd (s : stream) : Z := s O.
Definition s_tl (s : stream) : stream := fun n => s (S n).
Definition two48 : Z := 2 ^ 48.

(** erand48(3): the linear congruential generator behind Random.hh:122-126. *)
Definition lcg (x : Z) : Z := (25214903917 * x + 11) mod two48.
(** Random.cc:68-75 [_init]: the state is the low 48 bits of the seed (three 16-bit words). *)
Definition rnd_init (seed : Z) : Z := seed mod two48.
(** Random.cc:54-66 [reseed] at time (tv_sec, tv_usec): seed 0 means "use the clock". *)
Definition clock_seed (sec usec : Z) : Z :=
  (usec / 8) mod 65536 + (sec mod 65536) * 65536 + ((sec / 65536) mod 65536) * 4294967296.
Definition rnd_reseed (seed sec usec : Z) : Z :=
  rnd_init (if seed =? 0 then clock_seed sec usec else seed).
(** Random.cc:28-33: the global generator [Random::rand] is constructed with [reseed(0)]. *)
Definition rnd_global (sec usec : Z) : Z := rnd_reseed 0 sec usec.
(** Random.cc:48-52 [reset]: the stored seed is [seed & 0xffffffffffff]. *)
Definition rnd_reset (stored_seed : Z) : Z := rnd_init stored_seed.
(** The values drawn from a state, in order. *)
Definition rnd_stream (state : Z) : stream := fun n => Nat.iter (S n) lcg state.

(** Random.hh:114-120 [i32(a, b)]: [floor(x * (b - a + 1) + a)] with x = raw / 2^48. *)
Definition i32 (a b : Z) (s : stream) : Z * stream := (s_hd s * (b - a + 1) / two48 + a, s_tl s).

(** ** kofn.cc *)
(** kofn.cc:5-21 [_kOfN_largeK], the loop from [i] with [j] values chosen so far; [left] = n - i.
    [x < prob] is [raw / 2^48 < (k - j) / (n - i)]. *)
Fixpoint large_loop (left : nat) (i k j : Z) (s : stream) : list Z * stream :=
  match left with
  | O => ([], s)
  | S left' =>
    if s_hd s * Z.of_nat left <? (k - j) * two48
    then let (l, s') := large_loop left' (i + 1) k (j + 1) (s_tl s) in (i :: l, s')
    else large_loop left' (i + 1) k j (s_tl s)
  end.
Definition kofn_large (k n : Z) (s : stream) : res (list Z * stream) :=
  if negb ((0 <? k) && (k <=? n)) then Err AssertionError
  else let (l, s') := large_loop (Z.to_nat n) 0 k 0 s in
       if Z.of_nat (length l) =? k then Ok (l, s') else Err AssertionError.

(** kofn.cc:38-45: how many of the [k] go to the left half; [i] counts the iterations. *)
Fixpoint split_k (todo : nat) (i n leftN leftK : Z) (s : stream) : Z * stream :=
  match todo with
  | O => (leftK, s)
  | S todo =>
    let (x, s) := i32 0 (n - i - 1) s in
    split_k todo (i + 1) n leftN (if x <? leftN - leftK then leftK + 1 else leftK) s
  end.
(** kofn.cc:23-51 [_kOfN_smallK]. *)
Fixpoint kofn_small (fuel : nat) (k n : Z) (s : stream) : res (list Z * stream) :=
  match fuel with
  | O => Err NullDereference (* unreachable with fuel >= n, see the theorems *)
  | S fuel =>
    if negb ((0 <? k) && (k <=? n)) then Err AssertionError
    else if k =? 1 then let (x, s) := i32 0 (n - 1) s in Ok ([x], s)
    else
      let leftN := n / 2 in
      let rightN := n - leftN in
      let (leftK, s) := split_k (Z.to_nat k) 0 n leftN 0 s in
      let rightK := k - leftK in
      bind (if 0 <? leftK then kofn_small fuel leftK leftN s else Ok ([], s)) (fun '(l, s) =>
      bind (if 0 <? rightK then kofn_small fuel rightK rightN s else Ok ([], s)) (fun '(r, s) =>
      Ok (l ++ map (fun v => v + leftN) r, s)))
  end.
(** kofn.cc:53-68 [kOfN]; [k * log2(k) < n / 2] is [k^k < 2^(n/2)]. *)
Definition kofn (k n : Z) (s : stream) : res (list Z * stream) :=
  if negb ((0 <=? k) && (0 <=? n)) then Err AssertionError
  else if k =? 0 then Ok ([], s)
  else if k ^ k <? 2 ^ (n / 2) then kofn_small (S (Z.to_nat n)) k n s
  else kofn_large k n s.

(** ** match.cc *)
Definition multiplier : Z := 100.
Definition degree : Z := 6.
(** [ceil(sqrt(q))]. *)
Definition ceil_sqrt (q : Q) : Z := Z.sqrt_up (Qceiling q).
(** [(int) rint(sqrt(d2) * 100)]. *)
Definition rint_sqrt (n : Z) : Z := let s := Z.sqrt n in if s * (s + 1) <? n then s + 1 else s.
Definition weight (d2 : Z) : Z := rint_sqrt (d2 * (multiplier * multiplier)).

Definition pixel : Type := (Z * Z)%type. (* (x, y) *)
Definition pix_eqb (p q : pixel) : bool := (fst p =? fst q) && (snd p =? snd q).
(** [for x ... for y ...] *)
Definition colmajor (h w : nat) : list pixel := flat_map (fun x => map (fun y => (x, y)) (zseq h)) (zseq w).
(** [for u = -r .. r]. *)
Definition window (r : Z) : list Z := map (fun k => k - r) (zseq (Z.to_nat (2 * r + 1))).
Definition dist2 (p q : pixel) : Z := (fst p - fst q) * (fst p - fst q) + (snd p - snd q) * (snd p - snd q).

Section Match.
Variable h w : nat.
Variable b1 b2 : image bool.
(** Squares of [maxDist] and [outlierCost]. *)
Variable md2 oc2 : Q.

Definition at1 (p : pixel) : bool := px false b1 (snd p) (fst p).
Definition at2 (p : pixel) : bool := px false b2 (snd p) (fst p).
(** match.cc:60-61. *)
Definition radius : Z := ceil_sqrt md2.
(** match.cc:72-79 (loops over v, then u): the pixels inspected around (x1, y1). *)
Definition around_vu (p : pixel) : list pixel :=
  flat_map (fun v => flat_map (fun u =>
    if negb (Qle_bool (inject_Z (u * u + v * v)) md2) then []
    else if inb h w (snd p + v) (fst p + u) then [(fst p + u, snd p + v)] else [])
    (window radius)) (window radius).
(** match.cc:119-126 (loops over u, then v). *)
Definition around_uv (p : pixel) : list pixel :=
  flat_map (fun u => flat_map (fun v =>
    if negb (Qle_bool (inject_Z (u * u + v * v)) md2) then []
    else if inb h w (snd p + v) (fst p + u) then [(fst p + u, snd p + v)] else [])
    (window radius)) (window radius).
(** match.cc:69-86: the pairs for which [matchable1] and [matchable2] are set. *)
Definition hits : list (pixel * pixel) :=
  flat_map (fun p : Z * Z =>
    let p1 := (snd p, fst p) in
    if at1 p1 then flat_map (fun p2 => if at2 p2 then [(p1, p2)] else []) (around_vu p1) else [])
    (coords h w).
Definition matchable1 (p : pixel) : bool := existsb (fun e => pix_eqb (fst e) p) hits.
Definition matchable2 (p : pixel) : bool := existsb (fun e => pix_eqb (snd e) p) hits.
(** match.cc:88-112: [nodeToPix1], [nodeToPix2]; node ids are positions. *)
Definition nodes1 : list pixel := filter matchable1 (colmajor h w).
Definition nodes2 : list pixel := filter matchable2 (colmajor h w).
Fixpoint index_of (p : pixel) (l : list pixel) : nat :=
  match l with [] => O | q :: l => if pix_eqb q p then O else S (index_of p l) end.
Definition n1 : nat := length nodes1.
Definition n2 : nat := length nodes2.
(** match.cc:114-139: the real edges (with their squared length). *)
Definition real_edges : list (nat * nat * Z) :=
  flat_map (fun p1 => if matchable1 p1 then
      flat_map (fun p2 => if matchable2 p2 then [(index_of p1 nodes1, index_of p2 nodes2, dist2 p1 p2)] else [])
        (around_uv p1)
    else []) (colmajor h w).

(** match.cc:141-150. *)
Definition nmin : nat := Nat.min n1 n2.
Definition nmax : nat := Nat.max n1 n2.
Definition deg1 : Z := Z.max 0 (Z.min degree (Z.of_nat n1 - 1)).
Definition deg2 : Z := Z.max 0 (Z.min degree (Z.of_nat n2 - 1)).
Definition deg3 : Z := Z.min degree (Z.of_nat nmin).
(** match.cc:156-162. *)
Definition n_arcs : Z :=
  Z.of_nat (length real_edges) + deg1 * Z.of_nat n1 + deg2 * Z.of_nat n2 + deg3 * Z.of_nat nmax + Z.of_nat (n1 + n2).
(** match.cc:169-170. *)
Definition ow : Z := ceil_sqrt (oc2 * inject_Z (multiplier * multiplier)).

Definition check {A} (b : bool) (r : res A) : res A := if b then r else Err AssertionError.

(** match.cc:189-202, one node; [mk j] builds the arc. *)
Definition shift_diag (i j : Z) : Z := if i <=? j then j + 1 else j.
(** Runs [f i] for i = 0 .. n-1, collecting the arcs and threading the random stream. *)
Fixpoint sample_loop (is : list nat) (f : nat -> stream -> res (list garc * stream)) (s : stream) : res (list garc * stream) :=
  match is with
  | [] => Ok ([], s)
  | i :: is => bind (f i s) (fun '(a, s) => bind (sample_loop is f s) (fun '(r, s) => Ok (a ++ r, s)))
  end.
Definition outliers1 (i : nat) (s : stream) : res (list garc * stream) :=
  bind (kofn deg1 (Z.of_nat n1 - 1) s) (fun '(l, s) =>
    let js := map (shift_diag (Z.of_nat i)) l in
    check (forallb (fun j => negb (Z.of_nat i =? j) && (0 <=? j) && (j <? Z.of_nat n1)) js)
      (Ok (map (fun j => mkArc i (n2 + Z.to_nat j) ow) js, s))).
(** match.cc:203-216. *)
Definition outliers2 (j : nat) (s : stream) : res (list garc * stream) :=
  bind (kofn deg2 (Z.of_nat n2 - 1) s) (fun '(l, s) =>
    let is := map (shift_diag (Z.of_nat j)) l in
    check (forallb (fun i => negb (Z.of_nat j =? i) && (0 <=? i) && (i <? Z.of_nat n2)) is)
      (Ok (map (fun i => mkArc (n1 + Z.to_nat i) j ow) is, s))).
(** match.cc:217-237. *)
Definition outliers3 (i : nat) (s : stream) : res (list garc * stream) :=
  bind (kofn deg3 (Z.of_nat nmin) s) (fun '(l, s) =>
    check (forallb (fun j => (0 <=? j) && (j <? Z.of_nat nmin)) l)
      (Ok (map (fun j => if Nat.ltb n1 n2 then mkArc (n1 + i) (n2 + Z.to_nat j) ow
                         else mkArc (n1 + Z.to_nat j) (n2 + i) ow) l, s))).
(** match.cc:238-250. *)
Definition overlay : list garc :=
  map (fun i => mkArc i (n2 + i) (ow * multiplier)) (seq 0 n1) ++
  map (fun i => mkArc (n1 + i) i (ow * multiplier)) (seq 0 n2).
(** match.cc:152-259: the graph handed to the solver (node ids without the "+1" and "+1+n"
    offsets, which csa.hh:718-729 removes again). *)
Definition build_graph (s : stream) : res (list garc * stream) :=
  check ((Nat.eqb n1 0 || ((0 <=? deg1) && (deg1 <? Z.of_nat n1))) &&
         (Nat.eqb n2 0 || ((0 <=? deg2) && (deg2 <? Z.of_nat n2))) &&
         ((0 <=? deg3) && (deg3 <=? Z.of_nat nmin)) &&
         forallb (fun '(i, j, d2) => Nat.ltb i n1 && Nat.ltb j n2 && Qltb (inject_Z d2) oc2) real_edges)
  (bind (sample_loop (seq 0 n1) outliers1 s) (fun '(o1, s) =>
   bind (sample_loop (seq 0 n2) outliers2 s) (fun '(o2, s) =>
   bind (sample_loop (seq 0 nmax) outliers3 s) (fun '(o3, s) =>
   let g := map (fun '(i, j, d2) => mkArc i j (weight d2)) real_edges ++ o1 ++ o2 ++ o3 ++ overlay in
   check ((Z.of_nat (length g) =? n_arcs) &&
          forallb (fun a => Nat.ltb (a_tail a) (n1 + n2) && Nat.ltb (a_head a) (n1 + n2)) g)
     (Ok (g, s)))))).

(** match.cc:306-320: the pairs of real nodes, as pixels, in the order of the left nodes. *)
Definition decode_pairs (l : list (nat * Z)) : list (pixel * pixel) :=
  flat_map (fun '(i, (j, _)) =>
    if Nat.ltb i n1 && Nat.ltb j n2 then [(nth i nodes1 (-1, -1), nth j nodes2 (-1, -1))] else [])
    (combine (seq 0 (length l)) l).
(** match.cc:272-295: the assertions on the solution. *)
Definition check_solution (l : list (nat * Z)) : bool :=
  forallb (fun '(i, (j, c)) =>
    Nat.ltb j (n1 + n2) && (0 <=? c) &&
    (if Nat.ltb i n1 && Nat.ltb j n2
     then weight (dist2 (nth i nodes1 (-1, -1)) (nth j nodes2 (-1, -1))) =? c else true))
    (combine (seq 0 (length l)) l).

(** The arrays [match1], [match2]: the last pair written. *)
Definition lookup1 (ps : list (pixel * pixel)) (p : pixel) : option pixel :=
  fold_left (fun r e => if pix_eqb (fst e) p then Some (snd e) else r) ps None.
Definition lookup2 (ps : list (pixel * pixel)) (p : pixel) : option pixel :=
  fold_left (fun r e => if pix_eqb (snd e) p then Some (fst e) else r) ps None.
(** match.cc:321-334: [m1], [m2]. *)
Definition code (q : pixel) : Z := fst q * Z.of_nat h + snd q + 1.
Definition code_map (b : image bool) (look : pixel -> option pixel) : image Z :=
  tab h w (fun y x => if px false b y x then match look (x, y) with Some q => code q | None => 0 end else 0).
(** match.cc:336-359: the cost is outlierCost times the first number plus half the sum of the
    square roots of the listed squared distances. *)
Record cost := mkCost { c_outliers : nat; c_halves : list Z }.
Definition cost_side (b : image bool) (look : pixel -> option pixel) : cost :=
  let ps := filter (fun p => px false b (snd p) (fst p)) (colmajor h w) in
  mkCost (length (filter (fun p => match look p with None => true | _ => false end) ps))
         (flat_map (fun p => match look p with Some q => [dist2 p q] | None => [] end) ps).
Definition cost_add (a b : cost) : cost := mkCost (c_outliers a + c_outliers b) (c_halves a ++ c_halves b).

Record outcome := mkOut { m1 : image Z; m2 : image Z; total : cost }.
Definition nothing : outcome := mkOut (tab h w (fun _ _ => 0)) (tab h w (fun _ _ => 0)) (mkCost 0 []).

(** match.cc:27-363 [matchEdgeMaps] (shapes already compared). [None]: solver out of fuel. *)
Definition match_edge_maps (fuel pfuel : nat) (s : stream) : res (option (outcome * stream)) :=
  check (Qle_bool 0 md2 && Qltb md2 oc2)
  (if n_arcs =? 0 then Ok (Some (nothing, s))
   else
     bind (build_graph s) (fun '(g, s) =>
     bind (csa_solve fuel pfuel (n1 + n2) g) (fun r =>
       match r with
       | None => Ok None
       | Some l =>
         check (Nat.eqb (length l) (n1 + n2) && check_solution l)
         (let ps := decode_pairs l in
          Ok (Some (mkOut (code_map b1 (lookup1 ps)) (code_map b2 (lookup2 ps))
                          (cost_add (cost_side b1 (lookup1 ps)) (cost_side b2 (lookup2 ps))), s)))
       end))).
End Match.

(** ** correspond_pixels.pyx:51-66 and 18-49.
    [maxDist = max_dist * idiag] and [outlierCost = outlier_cost * max_dist * idiag] with
    [idiag = sqrt(rows^2 + cols^2)]. *)
Definition diag2 (h w : nat) : Z := Z.of_nat h * Z.of_nat h + Z.of_nat w * Z.of_nat w.
Definition correspond_pixels (img0 img1 : image bool) (max_dist outlier_cost : Q) (fuel pfuel : nat) (s : stream)
    : res (option (outcome * stream)) :=
  if negb (Nat.eqb (ht img0) (ht img1) && Nat.eqb (wd img0) (wd img1)) then Err ValueError
  else if Qle_bool max_dist 0 then Err ValueError
  else if Qle_bool outlier_cost 1 then Err ValueError
  else
    let d := inject_Z (diag2 (ht img0) (wd img0)) in
    match_edge_maps (ht img0) (wd img0) img0 img1
      (max_dist * max_dist * d)%Q (outlier_cost * outlier_cost * (max_dist * max_dist) * d)%Q fuel pfuel s.
