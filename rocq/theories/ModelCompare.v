(** Comparing converted edge files with files made elsewhere
    (pyEdgeEval/helpers/convert_cityscapes.py: test_edges, test_against_matlab).

    Simplifications (also in DESIGN.md): arrays of different shapes are compared by numpy in its own ways
    (broadcasting, a single True, or an exception): the parameter [mixed]; [scandir] (C43) gives the names;
    several processes give the same list of results (C39), so only the loop is modelled. *)
From Verif Require Export ModelConvert ModelCLI.
Open Scope Z_scope.
Open Scope list_scope.

(** convert_cityscapes.py:215-219. *)
Definition test_file (edge_file orig_dir test_dir orig_suffix test_suffix : text) : text :=
  str_replace (path_join (str_replace (dirname edge_file) orig_dir test_dir) (basename edge_file)) orig_suffix test_suffix.
(** [np.count_nonzero(a != b)] of two arrays of the same shape. *)
Definition unequal (cast : Z -> Z) (a b : image Z) : Z :=
  Z.of_nat (List.length (filter (fun p : Z * Z => negb (cast (px 0 a (fst p) (snd p)) =? cast (px 0 b (fst p) (snd p)))) (coords (ht a) (wd a)))).
Definition differences (cast : Z -> Z) (a b : picture) : option Z :=
  match a, b with
  | Gray a, Gray b => if Nat.eqb (ht a) (ht b) && Nat.eqb (wd a) (wd b) then Some (unequal cast a b) else None
  | Colour a, Colour b =>
      if Nat.eqb (g_h a) (g_h b) && Nat.eqb (g_w a) (g_w b)
      then Some (unequal cast (tab (g_h a) (g_w a) (px 0 (ch_r a))) (tab (g_h a) (g_w a) (px 0 (ch_r b)))
               + unequal cast (tab (g_h a) (g_w a) (px 0 (ch_g a))) (tab (g_h a) (g_w a) (px 0 (ch_g b)))
               + unequal cast (tab (g_h a) (g_w a) (px 0 (ch_b a))) (tab (g_h a) (g_w a) (px 0 (ch_b b)))) else None
  | _, _ => None
  end.
(** convert_cityscapes.py:220-246 [test_edges]: the number of different entries and [np.array_equal]; the
    conversions to uint8 and uint32 wrap. *)
Definition test_edges (mixed : picture -> picture -> res Z) (d : disk) (edge_file orig_dir test_dir orig_suffix test_suffix : text) : res (text * Z * bool) :=
  let test := test_file edge_file orig_dir test_dir orig_suffix test_suffix in
  let ext := snd (splitext edge_file) in
  let compare bits :=
    match d edge_file, d test with
    | Some a, Some b => match differences (wrap bits) a b with
                        | Some n => Ok (edge_file, n, n =? 0)
                        | None => bind (mixed a b) (fun n => Ok (edge_file, n, false))
                        end
    | _, _ => Err FileNotFoundError
    end in
  if text_eqb ext (lit ".png") then compare 8
  else if text_eqb ext (lit ".tif") then compare 32
  else Err ValueError.
(** convert_cityscapes.py:440-449 and 470-476: what is printed for one split: the files with more than three
    different entries, then the number of files that are not equal. *)
Definition report (results : list (text * Z * bool)) : list (text * Z) * Z :=
  fold_left (fun (r : list (text * Z) * Z) (x : text * Z * bool) =>
    let '(f, diff, equal) := x in
    ((if 3 <? diff then fst r ++ [(f, diff)] else fst r), if equal : bool then snd r else snd r + 1)) results ([], 0).
(** convert_cityscapes.py:417-449 (train), 451-476 (val); [names]: what [scandir] finds. *)
Definition compare_split (mixed : picture -> picture -> res Z) (d : disk) (root mat proc test_suffix split : text) (names : list text) : res (list (text * Z) * Z) :=
  let dir := path_join (path_join root mat) split in
  bind (mapM (fun n => test_edges mixed d (path_join dir n) mat proc (lit "_gtProc_edge.png") test_suffix) names) (fun l => Ok (report l)).
(** convert_cityscapes.py:400-476 [test_against_matlab]: what has been printed, and the exception. *)
Definition test_against_matlab (mixed : picture -> picture -> res Z) (d : disk) (proc mat root : text) (inst_sensitive : bool) (ext : text) (train val : list text)
  : list (list (text * Z) * Z) * res unit :=
  if inst_sensitive then ([], Err AssertionError)
  else match compare_split mixed d root mat proc (lit "_gtProc_edge." ++ ext) (lit "train") train with
       | Err e => ([], Err e)
       | Ok t => match compare_split mixed d root mat proc (lit "_gtProc_raw_edge.png") (lit "val") val with
                 | Err e => ([t], Err e)
                 | Ok v => ([t; v], Ok tt)
                 end
       end.
