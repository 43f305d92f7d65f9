(** Which files are compared, and what a difference is. *)
From Verif Require Export SpecPaths SpecConvert ModelCompare.
Open Scope Z_scope.
Open Scope list_scope.

(** A reference file and the file compared with it ([n]: path below the split directory, without suffix). *)
Definition reference_file (root mat split n : text) : text := root ++ lit "/" ++ mat ++ lit "/" ++ split ++ lit "/" ++ n ++ lit "_gtProc_edge.png".
Definition compared_file (root proc split n sfx : text) : text := root ++ lit "/" ++ proc ++ lit "/" ++ split ++ lit "/" ++ n ++ sfx.
(** city/name *)
Definition city_name (mat n : text) : Prop :=
  exists city base, n = city ++ lit "/" ++ base /\ component city /\ component base /\ ~ occurs mat city /\ ~ occurs (lit "_gtProc_edge.png") city /\ ~ occurs (lit "_gtProc_edge.png") base.
(** Two pictures of the same kind and size, with entries of a byte. *)
Definition alike (a b : picture) : Prop :=
  match a, b with
  | Gray a, Gray b => ht a = ht b /\ wd a = wd b
  | Colour a, Colour b => g_h a = g_h b /\ g_w a = g_w b
  | _, _ => False
  end.
(** Entry [(c, y, x)] of a picture, if it has one. *)
Definition entry (p : picture) (c y x : Z) : option Z :=
  match p with
  | Gray a => if (c =? 0) && inb (ht a) (wd a) y x then Some (px 0 a y x) else None
  | Colour a => if (0 <=? c) && (c <? 3) && inb (g_h a) (g_w a) y x then Some (px 0 (if c =? 0 then ch_r a else if c =? 1 then ch_g a else ch_b a) y x) else None
  end.
Definition bytes (p : picture) : Prop := forall c y x v, entry p c y x = Some v -> 0 <= v < 256.
(** [l] lists the entries in which the two pictures differ. *)
Definition differ_in (a b : picture) (l : list (Z * Z * Z)) : Prop := NoDup l /\ forall c y x, In (c, y, x) l <-> entry a c y x <> entry b c y x.
Definition identical (a b : picture) : Prop := forall c y x, entry a c y x = entry b c y x.
(** What should be printed for one split. *)
Definition split_report (d : disk) (root mat proc split sfx : text) (names : list text) (printed : list (text * Z)) (misses : Z) : Prop :=
  exists ks : list Z,
    Forall2 (fun n k => exists a b l, d (reference_file root mat split n) = Some a /\ d (compared_file root proc split n sfx) = Some b /\ differ_in a b l /\ k = Z.of_nat (List.length l)) names ks /\
    printed = filter (fun x : text * Z => 3 <? snd x) (combine (map (reference_file root mat split) names) ks) /\
    misses = Z.of_nat (List.length (filter (fun k => negb (k =? 0)) ks)).
(** Both files of a name are there and can be compared. *)
Definition comparable (d : disk) (root mat proc split sfx n : text) : Prop :=
  exists a b, d (reference_file root mat split n) = Some a /\ d (compared_file root proc split n sfx) = Some b /\ alike a b /\ bytes a /\ bytes b.
(** The directory names do not interfere with the replacements. *)
Definition good_layout (root mat proc : text) : Prop := directory root /\ component mat /\ component proc /\ ~ occurs mat root /\ ~ occurs mat (lit "train") /\ ~ occurs mat (lit "val") /\
  ~ occurs (lit "_gtProc_edge.png") root /\ ~ occurs (lit "_gtProc_edge.png") proc.
