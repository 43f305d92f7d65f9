(** What the converted SBD files hold, in terms of the annotated segmentations. *)
From Verif Require Export SpecEdges SpecConvert SpecSamples ModelSBD.
Open Scope Z_scope.
Open Scope list_scope.

(** At least five pixels away from all four sides. *)
Definition interior (im : image Z) (y x : Z) : Prop :=
  5 <= y /\ 5 <= x /\ y + 5 < Z.of_nat (ht im) /\ x + 5 < Z.of_nat (wd im).
Definition interiorb (im : image Z) (y x : Z) : bool :=
  (5 <=? y) && (5 <=? x) && (y + 5 <? Z.of_nat (ht im)) && (x + 5 <? Z.of_nat (wd im)).
(** The segmentation with label 21 in the border. *)
Definition bordered (seg : image Z) : image Z := tab (ht seg) (wd seg) (fun y x => if interiorb seg y x then px 0 seg y x else 21).
(** The pixels of class [c] outside the border; the pixels that do not count. *)
Definition class_region (seg : image Z) (c : Z) : image Z := tab (ht seg) (wd seg) (fun y x => b2z (interiorb seg y x && (px 0 seg y x =? c))).
Definition void_region (seg : image Z) : image Z := tab (ht seg) (wd seg) (fun y x => b2z (negb (interiorb seg y x) || (px 0 seg y x =? 21))).
(** All pixels of instance [i] (numbered from 1), border included. *)
Definition instance_region (iseg : image Z) (i : Z) : image Z := tab (ht iseg) (wd iseg) (fun y x => b2z (px 0 iseg y x =? i)).

(** The sparse boundary maps fit the segmentation (files can be loaded). *)
Definition fits (seg : image Z) (l : list csc) : Prop := Forall (fun s => sp_h s = ht seg /\ sp_w s = wd seg) l.
(** A pair of annotation files of one image: segmentations of one size, categories between 1 and 20, at
    most 1000 instances. *)
Definition sbd_class_file (m : cls_mat) : Prop := wf (c_seg m) /\ (22 <= ht (c_seg m))%nat /\ fits (c_seg m) (c_bdry m).
Definition sbd_pair (m : cls_mat) (i : inst_mat) : Prop :=
  sbd_class_file m /\ wf (i_seg i) /\ ht (i_seg i) = ht (c_seg m) /\ wd (i_seg i) = wd (c_seg m) /\ fits (i_seg i) (i_bdry i) /\
  (forall c, In c (i_cats i) -> 1 <= c <= 20) /\ (List.length (i_cats i) <= 1000)%nat.

(** Pixel (y, x) is an edge of class [c]: the band around the class region ... *)
Definition semantic_edge (m : cls_mat) (radius c : Z) (y x : Z) : Prop :=
  boundary_spec (class_region (c_seg m) c) (void_region (c_seg m)) radius y x.
(** ... and, if the class has pixels outside the border, around each of its instances (of the categories
    listed as present). *)
Definition instance_edge (m : cls_mat) (i : inst_mat) (radius c : Z) (y x : Z) : Prop :=
  (exists y x, interior (c_seg m) y x /\ px 0 (c_seg m) y x = c) /\
  (semantic_edge m radius c y x \/
   In c (c_present m) /\ exists k, (k < List.length (i_cats i))%nat /\ nth k (i_cats i) 0 = c /\
     (exists y x, inb (ht (i_seg i)) (wd (i_seg i)) y x = true /\ px 0 (i_seg i) y x = Z.of_nat k + 1) /\
     boundary_spec (instance_region (i_seg i) (Z.of_nat k + 1)) (void_region (c_seg m)) radius y x).

(** A stack of 20 edge maps given pixel by pixel. *)
Definition edge_maps (h w : nat) (e : stack) (edge : Z -> Z -> Z -> Prop) : Prop :=
  wf_stack e /\ s_h e = h /\ s_w e = w /\ List.length (chans e) = 20%nat /\
  forall c y x, 1 <= c <= 20 -> inb h w y x = true ->
    (px 0 (channel e (c - 1)) y x = 0 \/ px 0 (channel e (c - 1)) y x = 1) /\ (px 0 (channel e (c - 1)) y x = 1 <-> edge c y x).
(** Every map is the thinning of the corresponding map. *)
Definition thinned_maps (e t : stack) : Prop :=
  wf_stack t /\ s_h t = s_h e /\ s_w t = s_w e /\ List.length (chans t) = 20%nat /\
  forall c, 1 <= c <= 20 -> exists r, binary_thin None (Raw (channel e (c - 1))) = Some r /\
    forall y x, inb (s_h e) (s_w e) y x = true -> px 0 (channel t (c - 1)) y x = b2z (px false (as_bool r) y x).
(** A picture that decodes to 20 edge maps. *)
Definition holds20 (p : picture) (e : stack) : Prop := match p with Colour im => decode_png im 20 = e | Gray _ => False end.
(** The instance map written: instance [k] of category [c] has number 1000 c + (its rank among the instances
    of the category), everything else 0. *)
Definition instance_numbers (m : cls_mat) (i : inst_mat) (im : image Z) : Prop :=
  wf im /\ ht im = ht (i_seg i) /\ wd im = wd (i_seg i) /\
  forall y x, inb (ht im) (wd im) y x = true ->
    let v := px 0 (i_seg i) y x in let k := Z.to_nat (v - 1) in let c := nth k (i_cats i) 0 in
    (1 <= v <= Z.of_nat (List.length (i_cats i)) -> In c (c_present m) -> px 0 im y x = 1000 * c + rank c (i_cats i) k) /\
    (~ (1 <= v <= Z.of_nat (List.length (i_cats i)) /\ In c (c_present m)) -> px 0 im y x = 0).

(** The files of a sample. *)
Definition class_mat_file (root n : text) : text := root ++ lit "/cls_orig/" ++ n ++ lit ".mat".
Definition instance_mat_file (root n : text) : text := root ++ lit "/inst_orig/" ++ n ++ lit ".mat".
Definition sbd_file (root out n sfx : text) : text := root ++ lit "/" ++ out ++ lit "/" ++ n ++ sfx.

(** The suffixes of the files written for each sample. *)
Definition sbd_suffixes : list text :=
  [lit "_raw_edge.png"; lit "_raw_isedge.png"; lit "_labelIds.png"; lit "_trainIds.png"; lit "_instanceIds.png"; lit "_thin_edge.png"; lit "_thin_isedge.png"].
(** What the file with a suffix holds. *)
Definition sbd_content (m : cls_mat) (i : inst_mat) (sfx : text) (p : picture) : Prop :=
  let maps := edge_maps (ht (c_seg m)) (wd (c_seg m)) in
  (sfx = lit "_raw_edge.png" -> exists e, maps e (semantic_edge m 2) /\ holds20 p e) /\
  (sfx = lit "_raw_isedge.png" -> exists e, maps e (instance_edge m i 2) /\ holds20 p e) /\
  (sfx = lit "_thin_edge.png" -> exists e t, maps e (semantic_edge m 1) /\ thinned_maps e t /\ holds20 p t) /\
  (sfx = lit "_thin_isedge.png" -> exists e t, maps e (instance_edge m i 1) /\ thinned_maps e t /\ holds20 p t) /\
  (sfx = lit "_labelIds.png" -> p = Gray (bordered (c_seg m))) /\
  (sfx = lit "_trainIds.png" -> exists im, p = Gray im /\ wf im /\ ht im = ht (c_seg m) /\ wd im = wd (c_seg m) /\
     forall y x, inb (ht im) (wd im) y x = true -> let v := px 0 (c_seg m) y x in
       px 0 im y x = if interiorb (c_seg m) y x && (1 <=? v) && (v <=? 20) then v - 1 else 255) /\
  (sfx = lit "_instanceIds.png" -> exists im, p = Gray im /\ instance_numbers m i im).
(** The annotation files of a sample are there. *)
Definition annotated (d : mats) (root n : text) (m : cls_mat) (i : inst_mat) : Prop :=
  d (class_mat_file root n) = Some (ClsMat m) /\ d (instance_mat_file root n) = Some (InstMat i) /\ sbd_pair m i.
(** The directories are there. *)
Definition sbd_dirs (dirs : text -> bool) (root out : text) : Prop :=
  dirs (root ++ lit "/" ++ out) = true /\ dirs (root ++ lit "/cls_orig") = true /\ dirs (root ++ lit "/inst_orig") = true.

(** ** Annotated boundaries *)
(** A sparse matrix given column by column as (row, value) entries. *)
Fixpoint starts (a : nat) (cols : list (list (Z * Z))) : list nat :=
  a :: match cols with [] => [] | c :: cols => starts (a + List.length c) cols end.
Definition csc_of (h : nat) (cols : list (list (Z * Z))) : csc :=
  mkCsc h (List.length cols) (starts 0 cols) (map fst (List.concat cols)) (map snd (List.concat cols)).
(** Pixel (y, x) of boundary map [k] (from 0). *)
Definition marked (l : list csc) (k : nat) (y x : Z) : Prop :=
  exists s, nth_error l k = Some s /\ px 0 (sparse2numpy s) y x = 1.
Definition binary_maps (l : list csc) : Prop := forall s y x, In s l -> px 0 (sparse2numpy s) y x = 0 \/ px 0 (sparse2numpy s) y x = 1.
(** [b] has one map for each entry of [l], with edges as given. *)
Definition maps_are (h w n : nat) (b : stack) (edge : Z -> Z -> Z -> Prop) : Prop :=
  wf_stack b /\ binary_stack b /\ s_h b = h /\ s_w b = w /\ List.length (chans b) = n /\
  forall c y x, 1 <= c <= Z.of_nat n -> inb h w y x = true -> (px 0 (channel b (c - 1)) y x = 1 <-> edge c y x).

(** ** The re-annotated images *)
Definition reanno_folder (thin : bool) : text := if thin then lit "gt_reanno_thin" else lit "gt_reanno_raw".
Definition reanno_suffix (thin inst : bool) : text :=
  match thin, inst with
  | false, false => lit "_reanno_raw_edge.png"
  | false, true => lit "_reanno_raw_isedge.png"
  | true, false => lit "_reanno_thin_edge.png"
  | true, true => lit "_reanno_thin_isedge.png"
  end.
(** Two annotation files of one image: 20 boundary maps each, all of the size of the segmentation. *)
Definition reanno_pair (m : cls_mat) (i : inst_mat) : Prop :=
  fits (c_seg m) (c_bdry m) /\ fits (i_seg i) (i_bdry i) /\ ht (i_seg i) = ht (c_seg m) /\ wd (i_seg i) = wd (c_seg m) /\
  binary_maps (c_bdry m) /\ binary_maps (i_bdry i) /\ List.length (c_bdry m) = 20%nat /\ List.length (i_bdry i) = 20%nat /\
  incl (i_cats i) (c_present m) /\ (forall c, In c (c_present m) -> 1 <= c <= 20).
Definition reannotated (d : mats) (root : text) (thin : bool) (n : text) (m : cls_mat) (i : inst_mat) : Prop :=
  d (root ++ lit "/" ++ reanno_folder thin ++ lit "/cls/" ++ n ++ lit ".mat") = Some (ClsMat m) /\
  d (root ++ lit "/" ++ reanno_folder thin ++ lit "/inst/" ++ n ++ lit ".mat") = Some (InstMat i) /\ reanno_pair m i.
(** Class maps, for the instance-sensitive file united with the instance maps of the present categories. *)
Definition reanno_content (m : cls_mat) (i : inst_mat) (inst : bool) (p : picture) : Prop :=
  exists e, holds20 p e /\ maps_are (ht (c_seg m)) (wd (c_seg m)) 20 e (fun c y x =>
    marked (c_bdry m) (Z.to_nat (c - 1)) y x \/ inst = true /\ In c (c_present m) /\ marked (i_bdry i) (Z.to_nat (c - 1)) y x).
Definition reanno_dirs (dirs : text -> bool) (root out : text) : Prop :=
  dirs (root ++ lit "/" ++ out) = true /\
  forall thin, dirs (root ++ lit "/" ++ reanno_folder thin) = true /\
    dirs (root ++ lit "/" ++ reanno_folder thin ++ lit "/cls") = true /\ dirs (root ++ lit "/" ++ reanno_folder thin ++ lit "/inst") = true.
