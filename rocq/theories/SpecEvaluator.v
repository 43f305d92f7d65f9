(** What the evaluation parameters must be. *)
From Verif Require Export ModelCLI SpecResults.
From Coq Require Import Sorting.Permutation.
Open Scope Z_scope.
Open Scope list_scope.

(** A call is acceptable if the scale is in (0, 1] and, for the Cityscapes evaluators, instance
    sensitivity is not combined with the pre-SEAL mode. *)
Definition valid_scale (k : kind) (c : call) : Prop := k = Half \/ (0 < c_scale c <= 1)%Q.
Definition acceptable (k : kind) (c : call) : Prop :=
  valid_scale k c /\ ~ ((k = City \/ k = Half \/ k = OTF) /\ c_mode c = Some (lit "pre-seal") /\ c_inst c = true).

(** The tolerance, the two options and the kind of edges selected by a call. *)
Definition mode_rule (k : kind) (c : call) (dist : Q) (kill skip inst : bool) : Prop :=
  match k with
  | BSDS => dist = c_dist c
  | Reanno => dist = c_dist c /\ kill = false /\ skip = false /\ inst = c_inst c
  | _ =>
    (c_mode c = Some (lit "pre-seal") -> dist = (2 # 100)%Q /\ kill = true /\ skip = true /\ inst = false) /\
    (c_mode c = Some (lit "post-seal") -> dist = (match k with SBD => 2 # 100 | _ => c_dist c end)%Q /\ inst = c_inst c /\ kill = negb inst /\ skip = negb inst) /\
    (c_mode c <> Some (lit "pre-seal") -> c_mode c <> Some (lit "post-seal") -> dist = c_dist c /\ kill = c_kill c /\ skip = c_skip c /\ inst = c_inst c)
  end.
(** The dictionary handed to the evaluation of a sample, for a call whose options are as above. *)
Definition params_rule (k : kind) (thin : bool) (c : call) (dist : Q) (kill skip : bool) (e : eparams) : Prop :=
  e_scale e = (if match k with Half => true | _ => false end then 1%Q else c_scale c) /\ e_thinning e = c_thinning c /\ e_nms e = c_nms c /\ e_dist e = dist /\
  (k = BSDS /\ e_kill e = None /\ e_skip e = None \/ k <> BSDS /\ e_kill e = Some kill /\ e_skip e = Some skip) /\
  (k = OTF /\ e_radius e = Some (if thin then 1 else 2) \/ k <> OTF /\ e_radius e = None).

(** A valid category of a dataset with [n] classes. *)
Definition valid_category (n : nat) (c : Z) : Prop := 1 <= c <= Z.of_nat n.
(** The categories asked for. *)
Definition requested (n : nat) (a : cat_arg) (l : list Z) : Prop :=
  match a with
  | CNone => l = map (fun i => i + 1) (zseq n) /\ (0 < n)%nat
  | CInt c => l = [c]
  | CList l' => l = l' /\ l' <> []
  | COther => False
  end.
(** The three files of category [c]. *)
Definition cat_file (dir : text) (c : Z) (name : text) : text := path_join (category_dir dir c) name.
(** The files of category [c] hold the result [r]. *)
Definition holds_result (s : fs) (dir : text) (c : Z) (r : cat_result) : Prop :=
  let '(rows, ths, o) := r in
  (rows <> [] -> s (cat_file dir c (lit "eval_bdry_img.txt")) = Some (List.concat (map sample_line rows))) /\
  (ths <> [] -> s (cat_file dir c (lit "eval_bdry_thr.txt")) = Some (List.concat (map threshold_line ths))) /\
  s (cat_file dir c (lit "eval_bdry.txt")) = Some (join_fields (map field (overall_fields o))).

(** A number printed with [d] decimals: a multiple of 10^-d, at most half a unit away. *)
Definition shown (d : Z) (v r : Q) : Prop :=
  exists m, (r == inject_Z m / inject_Z (10 ^ d))%Q /\ (Qabs (r - v) <= 1 / (2 * inject_Z (10 ^ d)))%Q.
(** The average of some numbers. *)
Definition average (l : list Q) (a : Q) : Prop := (a * inject_Z (Z.of_nat (List.length l)) == fold_right Qplus 0%Q l)%Q.
