(** The files an evaluation reads, by their full names. *)
From Verif Require Export SpecPaths ModelSamples.
From Coq Require Import Permutation.
Open Scope Z_scope.
Open Scope list_scope.

Definition digit (d : Z) : ascii := ascii_of_nat (48 + Z.to_nat d).
(** The prediction of a sample for a category between 1 and 99. *)
Definition prediction (pred : text) (c : Z) (name suffix : text) : text :=
  pred ++ lit "/class_0" ++ [digit (c / 10); digit (c mod 10)] ++ lit "/" ++ name ++ suffix.
(** The edge file of a sample (without directory). *)
Definition edge_name (k : kind) (thin inst : bool) : text :=
  match k, thin, inst with
  | SBD, false, false => lit "_raw_edge.png" | SBD, true, false => lit "_thin_edge.png"
  | SBD, false, true => lit "_raw_isedge.png" | SBD, true, true => lit "_thin_isedge.png"
  | Reanno, false, false => lit "_reanno_raw_edge.png" | Reanno, true, false => lit "_reanno_thin_edge.png"
  | Reanno, false, true => lit "_reanno_raw_isedge.png" | Reanno, true, true => lit "_reanno_thin_isedge.png"
  | Half, false, false => lit "_gtProc_half_raw_edge.png" | Half, true, false => lit "_gtProc_half_thin_edge.png"
  | Half, false, true => lit "_gtProc_half_raw_isedge.png" | Half, true, true => lit "_gtProc_half_thin_isedge.png"
  | _, false, false => lit "_gtProc_raw_edge.png" | _, true, false => lit "_gtProc_thin_edge.png"
  | _, false, true => lit "_gtProc_raw_isedge.png" | _, true, true => lit "_gtProc_thin_isedge.png"
  end.
(** The ground truth files of a sample: [root] the dataset, [gt] the ground truth directory. *)
Definition ground_truth (k : kind) (root gt split : text) (thin inst : bool) (name : text) : gt_files :=
  match k with
  | SBD | Reanno => EdgeSeg (root ++ lit "/" ++ gt ++ lit "/" ++ name ++ edge_name k thin inst)
                            (root ++ lit "/" ++ gt ++ lit "/" ++ name ++ lit "_labelIds.png")
  | OTF => SegInst (root ++ lit "/gtFine/" ++ split ++ lit "/" ++ name ++ lit "_gtFine_labelIds.png")
                   (if inst then Some (root ++ lit "/gtFine/" ++ split ++ lit "/" ++ name ++ lit "_gtFine_instanceIds.png") else None)
  | _ => EdgeSeg (root ++ lit "/" ++ gt ++ lit "/" ++ split ++ lit "/" ++ name ++ edge_name k thin inst)
                 (root ++ lit "/" ++ gt ++ lit "/" ++ split ++ lit "/" ++ name ++ lit "_gtFine_labelTrainIds.png")
  end.
(** The directory and the suffix used, given what the caller passed. *)
Definition directory_used (given gt : text) : Prop := given = gt /\ directory gt /\ relative gt \/ given = [] /\ gt = lit "gtEval".
Definition suffix_used (k : kind) (given : option text) (suffix : text) : Prop :=
  given = Some suffix /\ suffix <> []
  \/ given = None /\ suffix = match k with SBD | Reanno => lit ".png" | _ => lit "_leftImg8bit.png" end.
(** All files of a sample list entry that must exist beforehand. *)
Definition files_of (g : gt_files) : list text :=
  match g with EdgeSeg e s => [e; s] | SegInst s (Some i) => [s; i] | SegInst s None => [s] end.

(** ** Several processes *)
(** With several processes every one of the [n] samples is finished once, in any order; who takes it is
    arbitrary. *)
Definition all_finished (n : nat) (w : workers) : Prop := 1 < w_nproc w -> Permutation (w_finished w) (seq 0 n).
