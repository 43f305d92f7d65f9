(** matchEdgeMaps on its arrays (ModelArrays.v) with the solver on its memory in doubles (ModelCSAMem64.v).  Simplification: the
    graph is built from exact distances, as in ModelArrays.v. *)
From Verif Require Export ModelArrays ModelMatch64.
From Verif Require ModelCSAMem64.
Open Scope Z_scope.
Open Scope list_scope.

(** match.cc:27-363. *)
Definition array_match_edge_maps64 (h w : nat) (b1 b2 : image bool) (md2 oc2 : Q) (fuel pfuel : nat) (s : stream) : res (option (outcome * stream)) :=
  array_match_with h w b1 b2 md2 oc2 (ModelCSAMem64.csa_mem_solve64 fuel pfuel) s.
(** correspond_pixels.pyx:51-66 and 18-49, as [correspond_pixels64] in ModelMatch64.v. *)
Definition array_correspond_pixels64 (img0 img1 : image bool) (max_dist outlier_cost : Q) (fuel pfuel : nat) (s : stream)
    : res (option (outcome * stream)) :=
  if negb (Nat.eqb (ht img0) (ht img1) && Nat.eqb (wd img0) (wd img1)) then Err ValueError
  else if Qle_bool max_dist 0 then Err ValueError
  else if Qle_bool outlier_cost 1 then Err ValueError
  else
    let d := inject_Z (diag2 (ht img0) (wd img0)) in
    array_match_edge_maps64 (ht img0) (wd img0) img0 img1
      (max_dist * max_dist * d)%Q (outlier_cost * outlier_cost * (max_dist * max_dist) * d)%Q fuel pfuel s.
