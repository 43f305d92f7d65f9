(** pyEdgeEval/_lib/src/match.cc and correspond_pixels.pyx once more, with the binary64 solver of
    ModelCSA64.v.  Simplification: the graph is the one of ModelMatch.v, that is maxDist, the
    distances and their roundings to integer weights are still exact. *)
From Verif Require Export ModelMatch ModelCSA64.
Open Scope list_scope.

(** match.cc:27-363 [matchEdgeMaps], as ModelMatch.match_edge_maps. *)
Definition match_edge_maps64 (h w : nat) (b1 b2 : image bool) (md2 oc2 : Q) (fuel pfuel : nat) (s : stream) : res (option (outcome * stream)) :=
  let n1 := n1 h w b1 b2 md2 in
  let n2 := n2 h w b1 b2 md2 in
  check (Qle_bool 0 md2 && Qltb md2 oc2)
  (if Z.eqb (n_arcs h w b1 b2 md2) 0 then Ok (Some (nothing h w, s))
   else
     bind (build_graph h w b1 b2 md2 oc2 s) (fun '(g, s) =>
     bind (csa_solve64 fuel pfuel (n1 + n2) g) (fun r =>
       match r with
       | None => Ok None
       | Some l =>
         check (Nat.eqb (List.length l) (n1 + n2) && check_solution h w b1 b2 md2 l)
         (let ps := decode_pairs h w b1 b2 md2 l in
          Ok (Some (mkOut (code_map h w b1 (lookup1 ps)) (code_map h w b2 (lookup2 ps))
                          (cost_add (cost_side h w b1 (lookup1 ps)) (cost_side h w b2 (lookup2 ps))), s)))
       end))).

(** correspond_pixels.pyx:51-66 and 18-49, as ModelMatch.correspond_pixels. *)
Definition correspond_pixels64 (img0 img1 : image bool) (max_dist outlier_cost : Q) (fuel pfuel : nat) (s : stream)
    : res (option (outcome * stream)) :=
  if negb (Nat.eqb (ht img0) (ht img1) && Nat.eqb (wd img0) (wd img1)) then Err ValueError
  else if Qle_bool max_dist 0 then Err ValueError
  else if Qle_bool outlier_cost 1 then Err ValueError
  else
    let d := inject_Z (diag2 (ht img0) (wd img0)) in
    match_edge_maps64 (ht img0) (wd img0) img0 img1
      (max_dist * max_dist * d)%Q (outlier_cost * outlier_cost * (max_dist * max_dist) * d)%Q fuel pfuel s.
