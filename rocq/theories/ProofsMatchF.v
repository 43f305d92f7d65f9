(** The rounded correspondence (ModelMatchF.v) against the one with an exact graph (ModelMatch64.v). *)
From Verif Require Import ProofsMatch5 SpecMatch SpecCorrespond ModelMatchF ProofsFloat ProofsCSA64 ProofsMatch64.
From Coq Require Import Lia Lra Psatz Qreals ZifyBool ZifyNat.
Open Scope Z_scope.
Open Scope list_scope.

Lemma Rleb_true a b : Rleb a b = true <-> (a <= b)%R.
Proof.
  unfold Rleb. split; intros H.
  - apply negb_true_iff, Rltb_false in H. exact H.
  - apply negb_true_iff, Rltb_false, H.
Qed.
Lemma Rleb_false a b : Rleb a b = false <-> (b < a)%R.
Proof.
  unfold Rleb. split; intros H.
  - apply negb_false_iff, Rltb_true in H. exact H.
  - apply negb_false_iff, Rltb_true, H.
Qed.

(** ** Windows *)
Lemma zseq_snoc n : zseq (S n) = zseq n ++ [Z.of_nat n].
Proof. unfold zseq. rewrite seq_S, map_app. reflexivity. Qed.
Lemma zseq_cons n : zseq (S n) = 0 :: map (fun k => k + 1) (zseq n).
Proof. unfold zseq. cbn [seq map]. f_equal. rewrite <- seq_shift, !map_map. apply map_ext. intros k. lia. Qed.
Lemma window_succ r : 0 <= r -> window (r + 1) = (- (r + 1)) :: window r ++ [r + 1].
Proof.
  intros H. unfold window. replace (Z.to_nat (2 * (r + 1) + 1)) with (S (S (Z.to_nat (2 * r + 1)))) by lia.
  rewrite zseq_cons, zseq_snoc. rewrite map_cons, map_map, map_app. cbn [map app]. f_equal. f_equal; [apply map_ext; intros k; lia|]. f_equal. lia.
Qed.
Lemma flat_map_wider {A} (f : Z -> list A) m r : 0 <= m -> m <= r -> (forall v, m < Z.abs v -> f v = []) -> flat_map f (window r) = flat_map f (window m).
Proof.
  intros H0 H Hf. replace r with (m + Z.of_nat (Z.to_nat (r - m))) by lia. generalize (Z.to_nat (r - m)). clear r H. intros n. induction n as [|n IH]; [rewrite Z.add_0_r; reflexivity|].
  rewrite Nat2Z.inj_succ. replace (m + Z.succ (Z.of_nat n)) with (m + Z.of_nat n + 1) by lia. rewrite window_succ by lia. cbn [flat_map]. rewrite flat_map_app, IH. cbn [flat_map].
  rewrite !Hf by lia. rewrite app_nil_r. reflexivity.
Qed.
Lemma flat_map_windows {A} (f : Z -> list A) r r' : 0 <= r -> 0 <= r' -> (forall v, f v <> [] -> Z.abs v <= r /\ Z.abs v <= r') -> flat_map f (window r) = flat_map f (window r').
Proof.
  intros H H' Hf. assert (Hm : forall v, Z.min r r' < Z.abs v -> f v = []).
  { intros v L. destruct (f v) as [|x l] eqn:E; [reflexivity|]. destruct (Hf v) as [X Y]; [rewrite E; discriminate|]. lia. }
  rewrite (flat_map_wider f (Z.min r r') r), (flat_map_wider f (Z.min r r') r'); try lia; [reflexivity|exact Hm|exact Hm].
Qed.
Lemma flat_map_nil {A B} (f : A -> list B) l : (forall x, In x l -> f x = []) -> flat_map f l = [].
Proof. induction l as [|x l IH]; intros H; [reflexivity|]. cbn [flat_map]. rewrite (H x (or_introl eq_refl)), IH; [reflexivity|]. intros y Hy. apply H. right. exact Hy. Qed.
Lemma double_windows {A} (g : Z -> Z -> list A) r r' : 0 <= r -> 0 <= r' -> (forall a b, g a b <> [] -> Z.abs a <= r /\ Z.abs a <= r' /\ Z.abs b <= r /\ Z.abs b <= r') ->
  flat_map (fun a => flat_map (g a) (window r)) (window r) = flat_map (fun a => flat_map (g a) (window r')) (window r').
Proof.
  intros H H' Hg. assert (E : forall a, flat_map (g a) (window r) = flat_map (g a) (window r')).
  { intros a. apply flat_map_windows; try assumption. intros b Hb. destruct (Hg a b Hb) as (_ & _ & X & Y). split; assumption. }
  rewrite (flat_map_ext _ _ E). apply flat_map_windows; try assumption. intros a Ha. destruct (Z_le_gt_dec (Z.abs a) r) as [L|L].
  - destruct (Z_le_gt_dec (Z.abs a) r') as [L'|L']; [split; assumption|]. exfalso. apply Ha. apply flat_map_nil. intros b _. destruct (g a b) eqn:Eb; [reflexivity|]. destruct (Hg a b) as (_ & X & _); [rewrite Eb; discriminate|lia].
  - exfalso. apply Ha. apply flat_map_nil. intros b _. destruct (g a b) eqn:Eb; [reflexivity|]. destruct (Hg a b) as (X & _); [rewrite Eb; discriminate|lia].
Qed.

(** ** The same graph *)
Section Same.
Variable h w : nat.
Variable b1 b2 : image bool.
Variable md oc : R.
Variable md2 oc2 : Q.
Hypothesis W1 : wf b1.
Hypothesis W2 : wf b2.
Hypothesis Eh1 : ht b1 = h.
Hypothesis Ew1 : wd b1 = w.
Hypothesis Eh2 : ht b2 = h.
Hypothesis Ew2 : wd b2 = w.
Hypothesis Hmd : (0 <= md2)%Q.
Hypothesis Hoc : (md2 < oc2)%Q.
Hypothesis Hmd' : (0 <= md)%R.
Hypothesis Hoc' : (md < oc)%R.
Hypothesis Close : forall u v, fclose md u v = Qle_bool (inject_Z (u * u + v * v)) md2.
Hypothesis Cover : forall u v, fclose md u v = true -> Z.abs u <= Zceil md /\ Z.abs v <= Zceil md.
Hypothesis Ow : fow oc = ow oc2.
Hypothesis Below : forall d, 0 <= d -> (inject_Z d <= md2)%Q -> (fsqrt (IZR d) < oc)%R.
Hypothesis Weight : forall d, 0 <= d <= diag2 h w -> fweight d = weight d.

Lemma radius_nonneg : 0 <= fradius md.
Proof. unfold fradius. apply le_IZR. eapply Rle_trans; [exact Hmd'|apply Zceil_ub]. Qed.
Lemma exact_radius_nonneg : 0 <= radius md2.
Proof. unfold radius, ceil_sqrt. apply Z.sqrt_up_nonneg. Qed.
Lemma covered u v : Qle_bool (inject_Z (u * u + v * v)) md2 = true -> Z.abs u <= fradius md /\ Z.abs u <= radius md2 /\ Z.abs v <= fradius md /\ Z.abs v <= radius md2.
Proof.
  intros E. assert (F := E). rewrite <- Close in F. destruct (Cover u v F) as [A B]. apply Qle_bool_iff in E.
  assert (Eu : (inject_Z (u * u) <= md2)%Q) by (eapply Qle_trans; [|exact E]; rewrite <- Zle_Qle; assert (X := Z.square_nonneg v); lia).
  assert (Ev : (inject_Z (v * v) <= md2)%Q) by (eapply Qle_trans; [|exact E]; rewrite <- Zle_Qle; assert (X := Z.square_nonneg u); lia).
  apply square_le_ceil_sqrt in Eu, Ev. unfold radius. unfold fradius. lia.
Qed.
Lemma faround_vu_eq p : faround_vu h w md p = around_vu h w md2 p.
Proof.
  unfold faround_vu, around_vu.
  transitivity (flat_map (fun v => flat_map (fun u => if negb (Qle_bool (inject_Z (u * u + v * v)) md2) then []
    else if inb h w (snd p + v) (fst p + u) then [(fst p + u, snd p + v)] else []) (window (fradius md))) (window (fradius md))).
  - apply flat_map_ext. intros v. apply flat_map_ext. intros u. rewrite Close. reflexivity.
  - apply (double_windows (fun v u => if negb (Qle_bool (inject_Z (u * u + v * v)) md2) then [] else if inb h w (snd p + v) (fst p + u) then [(fst p + u, snd p + v)] else []));
      [apply radius_nonneg|apply exact_radius_nonneg|]. intros v u. destruct (Qle_bool (inject_Z (u * u + v * v)) md2) eqn:E; cbn [negb]; [|congruence].
    intros _. destruct (covered u v E) as (A & B & C & D). tauto.
Qed.
Lemma faround_uv_eq p : faround_uv h w md p = around_uv h w md2 p.
Proof.
  unfold faround_uv, around_uv.
  transitivity (flat_map (fun u => flat_map (fun v => if negb (Qle_bool (inject_Z (u * u + v * v)) md2) then []
    else if inb h w (snd p + v) (fst p + u) then [(fst p + u, snd p + v)] else []) (window (fradius md))) (window (fradius md))).
  - apply flat_map_ext. intros u. apply flat_map_ext. intros v. rewrite Close. reflexivity.
  - apply (double_windows (fun u v => if negb (Qle_bool (inject_Z (u * u + v * v)) md2) then [] else if inb h w (snd p + v) (fst p + u) then [(fst p + u, snd p + v)] else []));
      [apply radius_nonneg|apply exact_radius_nonneg|]. intros u v. destruct (Qle_bool (inject_Z (u * u + v * v)) md2) eqn:E; cbn [negb]; [|congruence].
    intros _. destruct (covered u v E) as (A & B & C & D). tauto.
Qed.
Lemma fhits_eq : fhits h w b1 b2 md = hits h w b1 b2 md2.
Proof. unfold fhits, hits. apply flat_map_ext. intros p. cbn zeta. rewrite faround_vu_eq. reflexivity. Qed.
Lemma fnodes1_eq : fnodes1 h w b1 b2 md = nodes1 h w b1 b2 md2.
Proof. unfold fnodes1, nodes1, fmatchable1, matchable1. rewrite fhits_eq. reflexivity. Qed.
Lemma fnodes2_eq : fnodes2 h w b1 b2 md = nodes2 h w b1 b2 md2.
Proof. unfold fnodes2, nodes2, fmatchable2, matchable2. rewrite fhits_eq. reflexivity. Qed.
Lemma fn1_eq : fn1 h w b1 b2 md = n1 h w b1 b2 md2. Proof. unfold fn1, n1. rewrite fnodes1_eq. reflexivity. Qed.
Lemma fn2_eq : fn2 h w b1 b2 md = n2 h w b1 b2 md2. Proof. unfold fn2, n2. rewrite fnodes2_eq. reflexivity. Qed.
Lemma freal_edges_eq : freal_edges h w b1 b2 md = real_edges h w b1 b2 md2.
Proof.
  unfold freal_edges, real_edges. apply flat_map_ext. intros p. unfold fmatchable1, matchable1. rewrite fhits_eq, faround_uv_eq, fnodes1_eq, fnodes2_eq.
  destruct (existsb _ _); [|reflexivity]. apply flat_map_ext. intros q. unfold fmatchable2, matchable2. rewrite fhits_eq. reflexivity.
Qed.
Lemma edge_facts i j d : In (i, j, d) (real_edges h w b1 b2 md2) -> 0 <= d <= diag2 h w /\ (inject_Z d <= md2)%Q.
Proof.
  intros I. apply (in_real_edges h w b1 b2 md2 W1 W2 Eh1 Ew1 Eh2 Ew2) in I. destruct I as [(A & B & N) ->]. split; [|exact N].
  unfold d2_nodes. assert (P := nth_In (nodes1 h w b1 b2 md2) (-1, -1) A). assert (P' := nth_In (nodes2 h w b1 b2 md2) (-1, -1) B).
  set (p := nth i _ _) in *. set (q := nth j _ _) in *. clearbody p q.
  assert (Ip : inimg h w p) by (apply (in_nodes1 h w b1 b2 md2 W1 W2 Eh1 Ew1 Eh2 Ew2), (matchable1_spec h w b1 b2 md2 W1 W2 Eh1 Ew1 Eh2 Ew2) in P; apply (at1_in h w b1 W1 Eh1 Ew1), P).
  assert (Iq : inimg h w q) by (apply (in_nodes2 h w b1 b2 md2 W1 W2 Eh1 Ew1 Eh2 Ew2), (matchable2_spec h w b1 b2 md2 W1 W2 Eh1 Ew1 Eh2 Ew2) in P'; apply (at2_in h w b2 W2 Eh2 Ew2), P').
  clear - Ip Iq. unfold inimg in *. unfold inb in *. destruct p as [x y], q as [x' y']. cbn [fst snd] in *. unfold dist2, diag2. cbn [fst snd].
  assert (A : Z.abs (x - x') <= Z.of_nat w) by lia. assert (B : Z.abs (y - y') <= Z.of_nat h) by lia. clear Ip Iq. set (a := x - x') in *. set (b := y - y') in *. clearbody a b. nia.
Qed.
Lemma fbuild_graph_eq s : fbuild_graph h w b1 b2 md oc s = build_graph h w b1 b2 md2 oc2 s.
Proof.
  unfold fbuild_graph, build_graph, foutliers1, outliers1, foutliers2, outliers2, foutliers3, outliers3, foverlay, overlay, fn_arcs, n_arcs, fdeg1, deg1, fdeg2, deg2, fdeg3, deg3, fnmin, nmin, fnmax, nmax.
  rewrite freal_edges_eq, fn1_eq, fn2_eq, Ow.
  assert (E1 : forallb (fun '(i, j, d2) => Nat.ltb i (n1 h w b1 b2 md2) && Nat.ltb j (n2 h w b1 b2 md2) && Rltb (fsqrt (IZR d2)) oc) (real_edges h w b1 b2 md2) =
     forallb (fun '(i, j, d2) => Nat.ltb i (n1 h w b1 b2 md2) && Nat.ltb j (n2 h w b1 b2 md2) && Qltb (inject_Z d2) oc2) (real_edges h w b1 b2 md2)).
  { assert (F := edge_facts). induction (real_edges h w b1 b2 md2) as [|((i & j) & d) l IH]; [reflexivity|]. cbn [forallb]. rewrite IH by (intros; eapply F; right; eassumption).
    destruct (F i j d (or_introl eq_refl)) as [[D0 _] D1]. rewrite (proj2 (Rltb_true _ _) (Below d D0 D1)). rewrite (proj2 (Qltb_true (inject_Z d) oc2)) by (eapply Qle_lt_trans; [exact D1|exact Hoc]). reflexivity. }
  assert (E2 : map (fun '(i, j, d2) => mkArc i j (fweight d2)) (real_edges h w b1 b2 md2) = map (fun '(i, j, d2) => mkArc i j (weight d2)) (real_edges h w b1 b2 md2)).
  { apply map_ext_in. intros ((i & j) & d) I. rewrite Weight; [reflexivity|]. exact (proj1 (edge_facts i j d I)). }
  rewrite E1, E2. reflexivity.
Qed.
Lemma fdecode_eq l : fdecode_pairs h w b1 b2 md l = decode_pairs h w b1 b2 md2 l.
Proof. unfold fdecode_pairs, decode_pairs. rewrite fn1_eq, fn2_eq, fnodes1_eq, fnodes2_eq. reflexivity. Qed.
Lemma node_dist i j : (i < n1 h w b1 b2 md2)%nat -> (j < n2 h w b1 b2 md2)%nat -> 0 <= dist2 (nth i (nodes1 h w b1 b2 md2) (-1, -1)) (nth j (nodes2 h w b1 b2 md2) (-1, -1)) <= diag2 h w.
Proof.
  intros A B. assert (P := nth_In (nodes1 h w b1 b2 md2) (-1, -1) A). assert (P' := nth_In (nodes2 h w b1 b2 md2) (-1, -1) B).
  set (p := nth i _ _) in *. set (q := nth j _ _) in *. clearbody p q.
  assert (Ip : inimg h w p) by (apply (in_nodes1 h w b1 b2 md2 W1 W2 Eh1 Ew1 Eh2 Ew2), (matchable1_spec h w b1 b2 md2 W1 W2 Eh1 Ew1 Eh2 Ew2) in P; apply (at1_in h w b1 W1 Eh1 Ew1), P).
  assert (Iq : inimg h w q) by (apply (in_nodes2 h w b1 b2 md2 W1 W2 Eh1 Ew1 Eh2 Ew2), (matchable2_spec h w b1 b2 md2 W1 W2 Eh1 Ew1 Eh2 Ew2) in P'; apply (at2_in h w b2 W2 Eh2 Ew2), P').
  clear - Ip Iq. unfold inimg in *. unfold inb in *. destruct p as [x y], q as [x' y']. cbn [fst snd] in *. unfold dist2, diag2. cbn [fst snd].
  assert (A : Z.abs (x - x') <= Z.of_nat w) by lia. assert (B : Z.abs (y - y') <= Z.of_nat h) by lia. clear Ip Iq. set (a := x - x') in *. set (b := y - y') in *. clearbody a b. nia.
Qed.
Lemma fcheck_eq l : fcheck_solution h w b1 b2 md l = check_solution h w b1 b2 md2 l.
Proof.
  unfold fcheck_solution, check_solution. rewrite fn1_eq, fn2_eq, fnodes1_eq, fnodes2_eq. induction (combine (seq 0 (length l)) l) as [|(i & (j & c)) r IH]; [reflexivity|].
  cbn [forallb]. rewrite IH. f_equal. f_equal. destruct (Nat.ltb_spec i (n1 h w b1 b2 md2)) as [A|A]; [|reflexivity]. destruct (Nat.ltb_spec j (n2 h w b1 b2 md2)) as [B|B]; [|reflexivity].
  cbn [andb]. rewrite Weight; [reflexivity|]. apply node_dist; assumption.
Qed.
(** The rounded result, in terms of the result for the exact graph. *)
Definition round_outcome (out : outcome) (c : R) : foutcome := mkOutF (m1 out) (m2 out) c.
Lemma fmatch_eq fuel pfuel s :
  fmatch_edge_maps h w b1 b2 md oc fuel pfuel s =
  (if n_arcs h w b1 b2 md2 =? 0 then Ok (Some (round_outcome (nothing h w) 0, s)) else
   bind (build_graph h w b1 b2 md2 oc2 s) (fun '(g, s) =>
   bind (csa_solve64 fuel pfuel (n1 h w b1 b2 md2 + n2 h w b1 b2 md2) g) (fun r =>
   match r with
   | None => Ok None
   | Some l => check (Nat.eqb (List.length l) (n1 h w b1 b2 md2 + n2 h w b1 b2 md2) && check_solution h w b1 b2 md2 l)
      (Ok (Some (round_outcome (outcome_of h w b1 b2 md2 l) (fcost h w b1 b2 oc (lookup1 (decode_pairs h w b1 b2 md2 l)) (lookup2 (decode_pairs h w b1 b2 md2 l))), s)))
   end))).
Proof.
  unfold fmatch_edge_maps. rewrite check_ok by (apply andb_true_iff; split; [apply Rleb_true, Hmd'|apply Rltb_true, Hoc']).
  assert (N : fn_arcs h w b1 b2 md = n_arcs h w b1 b2 md2).
  { unfold fn_arcs, n_arcs, fdeg1, deg1, fdeg2, deg2, fdeg3, deg3, fnmin, nmin, fnmax, nmax. rewrite freal_edges_eq, fn1_eq, fn2_eq. reflexivity. }
  rewrite N. destruct (n_arcs h w b1 b2 md2 =? 0); [reflexivity|]. rewrite fbuild_graph_eq. destruct (build_graph h w b1 b2 md2 oc2 s) as [[g s']|e]; [|reflexivity]. cbn [bind].
  rewrite fn1_eq, fn2_eq. destruct (csa_solve64 fuel pfuel _ g) as [[l|]|e]; [|reflexivity|reflexivity]. cbn [bind]. rewrite fcheck_eq, fdecode_eq. reflexivity.
Qed.
End Same.
