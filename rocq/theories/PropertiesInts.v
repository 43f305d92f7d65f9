(** C69: 32-bit integers suffice for the matcher. *)
From Verif Require Import SpecInts SpecMatch ProofsImage ProofsKofn ProofsMatch ProofsMatch2 ProofsMatch3.
From Coq Require Import Lia ZifyBool ZifyNat Lqa.
Open Scope Z_scope.
Open Scope list_scope.

Lemma rint_sqrt_up n : rint_sqrt n <= Z.sqrt_up n.
Proof.
  unfold rint_sqrt. assert (X := Z.le_sqrt_sqrt_up n). destruct (Z.sqrt n * (Z.sqrt n + 1) <? n) eqn:E; [|lia].
  assert (Y := Z.sqrt_nonneg n). assert (N : 0 < n) by nia.
  assert (S1 := Z.sqrt_up_spec n N). rewrite <- !Z.sub_1_r in S1. nia.
Qed.
Lemma weight_le_ow d oc2 : (inject_Z d <= oc2)%Q -> weight d <= ow oc2.
Proof.
  intros H. unfold weight, ow, ceil_sqrt. etransitivity; [apply rint_sqrt_up|]. apply Z.sqrt_up_le_mono. rewrite Zle_Qle.
  eapply Qle_trans; [|apply Qle_ceiling]. rewrite inject_Z_mult. apply Qmult_le_compat_r; [exact H|]. discriminate.
Qed.
Lemma ceil_sqrt_le q k : 0 <= k -> (q <= inject_Z (k * k))%Q -> ceil_sqrt q <= k.
Proof.
  intros K H. unfold ceil_sqrt. rewrite <- (Z.sqrt_up_square k K). apply Z.sqrt_up_le_mono.
  rewrite <- (Qceiling_Z (k * k)). apply Qceiling_resp_le. exact H.
Qed.
Lemma ow_le oc2 k : 0 <= k -> (oc2 <= inject_Z (k * k))%Q -> ow oc2 <= 100 * k.
Proof.
  intros K H. unfold ow. apply ceil_sqrt_le; [lia|]. unfold multiplier.
  replace (100 * k * (100 * k)) with (k * k * (100 * 100)) by ring. rewrite (inject_Z_mult (k * k)).
  apply Qmult_le_compat_r; [exact H|discriminate].
Qed.
Lemma ceil_sqrt_ge q k : 0 <= k -> (inject_Z (k * k) < q)%Q -> k < ceil_sqrt q.
Proof.
  intros K H. unfold ceil_sqrt. assert (X : k * k < Qceiling q) by (rewrite Zlt_Qlt; eapply Qlt_le_trans; [exact H|apply Qle_ceiling]).
  apply Z.sqrt_up_lt_square; nia.
Qed.
Lemma ow_ge oc2 k : 0 <= k -> (inject_Z (k * k) < oc2)%Q -> 100 * k < ow oc2.
Proof.
  intros K H. unfold ow. apply ceil_sqrt_ge; [lia|]. unfold multiplier.
  replace (100 * k * (100 * k)) with (k * k * (100 * 100)) by ring. rewrite (inject_Z_mult (k * k)).
  apply Qmult_lt_compat_r; [reflexivity|exact H].
Qed.
Lemma colmajor_length h w : length (colmajor h w) = (h * w)%nat.
Proof.
  unfold colmajor. assert (X : forall l : list Z, length (flat_map (fun x => map (fun y => (x, y)) (zseq h)) l) = (h * length l)%nat).
  { induction l as [|a l IH]; [cbn; lia|]. cbn [flat_map]. rewrite app_length, map_length, IH. unfold zseq. rewrite map_length, seq_length. cbn [length]. lia. }
  rewrite X. unfold zseq. rewrite map_length, seq_length. reflexivity.
Qed.
Lemma filter_length_le {A} (f : A -> bool) l : (length (filter f l) <= length l)%nat.
Proof. induction l as [|a l IH]; [apply le_n|]. cbn. destruct (f a); cbn; lia. Qed.
Lemma real_edges_count h w b1 b2 md2 k : 0 <= k -> at_most k md2 ->
  Z.of_nat (length (real_edges h w b1 b2 md2)) <= Z.of_nat (n1 h w b1 b2 md2) * k.
Proof.
  intros K H. unfold real_edges, n1, nodes1. set (N2 := nodes2 h w b1 b2 md2). generalize (filter (matchable1 h w b1 b2 md2) (colmajor h w)) at 1. intros N1.
  assert (A : forall p, Z.of_nat (length (flat_map (fun p2 => if matchable2 h w b1 b2 md2 p2 then [(index_of p N1, index_of p2 N2, dist2 p p2)] else [])
     (around_uv h w md2 p))) <= k).
  { intros p. transitivity (Z.of_nat (length (around_uv h w md2 p))).
    - apply inj_le. generalize (around_uv h w md2 p). intros l. induction l as [|a l IH]; [apply le_n|]. cbn [flat_map]. rewrite app_length. destruct (matchable2 h w b1 b2 md2 a); cbn [length]; lia.
    - rewrite <- (map_length (fun q : pixel => (fst q - fst p, snd q - snd p))). apply H.
      + apply FinFun.Injective_map_NoDup; [|apply (NoDup_around_uv h w md2)]. intros [a b] [c d] E. cbn [fst snd] in E. injection E as E1 E2. f_equal; lia.
      + intros u v I. apply in_map_iff in I. destruct I as ([a b] & E & I). cbn [fst snd] in E. injection E as <- <-.
        apply in_around_uv in I. destruct I as [_ I]. unfold near, dist2 in I. cbn [fst snd] in I. 
        replace ((a - fst p) * (a - fst p) + (b - snd p) * (b - snd p)) with ((fst p - a) * (fst p - a) + (snd p - b) * (snd p - b)) by ring. exact I. }
  generalize (colmajor h w). intros l. induction l as [|p l IH]; [cbn; lia|]. cbn [flat_map filter].
  rewrite app_length. specialize (A p). destruct (matchable1 h w b1 b2 md2 p); cbn [length]; lia.
Qed.

Section Fit.
Variable h w : nat.
Variable b1 b2 : image bool.
Variable md2 oc2 : Q.
Variable N k : Z.
Hypothesis W1 : wf b1.
Hypothesis W2 : wf b2.
Hypothesis Eh1 : ht b1 = h.
Hypothesis Ew1 : wd b1 = w.
Hypothesis Eh2 : ht b2 = h.
Hypothesis Ew2 : wd b2 = w.
Hypothesis Hmd : (0 <= md2)%Q.
Hypothesis Hoc : (md2 < oc2)%Q.
Hypothesis M : moderate h w b1 b2 N k md2 oc2.
Notation n1 := (n1 h w b1 b2 md2).
Notation n2 := (n2 h w b1 b2 md2).

Lemma k_nonneg : 0 <= k.
Proof. clear - M. destruct M as (_ & _ & A & _). apply (A []); [constructor|]. intros u v []. Qed.
Lemma node_counts : Z.of_nat n1 <= N /\ Z.of_nat n2 <= N.
Proof.
  destruct M as (A & B & _). unfold ModelMatch.n1, ModelMatch.n2. rewrite <- (map_length (fun p : pixel => (snd p, fst p)) (nodes1 h w b1 b2 md2)).
  rewrite <- (map_length (fun p : pixel => (snd p, fst p)) (nodes2 h w b1 b2 md2)).
  assert (J : FinFun.Injective (fun p : pixel => (snd p, fst p))) by (intros [a b] [c d] E; cbn [fst snd] in E; congruence).
  split; [apply A|apply B]; try (apply FinFun.Injective_map_NoDup; [exact J|]; apply NoDup_filter, NoDup_colmajor).
  - intros y x I. apply in_map_iff in I. destruct I as ([x' y'] & E & I). cbn [fst snd] in E. injection E as -> ->.
    apply in_nodes1 in I; try assumption. apply matchable1_spec in I; try assumption. apply I.
  - intros y x I. apply in_map_iff in I. destruct I as ([x' y'] & E & I). cbn [fst snd] in E. injection E as -> ->.
    apply in_nodes2 in I; try assumption. apply matchable2_spec in I; try assumption. apply I.
Qed.
Lemma edge_count : Z.of_nat (length (real_edges h w b1 b2 md2)) <= N * k.
Proof.
  assert (K := k_nonneg). assert (X := real_edges_count h w b1 b2 md2 k K (proj1 (proj2 (proj2 M)))). destruct node_counts as [A _]. nia.
Qed.
Lemma int32_intro z : - 2147483648 <= z < 2147483648 -> int32 z. Proof. intros X. exact X. Qed.
Lemma uint32_intro z : 0 <= z < 4294967296 -> uint32 z. Proof. intros X. exact X. Qed.
Lemma sizes : N * (k + 20) < 1431655765 /\ Z.of_nat h < 32768 /\ Z.of_nat w < 32768 /\ Z.of_nat h * Z.of_nat w < 1073741824.
Proof.
  clear - M. destruct M as (_ & _ & _ & A & B & _). change (2 ^ 32) with 4294967296 in A. change (2 ^ 30) with 1073741824 in B.
  split; [lia|]. split; [nia|]. split; nia.
Qed.
Lemma scan_fit : Forall int32 (scan_ints h w md2).
Proof.
  clear - M. destruct sizes as (_ & A & B & _). destruct M as (_ & _ & _ & _ & C & D & _). change (2 ^ 30) with 1073741824 in C.
  assert (R : 0 <= radius md2) by (unfold radius, ceil_sqrt; apply Z.sqrt_up_nonneg).
  assert (R2 : radius md2 <= 30000) by (apply ceil_sqrt_le; [lia|exact D]).
  unfold scan_ints. set (r := radius md2) in *. clearbody r. assert (r * r <= 30000 * 30000) by nia. assert (0 <= r * r) by nia.
  assert (0 <= Z.of_nat h * Z.of_nat h) by nia. assert (0 <= Z.of_nat w * Z.of_nat w) by nia.
  repeat constructor; apply int32_intro; lia.
Qed.
Lemma pieces : let P := N in let e := Z.of_nat (length (real_edges h w b1 b2 md2)) in
  let a := deg1 h w b1 b2 md2 * Z.of_nat n1 in let b := deg2 h w b1 b2 md2 * Z.of_nat n2 in let c := deg3 h w b1 b2 md2 * Z.of_nat (nmax h w b1 b2 md2) in
  0 <= P /\ 0 <= a <= 6 * P /\ 0 <= b <= 6 * P /\ 0 <= c <= 6 * P /\ 0 <= e <= P * k /\ P * k + 20 * P < 1431655765 /\ 0 <= P * k /\
  Z.of_nat n1 <= P /\ Z.of_nat n2 <= P /\ 0 <= deg1 h w b1 b2 md2 <= 6 /\ 0 <= deg2 h w b1 b2 md2 <= 6 /\ 0 <= deg3 h w b1 b2 md2 <= 6.
Proof.
  intros P e a b c. destruct node_counts as [A B]. assert (E := edge_count). fold P in A, B, E. fold e in E. destruct sizes as (S1 & _). fold P in S1.
  assert (K := k_nonneg). assert (0 <= P) by lia.
  assert (D1 : 0 <= deg1 h w b1 b2 md2 <= 6) by (unfold deg1, degree; lia).
  assert (D2 : 0 <= deg2 h w b1 b2 md2 <= 6) by (unfold deg2, degree; lia).
  assert (D3 : 0 <= deg3 h w b1 b2 md2 <= 6) by (unfold deg3, degree, nmin; lia).
  assert (X : 0 <= Z.of_nat (nmax h w b1 b2 md2) <= P) by (unfold nmax; lia).
  repeat apply conj; try lia; try (unfold a, b, c; nia).
Qed.
Lemma counts_fit : Forall int32 (count_ints h w b1 b2 md2).
Proof.
  assert (P := pieces). destruct sizes as (_ & _ & _ & HW). clear W1 W2 Eh1 Ew1 Eh2 Ew2. cbv zeta in P. unfold count_ints. cbv zeta.
  set (a := deg1 h w b1 b2 md2 * _) in *. set (b := deg2 h w b1 b2 md2 * _) in *. set (c := deg3 h w b1 b2 md2 * _) in *. clearbody a b c.
  repeat constructor; apply int32_intro; lia.
Qed.
Lemma arrays_fit : Forall uint32 (array_sizes h w b1 b2 md2).
Proof.
  assert (P := pieces). destruct sizes as (_ & _ & _ & HW). clear W1 W2 Eh1 Ew1 Eh2 Ew2. cbv zeta in P. unfold array_sizes, n_arcs. cbv zeta.
  set (a := deg1 h w b1 b2 md2 * _) in *. set (b := deg2 h w b1 b2 md2 * _) in *. set (c := deg3 h w b1 b2 md2 * _) in *. clearbody a b c.
  repeat constructor; apply uint32_intro; lia.
Qed.
Lemma weights_bound : 0 <= ow oc2 * multiplier < 2147483648 /\ 0 <= ow oc2 <= ow oc2 * multiplier.
Proof.
  clear - M. destruct M as (_ & _ & _ & _ & _ & _ & D). assert (X := ow_le oc2 214748 ltac:(lia) D).
  assert (Y : 0 <= ow oc2) by (unfold ow, ceil_sqrt; apply Z.sqrt_up_nonneg). unfold multiplier. lia.
Qed.
Lemma weights_fit : Forall int32 (weight_ints oc2).
Proof. clear - M. assert (X := weights_bound). unfold weight_ints. repeat constructor; apply int32_intro; lia. Qed.
Lemma codes_fit p : inb h w (snd p) (fst p) = true -> Forall int32 (code_ints h p).
Proof.
  clear - M. intros I. apply inb_spec in I. destruct sizes as (_ & _ & _ & P). unfold code_ints, code.
  assert (X : 0 <= fst p * Z.of_nat h <= Z.of_nat h * Z.of_nat w - Z.of_nat h) by nia.
  repeat constructor; apply int32_intro; lia.
Qed.
Lemma arc_fit x : arc_kind h w b1 b2 md2 oc2 x -> Forall int32 (arc_ints h w b1 b2 md2 x).
Proof.
  intros X. assert (R : (a_tail x < n1 + n2)%nat /\ (a_head x < n1 + n2)%nat /\ 0 <= a_cost x) by (eapply (kind_range h w b1 b2 md2 oc2); eassumption).
  destruct R as (A & B & C).
  assert (P := pieces). cbv zeta in P. assert (Y := weights_bound).
  assert (D : a_cost x <= ow oc2 * multiplier).
  { destruct X as [[(_ & _ & NN) E]|[(i & j & _ & _ & _ & _ & E)|[(i & j & _ & _ & _ & _ & E)|(i & j & _ & _ & _ & _ & E)]]]; [|lia|lia|lia].
    rewrite E. etransitivity; [apply (weight_le_ow _ oc2)|lia]. unfold near in NN. unfold d2_nodes. lra. }
  unfold arc_ints. clear - A B C D P Y. repeat constructor; apply int32_intro; lia.
Qed.
End Fit.

(** 1. For images and tolerances of moderate size every int and every unsigned of the matcher stays in range, whatever the
    images and the random numbers are: the search window, the numbers of nodes and edges, the weights, the entries of
    the graph, the array sizes, the pixel codes, and, for any solution, the costs and the distances of matched pixels. *)
Theorem matcher_integers_fit h w b1 b2 md2 oc2 n k s :
  wf b1 -> wf b2 -> ht b1 = h -> wd b1 = w -> ht b2 = h -> wd b2 = w -> (0 <= md2)%Q -> (md2 < oc2)%Q ->
  moderate h w b1 b2 n k md2 oc2 -> valid_stream s ->
  Forall int32 (scan_ints h w md2) /\ Forall int32 (count_ints h w b1 b2 md2) /\ Forall int32 (weight_ints oc2) /\
  Forall uint32 (array_sizes h w b1 b2 md2) /\
  (forall p, inb h w (snd p) (fst p) = true -> Forall int32 (code_ints h p)) /\
  exists g s', build_graph h w b1 b2 md2 oc2 s = Ok (g, s') /\ Forall int32 (flat_map (arc_ints h w b1 b2 md2) g) /\
  forall l, perfect_matching (n1 h w b1 b2 md2 + n2 h w b1 b2 md2) g l ->
    Forall int32 (map snd l) /\ Forall int32 (flat_map pair_ints (decode_pairs h w b1 b2 md2 l)).
Proof.
  intros W1 W2 Eh1 Ew1 Eh2 Ew2 Hmd Hoc M V.
  split; [eapply scan_fit; exact M|]. split; [eapply counts_fit; eassumption|]. split; [eapply weights_fit; exact M|].
  split; [eapply arrays_fit; eassumption|]. split; [intros p I; eapply codes_fit; eassumption|].
  destruct (build_graph_ok h w b1 b2 md2 oc2 W1 W2 Eh1 Ew1 Eh2 Ew2 Hmd Hoc s V) as (g & s' & E & _ & B).
  exists g, s'. split; [exact E|].
  assert (K : forall x, In x g -> Forall int32 (arc_ints h w b1 b2 md2 x)).
  { intros x X. eapply arc_fit; try eassumption. eapply built_kind; eassumption. }
  split.
  { apply Forall_flat_map, Forall_forall. exact K. }
  intros l P. split.
  - apply Forall_forall. intros c C. apply in_map_iff in C. destruct C as ([j c'] & <- & C). apply In_nth_error in C. destruct C as (i & C).
    destruct P as (_ & _ & P). destruct (P i j c' C) as [_ I]. apply K in I. unfold arc_ints in I. cbn [a_tail a_head a_cost] in I.
    rewrite Forall_forall in I. apply I. cbn. tauto.
  - apply Forall_flat_map, Forall_forall. intros [p q] I.
    assert (R : at1 b1 p = true /\ at2 b2 q = true /\ near md2 p q) by (eapply (decode_props h w b1 b2 md2 oc2); eassumption). destruct R as (_ & _ & N).
    destruct M as (_ & _ & _ & _ & _ & D & _). unfold near, dist2 in N. unfold pair_ints. cbn [fst snd].
    assert (X : (fst p - fst q) * (fst p - fst q) + (snd p - snd q) * (snd p - snd q) <= 30000 * 30000) by (rewrite Zle_Qle; lra).
    set (dx := fst p - fst q) in *. set (dy := snd p - snd q) in *. clearbody dx dy. clear - X.
    assert (0 <= dx * dx) by nia. assert (0 <= dy * dy) by nia.
    repeat constructor; apply int32_intro; nia.
Qed.
Print Assumptions matcher_integers_fit.

(** 2. The data sets. *)
Definition disc (r R : Z) : list (Z * Z) := filter (fun e => fst e * fst e + snd e * snd e <=? R) (list_prod (window r) (window r)).
Lemma at_most_disc r R md2 : 0 <= r -> R < (r + 1) * (r + 1) -> (md2 < inject_Z (R + 1))%Q -> at_most (Z.of_nat (length (disc r R))) md2.
Proof.
  intros Hr HR Hm l D I. apply inj_le, NoDup_incl_length; [exact D|]. intros [u v] J. specialize (I u v J).
  assert (X : u * u + v * v < R + 1) by (rewrite Zlt_Qlt; lra). apply filter_In. cbn [fst snd]. split; [|lia].
  apply in_prod; apply in_window; nia.
Qed.
Lemma all_pixels_at_most b : wf b -> edge_pixels_at_most (Z.of_nat (ht b) * Z.of_nat (wd b)) b.
Proof.
  intros W l D I. rewrite <- Nat2Z.inj_mul. apply inj_le. rewrite <- (colmajor_length (ht b) (wd b)).
  rewrite <- (map_length (fun p => (snd p, fst p)) l). apply NoDup_incl_length.
  - apply FinFun.Injective_map_NoDup; [|exact D]. intros [a c] [d e] E. cbn [fst snd] in E. congruence.
  - intros [x y] J. apply in_map_iff in J. destruct J as ([y' x'] & E & J). cbn [fst snd] in E. injection E as -> ->.
    apply in_colmajor. cbn [fst snd]. destruct (inb (ht b) (wd b) y x) eqn:B; [reflexivity|].
    assert (X := I y x J). rewrite px_out in X; [discriminate|exact W|exact B].
Qed.

(** Sizes at which the evaluators run: Cityscapes (up to 1024 x 2048, tolerance 0.0035), BSDS and SBD (up to 512 x 512, up
    to 0.02), the pre-SEAL Cityscapes protocol (0.02; here the number of edge pixels matters). *)
Definition usual (h w : nat) (b1 b2 : image bool) (max_dist : Q) : Prop :=
  (h <= 1024)%nat /\ (w <= 2048)%nat /\ (max_dist <= 35 # 10000)%Q \/
  (h <= 512)%nat /\ (w <= 512)%nat /\ (max_dist <= 2 # 100)%Q \/
  (h <= 1024)%nat /\ (w <= 2048)%nat /\ (max_dist <= 2 # 100)%Q /\ edge_pixels_at_most 215000 b1 /\ edge_pixels_at_most 215000 b2.
Lemma disc_8 : Z.of_nat (length (disc 8 64)) = 197. Proof. vm_compute. reflexivity. Qed.
Lemma disc_14 : Z.of_nat (length (disc 14 209)) = 665. Proof. vm_compute. reflexivity. Qed.
Lemma disc_45 : Z.of_nat (length (disc 45 2097)) = 6581. Proof. vm_compute. reflexivity. Qed.
Lemma tolerance_le (h w H W : nat) (d c r : Q) : (h <= H)%nat -> (w <= W)%nat -> (0 <= d)%Q -> (d <= c)%Q ->
  (c * c * inject_Z (diag2 H W) <= r)%Q -> (d * d * inject_Z (diag2 h w) <= r)%Q.
Proof.
  intros A B D C R. eapply Qle_trans; [|exact R]. assert (X : (inject_Z (diag2 h w) <= inject_Z (diag2 H W))%Q) by (rewrite <- Zle_Qle; unfold diag2; nia).
  assert (Y : (0 <= inject_Z (diag2 h w))%Q) by (change 0%Q with (inject_Z 0); rewrite <- Zle_Qle; unfold diag2; nia).
  eapply Qle_trans; [apply Qmult_le_compat_r; [|exact Y]; instantiate (1 := (c * c)%Q); nra|].
  rewrite !(Qmult_comm (c * c)). apply Qmult_le_compat_r; [exact X|nra].
Qed.
(** In [correspond_pixels], with the outlier cost of the evaluators (100) or less. *)
Theorem usual_sizes_are_moderate b1 b2 max_dist outlier_cost :
  wf b1 -> wf b2 -> ht b2 = ht b1 -> wd b2 = wd b1 -> (0 < max_dist)%Q -> (1 < outlier_cost)%Q -> (outlier_cost <= 100)%Q ->
  usual (ht b1) (wd b1) b1 b2 max_dist ->
  exists n k, moderate (ht b1) (wd b1) b1 b2 n k (max_dist * max_dist * inject_Z (diag2 (ht b1) (wd b1)))%Q
    (outlier_cost * outlier_cost * (max_dist * max_dist) * inject_Z (diag2 (ht b1) (wd b1)))%Q.
Proof.
  intros W1 W2 Eh Ew D O1 O2 U. set (md2 := (max_dist * max_dist * _)%Q).
  assert (OC : (outlier_cost * outlier_cost * (max_dist * max_dist) * inject_Z (diag2 (ht b1) (wd b1)) <= inject_Z (100 * 100) * md2)%Q).
  { setoid_replace (outlier_cost * outlier_cost * (max_dist * max_dist) * inject_Z (diag2 (ht b1) (wd b1)))%Q with (outlier_cost * outlier_cost * md2)%Q by (unfold md2; ring).
    apply Qmult_le_compat_r; [change (inject_Z (100 * 100)) with (100 * 100)%Q; nra|].
    assert (Y : (0 <= inject_Z (diag2 (ht b1) (wd b1)))%Q) by (change 0%Q with (inject_Z 0); rewrite <- Zle_Qle; unfold diag2; nia).
    unfold md2. apply Qmult_le_0_compat; [nra|exact Y]. }
  assert (P1 := all_pixels_at_most b1 W1). assert (P2 := all_pixels_at_most b2 W2). rewrite Eh, Ew in P2.
  assert (F : (md2 <= inject_Z 2098)%Q -> (md2 <= inject_Z (30000 * 30000))%Q /\
    (outlier_cost * outlier_cost * (max_dist * max_dist) * inject_Z (diag2 (ht b1) (wd b1)) <= inject_Z (214748 * 214748))%Q).
  { change (inject_Z (100 * 100)) with (10000#1)%Q in OC. change (inject_Z (30000 * 30000)) with (900000000#1)%Q. change (inject_Z (214748 * 214748)) with (46116703504#1)%Q. change (inject_Z 2098) with (2098#1)%Q. intros L. split; lra. }
  set (h := ht b1) in *. set (w := wd b1) in *.
  destruct U as [(A & B & C)|[(A & B & C)|(A & B & C & E1 & E2)]].
  - exists (Z.of_nat h * Z.of_nat w), 197. split; [exact P1|]. split; [exact P2|].
    assert (R : (md2 <= 6423 # 100)%Q) by (apply (tolerance_le h w 1024 2048 max_dist (35#10000)); [exact A|exact B|lra|exact C|vm_compute; discriminate]).
    split; [rewrite <- disc_8; apply at_most_disc; [lia|lia|eapply Qle_lt_trans; [exact R|reflexivity]]|].
    change (2 ^ 32) with 4294967296. change (2 ^ 30) with 1073741824. split; [nia|]. split; [nia|]. apply F. eapply Qle_trans; [exact R|discriminate].
  - exists (Z.of_nat h * Z.of_nat w), 665. split; [exact P1|]. split; [exact P2|].
    assert (R : (md2 <= 2098 # 10)%Q) by (apply (tolerance_le h w 512 512 max_dist (2#100)); [exact A|exact B|lra|exact C|vm_compute; discriminate]).
    split; [rewrite <- disc_14; apply at_most_disc; [lia|lia|eapply Qle_lt_trans; [exact R|reflexivity]]|].
    change (2 ^ 32) with 4294967296. change (2 ^ 30) with 1073741824. split; [nia|]. split; [nia|]. apply F. eapply Qle_trans; [exact R|discriminate].
  - exists 215000, 6581. split; [exact E1|]. split; [exact E2|].
    assert (R : (md2 <= 20972 # 10)%Q) by (apply (tolerance_le h w 1024 2048 max_dist (2#100)); [exact A|exact B|lra|exact C|vm_compute; discriminate]).
    split; [rewrite <- disc_45; apply at_most_disc; [lia|lia|eapply Qle_lt_trans; [exact R|reflexivity]]|].
    change (2 ^ 32) with 4294967296. change (2 ^ 30) with 1073741824. split; [nia|]. split; [nia|]. apply F. eapply Qle_trans; [exact R|discriminate].
Qed.
Print Assumptions usual_sizes_are_moderate.

(** 3. Beyond: with a larger outlier cost (in pixels: more than 214749, that is a tolerance above 2147.49 pixels at the usual
    outlier cost of 100) the weight of the overlay does not fit, and the overlay is always there. *)
Theorem large_outlier_cost_overflows h w b1 b2 md2 oc2 s :
  wf b1 -> wf b2 -> ht b1 = h -> wd b1 = w -> ht b2 = h -> wd b2 = w -> (0 <= md2)%Q -> (md2 < oc2)%Q ->
  valid_stream s -> (inject_Z (214749 * 214749) < oc2)%Q -> (0 < n1 h w b1 b2 md2 + n2 h w b1 b2 md2)%nat ->
  exists g s' a, build_graph h w b1 b2 md2 oc2 s = Ok (g, s') /\ In a g /\ ~ int32 (a_cost a).
Proof.
  intros W1 W2 Eh1 Ew1 Eh2 Ew2 Hmd Hoc V L P.
  destruct (build_graph_ok h w b1 b2 md2 oc2 W1 W2 Eh1 Ew1 Eh2 Ew2 Hmd Hoc s V) as (g & s' & E & _ & B).
  destruct B as (l1 & l2 & l3 & -> & _). apply ow_ge in L; [|lia].
  assert (K : exists a, In a (overlay h w b1 b2 md2 oc2) /\ a_cost a = ow oc2 * multiplier).
  { unfold overlay. set (m1 := ModelMatch.n1 h w b1 b2 md2) in *. set (m2 := ModelMatch.n2 h w b1 b2 md2) in *. clearbody m1 m2. destruct m1 as [|m1].
    - destruct m2 as [|m2]; [lia|]. eexists. split; [apply in_or_app; right; left; reflexivity|reflexivity].
    - eexists. split; [apply in_or_app; left; left; reflexivity|reflexivity]. }
  destruct K as (a & I & C). exists (real_arcs h w b1 b2 md2 ++ concat l1 ++ concat l2 ++ concat l3 ++ overlay h w b1 b2 md2 oc2), s', a. split; [exact E|].
  split; [rewrite !in_app_iff; tauto|]. rewrite C. intros [_ X]. change (2 ^ 31) with 2147483648 in X. unfold multiplier in X. lia.
Qed.
Print Assumptions large_outlier_cost_overflows.

(** 4. The sum of the costs that csa.hh accumulates in an int and nobody reads: it is at least the outlier weight times
    the larger number of nodes, so it overflows on ordinary images. *)
Lemma result_cost_sum l : result_cost l = zsum (map snd l).
Proof.
  unfold result_cost. assert (X : forall a, fold_left (fun s (e : nat * Z) => s + snd e) l a = a + zsum (map snd l)).
  { induction l as [|e l IH]; intros a; cbn [fold_left map zsum fold_right]; [lia|]. rewrite IH. unfold zsum. cbn [fold_right]. lia. }
  rewrite X. lia.
Qed.
Lemma NoDup_map_filter {A B} (f : A -> B) g l : NoDup (map f l) -> NoDup (map f (filter g l)).
Proof.
  induction l as [|a l IH]; intros H; [exact H|]. cbn in H |- *. inversion H as [|? ? N D]; subst. destruct (g a); [|auto]. cbn. constructor; [|auto].
  intros I. apply N. apply in_map_iff in I. destruct I as (x & E & I). apply filter_In in I. apply in_map_iff. exists x. tauto.
Qed.
Lemma cost_lower (good : nat * (nat * Z) -> bool) o L : (forall e, In e L -> 0 <= snd (snd e) /\ (good e = false -> o <= snd (snd e))) ->
  o * Z.of_nat (length L) <= zsum (map (fun e => snd (snd e)) L) + o * Z.of_nat (length (filter good L)).
Proof.
  induction L as [|e L IH]; intros H; [cbn; lia|]. assert (X := H e (or_introl eq_refl)). specialize (IH (fun x I => H x (or_intror I))).
  cbn [filter length map zsum fold_right]. unfold zsum in *. destruct (good e); cbn [length]; [nia|]. destruct X as [_ X]. specialize (X eq_refl). nia.
Qed.
Lemma seq_subset_length (l : list nat) n : NoDup l -> (forall x, In x l -> (x < n)%nat) -> (length l <= n)%nat.
Proof.
  intros D H. rewrite <- (seq_length n 0). apply NoDup_incl_length; [exact D|]. intros x X. apply in_seq. specialize (H x X). lia.
Qed.
Theorem result_cost_lower_bound h w b1 b2 md2 oc2 s g s' l :
  wf b1 -> wf b2 -> ht b1 = h -> wd b1 = w -> ht b2 = h -> wd b2 = w -> (0 <= md2)%Q -> (md2 < oc2)%Q -> valid_stream s ->
  build_graph h w b1 b2 md2 oc2 s = Ok (g, s') -> perfect_matching (n1 h w b1 b2 md2 + n2 h w b1 b2 md2) g l ->
  ow oc2 * Z.of_nat (nmax h w b1 b2 md2) <= result_cost l.
Proof.
  intros W1 W2 Eh1 Ew1 Eh2 Ew2 Hmd Hoc V E P.
  destruct (build_graph_ok h w b1 b2 md2 oc2 W1 W2 Eh1 Ew1 Eh2 Ew2 Hmd Hoc s V) as (g' & s2 & E' & _ & B).
  rewrite E in E'. injection E' as <- <-. rewrite result_cost_sum.
  set (L := combine (seq 0 (length l)) l). set (good := fun e : nat * (nat * Z) => Nat.ltb (fst e) (n1 h w b1 b2 md2) && Nat.ltb (fst (snd e)) (n2 h w b1 b2 md2)).
  assert (LL : length L = length l) by (unfold L; rewrite combine_length, seq_length; lia).
  assert (F1 : map fst L = seq 0 (length l)). { unfold L. clear. generalize 0%nat. induction l as [|x r IH]; intros o; [reflexivity|]. cbn. rewrite IH. reflexivity. }
  assert (F2 : map snd L = l). { unfold L. clear. generalize 0%nat. induction l as [|x r IH]; intros o; [reflexivity|]. cbn. rewrite IH. reflexivity. }
  assert (C := cost_lower good (ow oc2) L).
  assert (O := ow_positive md2 oc2 Hmd Hoc).
  destruct P as (P1 & P2 & P3).
  assert (G1 : (length (filter good L) <= n1 h w b1 b2 md2)%nat).
  { rewrite <- (map_length fst). apply seq_subset_length; [apply NoDup_map_filter; rewrite F1; apply seq_NoDup|].
    intros x I. apply in_map_iff in I. destruct I as (e & <- & I). apply filter_In in I. unfold good in I. lia. }
  assert (G2 : (length (filter good L) <= n2 h w b1 b2 md2)%nat).
  { rewrite <- (map_length (fun e => fst (snd e))). apply seq_subset_length; [apply NoDup_map_filter; rewrite <- (map_map snd fst), F2; exact P2|].
    intros x I. apply in_map_iff in I. destruct I as (e & <- & I). apply filter_In in I. unfold good in I. lia. }
  rewrite <- (map_map snd snd), F2, LL, P1 in C.
  assert (X : forall e, In e L -> 0 <= snd (snd e) /\ (good e = false -> ow oc2 <= snd (snd e))).
  { intros (i & (j & c)) I. apply in_combine_seq in I. destruct (P3 i j c I) as [Q1 Q2]. cbn [fst snd].
    assert (K : arc_kind h w b1 b2 md2 oc2 (mkArc i j c)) by (eapply (built_kind h w b1 b2 md2 oc2); eassumption).
    assert (R := kind_range h w b1 b2 md2 oc2). assert (N : 0 <= c).
    { change c with (a_cost (mkArc i j c)). eapply R; eassumption. }
    split; [exact N|]. unfold good. cbn [fst snd]. intros Z0. unfold multiplier in *.
    destruct K as [[(K1 & K2 & _) _]|[(? & ? & _ & _ & _ & _ & K)|[(? & ? & _ & _ & _ & _ & K)|(? & ? & _ & _ & _ & _ & K)]]]; cbn [a_tail a_head a_cost] in *; unfold multiplier in *; lia. }
  specialize (C X). unfold nmax. clear - C G1 G2 O. nia.
Qed.
Print Assumptions result_cost_lower_bound.

(** On a full Cityscapes picture with the default tolerance, 26797 matchable edge pixels on either side are enough. *)
Theorem cityscapes_result_cost_overflows b1 b2 s g s' l :
  let md2 := ((35 # 10000) * (35 # 10000) * inject_Z (diag2 1024 2048))%Q in
  let oc2 := (100 * 100 * ((35 # 10000) * (35 # 10000)) * inject_Z (diag2 1024 2048))%Q in
  wf b1 -> wf b2 -> ht b1 = 1024%nat -> wd b1 = 2048%nat -> ht b2 = 1024%nat -> wd b2 = 2048%nat -> valid_stream s ->
  build_graph 1024 2048 b1 b2 md2 oc2 s = Ok (g, s') ->
  perfect_matching (n1 1024 2048 b1 b2 md2 + n2 1024 2048 b1 b2 md2) g l ->
  26797 <= Z.of_nat (nmax 1024 2048 b1 b2 md2) -> ~ int32 (result_cost l).
Proof.
  intros md2 oc2 W1 W2 Eh1 Ew1 Eh2 Ew2 V E P N [_ X]. change (2 ^ 31) with 2147483648 in X.
  assert (A := result_cost_lower_bound _ _ b1 b2 md2 oc2 s g s' l W1 W2 Eh1 Ew1 Eh2 Ew2 ltac:(unfold md2; apply Qle_bool_iff; vm_compute; reflexivity)
    ltac:(unfold md2, oc2; apply Qlt_alt; vm_compute; reflexivity) V E P).
  assert (B : ow oc2 = 80141) by (vm_compute; reflexivity). rewrite B in A. lia.
Qed.
Print Assumptions cityscapes_result_cost_overflows.

(** A case: two 4 x 5 pictures, tolerance 0.2, outlier cost 100. *)
Definition ex_i1 : image bool := tab 4 5 (fun y x => (y =? 1) || (x =? 3)).
Definition ex_i2 : image bool := tab 4 5 (fun y x => (y =? 2) || (x =? 2)).
Example ex_moderate : moderate 4 5 ex_i1 ex_i2 20 9 ((1 # 5) * (1 # 5) * inject_Z (diag2 4 5))%Q (100 * 100 * ((1 # 5) * (1 # 5)) * inject_Z (diag2 4 5))%Q.
Proof.
  split; [apply (all_pixels_at_most ex_i1), wf_tab|]. split; [apply (all_pixels_at_most ex_i2), wf_tab|].
  split; [change 9 with (Z.of_nat (length (disc 1 2))); apply at_most_disc; [lia|lia|reflexivity]|].
  split; [reflexivity|]. split; [reflexivity|]. split; discriminate.
Qed.
Example ex_arcs : match build_graph 4 5 ex_i1 ex_i2 ((1 # 5) * (1 # 5) * inject_Z (diag2 4 5))%Q
  (100 * 100 * ((1 # 5) * (1 # 5)) * inject_Z (diag2 4 5))%Q (rnd_stream (rnd_init 12345)) with
  Ok (g, _) => (length g, map (arc_ints 4 5 ex_i1 ex_i2 ((1 # 5) * (1 # 5) * inject_Z (diag2 4 5))%Q) (firstn 2 g)) | Err _ => (O, []) end =
  (175%nat, [[0; 0; 1; 17; 100]; [1; 1; 2; 18; 100]]).
Proof. vm_compute. reflexivity. Qed.
Example ex_counts : count_ints 4 5 ex_i1 ex_i2 ((1 # 5) * (1 # 5) * inject_Z (diag2 4 5))%Q = [8; 8; 7; 7; 16; 32; 6; 6; 6; 15; 48; 48; 48; 63; 111; 159; 175].
Proof. vm_compute. reflexivity. Qed.
Example ex_usual : usual 321 481 (tab 321 481 (fun y x => y =? x)) (tab 321 481 (fun y x => y =? x + 1)) (75 # 10000).
Proof. right. left. split; [lia|]. split; [lia|discriminate]. Qed.
Example ex_overflow_hypothesis : (inject_Z (214749 * 214749) < 100 * 100 * (1 * 1) * inject_Z (diag2 1024 2048))%Q.
Proof. reflexivity. Qed.
