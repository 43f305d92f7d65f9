(** Several annotators; kill_internal. *)
From Verif Require Export ProofsEval ProofsNMS2.
From Coq Require Import Lia ZifyBool ZifyNat Lqa.
Open Scope Z_scope.
Open Scope list_scope.

(** ** kill_internal *)
Lemma far_from_spec gt max_dist h w y x : wf gt -> binary gt -> (0 < max_dist)%Q ->
  far_from gt max_dist h w y x = true <->
  (forall y' x', px 0 gt y' x' <> 0 -> (max_dist * max_dist * inject_Z (diag2 h w) < inject_Z (sqdist y x y' x'))%Q).
Proof.
  intros W B Pd. unfold far_from. set (im := tab (ht gt) (wd gt) (fun y x => negb (1 - px 0 gt y x =? 0))).
  assert (Z0 : forall y x, zero_px im y x <-> px 0 gt y x <> 0).
  { intros a b. unfold zero_px, im. cbn [ht wd tab]. split.
    - intros [I P]. rewrite px_tab, I in P. lia.
    - intros N. assert (I : inb (ht gt) (wd gt) a b = true) by (destruct (inb (ht gt) (wd gt) a b) eqn:I; [reflexivity|]; rewrite px_out in N by assumption; lia).
      split; [exact I|]. rewrite px_tab, I. destruct (B a b); lia. }
  assert (Sq : forall a b c d, sqd a b c d = sqdist a b c d) by (intros; unfold sqd, sqdist; ring).
  destruct (edt2 im y x) as [d|] eqn:E.
  - apply edt2_some in E. destruct E as [(y0 & x0 & H0 & ->) M]. rewrite orb_true_iff, !qlt_spec. split.
    + intros [C|C] y' x' N; [exfalso; lra|]. eapply Qlt_le_trans; [exact C|]. rewrite <- Zle_Qle, <- Sq. apply M, Z0, N.
    + intros H. right. rewrite Sq. apply H, Z0, H0.
  - split; [|reflexivity]. intros _ y' x' N. exfalso. apply (edt2_none im y x E y' x'), Z0, N.
Qed.
Lemma px_b2z (p : image bool) y x : px 0 (imap b2z p) y x = b2z (px false p y x).
Proof. exact (px_imap b2z false p y x). Qed.
Lemma kill_spec p gt seg max_dist : wf p -> wf gt -> wf seg -> binary gt -> same_shape gt seg -> same_shape gt p -> (0 < max_dist)%Q ->
  exists p', kill_internal_prediction (imap b2z p) gt (SegBool seg) max_dist = Ok (imap b2z p') /\
    killed p (nonzero gt) seg (tolerance2 max_dist p) p'.
Proof.
  intros Wp Wg Ws B [S1 S2] [P1 P2] Pd. unfold kill_internal_prediction. cbn [seg_ht seg_wd imap ht wd].
  rewrite <- S1, <- S2, P1, P2, !Nat.eqb_refl. cbn [andb negb].
  exists (tab (ht p) (wd p) (fun y x => px false p y x && negb (far_from gt max_dist (ht p) (wd p) y x && px false seg y x))). split.
  - f_equal. apply (img_ext 0); [apply wf_tab|apply wf_imap, wf_tab|split; reflexivity|]. intros y x I. cbn [ht wd tab] in I.
    rewrite px_b2z, !px_tab, I, px_b2z. destruct (px false p y x), (far_from _ _ _ _ _ _), (px false seg y x); reflexivity.
  - split; [apply wf_tab|]. split; [split; reflexivity|]. intros y x. rewrite px_tab.
    assert (F := far_from_spec gt max_dist (ht p) (wd p) y x Wg B Pd). fold (tolerance2 max_dist p) in F.
    assert (G : (forall y' x', px 0 gt y' x' <> 0 -> (tolerance2 max_dist p < inject_Z (sqdist y x y' x'))%Q) <->
                (forall y' x', px false (nonzero gt) y' x' = true -> (tolerance2 max_dist p < inject_Z (sqdist y x y' x'))%Q)).
    { split; intros H y' x' N; apply H; apply (edge_pixels_nonzero gt Wg); exact N. }
    destruct (inb (ht p) (wd p) y x) eqn:I.
    + rewrite andb_true_iff, negb_true_iff, andb_false_iff. unfold tolerance2 in *. unfold diag2 in F. rewrite <- G. rewrite <- F.
      destruct (far_from gt max_dist (ht p) (wd p) y x), (px false seg y x); intuition congruence.
    + split; [discriminate|]. intros [C _]. rewrite px_out in C by assumption. discriminate.
Qed.
Lemma killed_unique p g seg tol2 p1 p2 : killed p g seg tol2 p1 -> killed p g seg tol2 p2 -> p1 = p2.
Proof.
  intros (W & [S1 S2] & H) (W' & [S1' S2'] & H'). apply (img_ext false); [exact W|exact W'|split; congruence|].
  intros y x _. specialize (H y x). specialize (H' y x). destruct (px false p1 y x), (px false p2 y x); try reflexivity.
  - symmetry. apply H'. apply H. reflexivity.
  - apply H. apply H'. reflexivity.
Qed.

(** ** kill_internal does not change the correspondence *)
Section Invariance.
Variables h w : nat.
Variables b b' g : image bool.
Variable md2 : Q.
Hypothesis Sub : forall y x, px false b' y x = true -> px false b y x = true.
Hypothesis Keep : forall y x y' x', px false b y x = true -> px false g y' x' = true -> (inject_Z (sqdist y x y' x') <= md2)%Q -> px false b' y x = true.

Lemma around_near p q : In q (around_vu h w md2 p) -> (inject_Z (dist2 p q) <= md2)%Q.
Proof using Type.
  clear. unfold around_vu. rewrite in_flat_map. intros (v & _ & H). apply in_flat_map in H. destruct H as (u & _ & H).
  destruct (Qle_bool (inject_Z (u * u + v * v)) md2) eqn:E; cbn [negb] in H; [|destruct H].
  destruct (inb _ _ _ _); [|destruct H]. destruct H as [<-|[]]. apply Qle_bool_iff in E. unfold dist2. cbn [fst snd].
  replace ((fst p - (fst p + u)) * (fst p - (fst p + u)) + (snd p - (snd p + v)) * (snd p - (snd p + v))) with (u * u + v * v) by ring. exact E.
Qed.
Lemma flat_map_nil {A B} (f : A -> list B) l : (forall a, In a l -> f a = []) -> flat_map f l = [].
Proof using Type. induction l as [|a l IH]; intros H; [reflexivity|]. cbn [flat_map]. rewrite (H a (or_introl eq_refl)), IH; [reflexivity|]. intros; apply H; right; assumption. Qed.
Lemma flat_map_ext_in {A B} (f f' : A -> list B) l : (forall a, In a l -> f a = f' a) -> flat_map f l = flat_map f' l.
Proof using Type. induction l as [|a l IH]; intros H; [reflexivity|]. cbn [flat_map]. rewrite (H a (or_introl eq_refl)), IH; [reflexivity|]. intros; apply H; right; assumption. Qed.
Lemma hits_same : hits h w b g md2 = hits h w b' g md2.
Proof using Sub Keep.
  unfold hits. apply flat_map_ext_in. intros [y x] _. cbn [fst snd]. unfold at1. cbn [fst snd].
  destruct (px false b' y x) eqn:E'.
  - rewrite (Sub y x E'). reflexivity.
  - destruct (px false b y x) eqn:E; [|reflexivity]. apply flat_map_nil. intros q I. destruct (at2 g q) eqn:Q; [|reflexivity]. exfalso.
    apply around_near in I. assert (C := Keep y x (snd q) (fst q) E Q). unfold dist2 in I. unfold sqdist in C. cbn [fst snd] in I, C. rewrite (C I) in E'. discriminate.
Qed.
Lemma matchable1_same : matchable1 h w b g md2 = matchable1 h w b' g md2.
Proof using Sub Keep. unfold matchable1. rewrite hits_same. reflexivity. Qed.
Lemma matchable2_same : matchable2 h w b g md2 = matchable2 h w b' g md2.
Proof using Sub Keep. unfold matchable2. rewrite hits_same. reflexivity. Qed.
Lemma nodes1_same : nodes1 h w b g md2 = nodes1 h w b' g md2.
Proof using Sub Keep. unfold nodes1. rewrite matchable1_same. reflexivity. Qed.
Lemma nodes2_same : nodes2 h w b g md2 = nodes2 h w b' g md2.
Proof using Sub Keep. unfold nodes2. rewrite matchable2_same. reflexivity. Qed.
Lemma n1_same : n1 h w b g md2 = n1 h w b' g md2.
Proof using Sub Keep. unfold n1. rewrite nodes1_same. reflexivity. Qed.
Lemma n2_same : n2 h w b g md2 = n2 h w b' g md2.
Proof using Sub Keep. unfold n2. rewrite nodes2_same. reflexivity. Qed.
Lemma real_edges_same : real_edges h w b g md2 = real_edges h w b' g md2.
Proof using Sub Keep. unfold real_edges. rewrite matchable1_same, matchable2_same, nodes1_same, nodes2_same. reflexivity. Qed.
Lemma nmin_same : nmin h w b g md2 = nmin h w b' g md2.
Proof using Sub Keep. unfold nmin. rewrite n1_same, n2_same. reflexivity. Qed.
Lemma nmax_same : nmax h w b g md2 = nmax h w b' g md2.
Proof using Sub Keep. unfold nmax. rewrite n1_same, n2_same. reflexivity. Qed.
Lemma deg1_same : deg1 h w b g md2 = deg1 h w b' g md2.
Proof using Sub Keep. unfold deg1. rewrite n1_same. reflexivity. Qed.
Lemma deg2_same : deg2 h w b g md2 = deg2 h w b' g md2.
Proof using Sub Keep. unfold deg2. rewrite n2_same. reflexivity. Qed.
Lemma deg3_same : deg3 h w b g md2 = deg3 h w b' g md2.
Proof using Sub Keep. unfold deg3. rewrite nmin_same. reflexivity. Qed.
Lemma n_arcs_same : n_arcs h w b g md2 = n_arcs h w b' g md2.
Proof using Sub Keep. unfold n_arcs. rewrite real_edges_same, deg1_same, deg2_same, deg3_same, nmax_same, n1_same, n2_same. reflexivity. Qed.
Lemma build_graph_same oc2 s : build_graph h w b g md2 oc2 s = build_graph h w b' g md2 oc2 s.
Proof using Sub Keep.
  unfold build_graph, outliers1, outliers2, outliers3, overlay.
  rewrite n_arcs_same, real_edges_same, deg1_same, deg2_same, deg3_same, nmax_same, nmin_same, n1_same, n2_same. reflexivity.
Qed.
Lemma decode_same l : decode_pairs h w b g md2 l = decode_pairs h w b' g md2 l.
Proof using Sub Keep. unfold decode_pairs. rewrite n1_same, n2_same, nodes1_same, nodes2_same. reflexivity. Qed.
Lemma check_same l : check_solution h w b g md2 l = check_solution h w b' g md2 l.
Proof using Sub Keep. unfold check_solution. rewrite n1_same, n2_same, nodes1_same, nodes2_same. reflexivity. Qed.
Lemma in_nodes1_kept p : In p (nodes1 h w b' g md2) -> px false b' (snd p) (fst p) = true.
Proof using Type.
  clear Sub Keep. unfold nodes1. rewrite filter_In. intros [_ M]. unfold matchable1 in M. apply existsb_exists in M. destruct M as ([p1 p2] & I & E). cbn [fst] in E.
  destruct (pix_eqb_spec p1 p); [|discriminate]. subst p1. unfold hits in I. apply in_flat_map in I. destruct I as ([y x] & _ & I). cbn [fst snd] in I.
  unfold at1 in I. cbn [fst snd] in I. destruct (px false b' y x) eqn:B; [|destruct I]. apply in_flat_map in I. destruct I as (q & _ & I). destruct (at2 g q); [|destruct I].
  destruct I as [I|[]]. injection I as <- <-. exact B.
Qed.
Lemma code_map_same l : code_map h w b (lookup1 (decode_pairs h w b' g md2 l)) = code_map h w b' (lookup1 (decode_pairs h w b' g md2 l)).
Proof using Sub.
  clear Keep. unfold code_map. apply tab_ext. intros y x _. destruct (px false b' y x) eqn:E'; [rewrite (Sub y x E'); reflexivity|].
  destruct (px false b y x); [|reflexivity]. assert (L := lookup1_sound (decode_pairs h w b' g md2 l) (x, y)).
  destruct (lookup1 _ _) as [q|]; [|reflexivity]. exfalso. unfold decode_pairs in L. apply in_flat_map in L. destruct L as ((i & (j & c)) & _ & X).
  destruct (Nat.ltb_spec i (n1 h w b' g md2)) as [Hi|]; [|destruct X]. destruct (Nat.ltb _ _); [|destruct X]. destruct X as [X|[]]. injection X as E1 _.
  assert (N : In (x, y) (nodes1 h w b' g md2)) by (rewrite <- E1; apply nth_In; exact Hi). apply in_nodes1_kept in N. cbn [fst snd] in N. congruence.
Qed.
Definition same_matches (r r' : res (option (outcome * stream))) : Prop :=
  match r, r' with
  | Ok (Some (o, s)), Ok (Some (o', s')) => m1 o = m1 o' /\ m2 o = m2 o' /\ s = s'
  | Ok None, Ok None => True
  | Err e, Err e' => e = e'
  | _, _ => False
  end.
Lemma match_same oc2 fuel pfuel s : same_matches (match_edge_maps h w b g md2 oc2 fuel pfuel s) (match_edge_maps h w b' g md2 oc2 fuel pfuel s).
Proof using Sub Keep.
  unfold match_edge_maps. rewrite n_arcs_same. unfold check at 1 3. destruct (Qle_bool 0 md2 && Qltb md2 oc2); [|reflexivity].
  destruct (n_arcs h w b' g md2 =? 0); [cbn; auto|]. rewrite build_graph_same. destruct (build_graph h w b' g md2 oc2 s) as [[gr s1]|e]; [|reflexivity]. cbn [bind].
  rewrite n1_same, n2_same. destruct (csa_solve _ _ _ _) as [[l|]|e]; cbn [bind]; [|exact I|reflexivity].
  rewrite check_same. unfold check. destruct (Nat.eqb _ _ && _); [|reflexivity]. rewrite decode_same. cbn [same_matches m1 m2]. rewrite code_map_same. auto.
Qed.
End Invariance.

Lemma killed_keeps p g seg tol2 p' y x y' x' : killed p g seg tol2 p' -> px false p y x = true -> px false g y' x' = true ->
  (inject_Z (sqdist y x y' x') <= tol2)%Q -> px false p' y x = true.
Proof. intros (_ & _ & H) P G D. apply H. split; [exact P|]. intros [_ C]. specialize (C y' x' G). lra. Qed.
Lemma correspond_killed F P p p' gt seg max_dist s : killed p (nonzero gt) seg (tolerance2 max_dist p) p' ->
  same_matches (correspond F P (imap b2z p) gt max_dist s) (correspond F P (imap b2z p') gt max_dist s).
Proof.
  intros K. assert (K' := K). destruct K' as (_ & [S1 S2] & H). unfold correspond. rewrite !nonzero_b2z. unfold correspond_pixels.
  rewrite S1, S2. destruct (negb _); [reflexivity|]. destruct (Qle_bool _ _); [reflexivity|]. destruct (Qle_bool _ _); [reflexivity|].
  apply match_same.
  - intros y x C. apply H, C.
  - intros y x y' x' A B C. exact (killed_keeps p (nonzero gt) seg _ p' y x y' x' K A B C).
Qed.
Lemma score_killed F P p p' gt seg max_dist s a s' : killed p (nonzero gt) seg (tolerance2 max_dist p) p' ->
  score_against F P (imap b2z p) gt max_dist s = Ok (Some (a, s')) ->
  score_against F P (imap b2z p') gt max_dist s = Ok (Some (mkR4 (cr a) (sr a) (cp a) (Z.of_nat (count_true p')), s')).
Proof.
  intros K E. assert (M := correspond_killed F P p p' gt seg max_dist s K). unfold score_against, then_ in *.
  destruct (correspond F P (imap b2z p) gt max_dist s) as [[[o s1]|]|]; try discriminate E.
  destruct (correspond F P (imap b2z p') gt max_dist s) as [[[o' s1']|]|]; try contradiction M. destruct M as (M1 & M2 & M3).
  cbn [bind ret] in *. injection E as <- <-. cbn [cr sr cp sp]. rewrite !img_sum_binary, M1, M2, M3. reflexivity.
Qed.

(** ** Several annotators *)
Definition acc_ok (p : image bool) (tol2 : Q) (gs : list (image bool)) (acc : image bool * Z * Z) : Prop :=
  let '(u, sr, cr) := acc in
  exists ms : list (image Z * image Z), Forall2 (fun g m => is_correspondence p g tol2 (fst m) (snd m)) gs ms /\
    wf u /\ same_shape u p /\ some_match (map fst ms) u /\
    sr = zsum (map (fun g => Z.of_nat (count_true g)) gs) /\ cr = zsum (map (fun m => Z.of_nat (matched (snd m))) ms).
Lemma gts_loop_delivers p max_dist : wf p -> (0 < max_dist)%Q -> ((0 < ht p)%nat \/ (0 < wd p)%nat) ->
  forall gts done acc s, raw_values s -> Forall (fun gt => wf gt /\ binary gt /\ same_shape p gt) gts ->
  acc_ok p (tolerance2 max_dist p) done acc ->
  delivers (fun F P => gts_loop F P (imap b2z p) max_dist gts acc) s (acc_ok p (tolerance2 max_dist p) (done ++ map nonzero gts)).
Proof.
  intros Wp Pd Ne. induction gts as [|gt gts IH]; intros done acc s V G A.
  - cbn [map]. rewrite app_nil_r. apply delivers_ret; assumption.
  - inversion G as [|? ? (Wg & Bg & Sh) G']. subst. cbn [gts_loop].
    assert (Wg' : wf (nonzero gt)) by apply wf_imap, Wg.
    apply (delivers_then (fun F P => correspond F P (imap b2z p) gt max_dist) _ s
       (fun o => is_correspondence p (nonzero gt) (tolerance2 max_dist p) (m1 o) (m2 o))).
    + assert (D := correspond_delivers (imap b2z p) gt max_dist). rewrite nonzero_b2z in D. apply D; auto.
    + intros o s' V' K. cbn [map]. replace (done ++ nonzero gt :: map nonzero gts) with ((done ++ [nonzero gt]) ++ map nonzero gts) by (rewrite <- app_assoc; reflexivity).
      destruct acc as [[u sr] cr]. apply IH; [exact V'|exact G'|]. destruct A as (ms & F2 & Wu & [U1 U2] & Um & -> & ->).
      exists (ms ++ [(m1 o, m2 o)]). split; [apply Forall2_app; [exact F2|constructor; [exact K|constructor]]|].
      split; [apply wf_tab|]. split; [split; reflexivity|]. assert (Sh' : same_shape p (nonzero gt)) by exact Sh.
      split; [|rewrite !map_app, !zsum_app; cbn [map zsum fold_right fst snd]; split].
      * intros y x. rewrite px_tab. cbn [imap ht wd]. rewrite (positives_eq p (nonzero gt) _ (m1 o) (m2 o) Wp Wg' Sh' K).
        assert (X := px_imap (fun v => negb (v =? 0)) 0 (m1 o) y x). cbv beta in X. change (negb (0 =? 0)) with false in X. rewrite X.
        assert (Split : (exists m, In m (map fst (ms ++ [(m1 o, m2 o)])) /\ px 0 m y x <> 0) <->
                   (px false u y x = true \/ px 0 (m1 o) y x <> 0)).
        { rewrite (Um y x), map_app. cbn [map fst]. split.
          - intros (m & I & N). apply in_app_iff in I. destruct I as [I|[<-|[]]]; [left; exists m; auto|right; exact N].
          - intros [(m & I & N)|N]; [exists m|exists (m1 o)]; rewrite in_app_iff; cbn [In]; auto. }
        rewrite Split. destruct (inb (ht p) (wd p) y x) eqn:I.
        -- rewrite orb_true_iff, negb_true_iff, Z.eqb_neq. reflexivity.
        -- split; [discriminate|]. intros [C|C]; [rewrite px_out in C by (solve [exact Wu|rewrite U1, U2; exact I]); discriminate|].
           destruct K as (_ & _ & Kp & _). destruct (Kp y x C) as [C' _]. rewrite px_out in C' by assumption. discriminate.
      * rewrite (binary_is_b2z gt Wg Bg) at 1. rewrite img_sum_binary. lia.
      * rewrite (positives_count (nonzero gt) p (tolerance2 max_dist p) (m2 o) (m1 o) Wg' Wp (conj (eq_sym (proj1 Sh')) (eq_sym (proj2 Sh'))) (correspondence_sym _ _ _ _ _ K)). lia.
Qed.
