(** C53: the boundaries annotated in SBD files (helpers/convert_sbd.py, utils/mat_utils.py). *)
From Verif Require Import SpecSBD ProofsImage ProofsThin ProofsLabels ProofsEdges ProofsEdges2 PropertiesLabels PropertiesEdges PropertiesEdges2
  ProofsPaths ProofsConvert PropertiesConvert PropertiesSamples PropertiesFiles PropertiesSBD.
From Coq Require Import ZifyBool ZifyNat Lia.
Open Scope Z_scope.
Open Scope list_scope.

(** ** Sparse matrices *)
Lemma starts_nth : forall cols a j, (j <= List.length cols)%nat -> nth j (starts a cols) 0%nat = (a + List.length (List.concat (firstn j cols)))%nat.
Proof.
  induction cols as [|c cols IH]; intros a j H; cbn [List.length] in H.
  - replace j with 0%nat by lia. cbn. lia.
  - destruct j as [|j]; [cbn; lia|]. cbn [starts nth firstn List.concat]. rewrite IH by lia. rewrite app_length. lia.
Qed.
Lemma map_nth_seq {A B} (f : A -> B) (d : A) (a l b : list A) : map (fun k => f (nth k (a ++ l ++ b) d)) (seq (List.length a) (List.length l)) = map f l.
Proof.
  revert a. induction l as [|x l IH]; intros a; [reflexivity|]. cbn [List.length seq map]. f_equal; [rewrite app_nth2, Nat.sub_diag by lia; reflexivity|].
  specialize (IH (a ++ [x])). rewrite <- app_assoc in IH. rewrite app_length in IH. cbn [List.length app] in IH. rewrite Nat.add_1_r in IH. exact IH.
Qed.
(** *** C53, theorem 1: the dense array of a sparse matrix: pixel (y, x) is the sum of the values column x
    lists for row y; with each row listed at most once that is the listed value, 0 for the others. *)
Theorem sparse_to_dense : forall h cols y x, inb h (List.length cols) y x = true ->
  px 0 (sparse2numpy (csc_of h cols)) y x = zsum (map (fun e => if fst e =? y then snd e else 0) (nth (Z.to_nat x) cols [])).
Proof.
  intros h cols y x I. unfold sparse2numpy. cbn [csc_of sp_h sp_w sp_ptr sp_idx sp_data]. rewrite px_tab, I. apply inb_spec in I.
  set (j := Z.to_nat x). assert (J : (j < List.length cols)%nat) by lia. rewrite !starts_nth by lia.
  destruct (nth_split cols [] J) as (l1 & l2 & E & L1). set (c := nth j cols []) in *. rewrite E.
  rewrite firstn_app, <- L1, Nat.sub_diag, firstn_all. cbn [firstn]. rewrite app_nil_r.
  replace (List.length l1 + 1)%nat with (List.length (l1 ++ [c])) by (rewrite app_length; reflexivity). rewrite (app_assoc l1 [c] l2 : l1 ++ c :: l2 = _).
  rewrite firstn_app, Nat.sub_diag, firstn_all. cbn [firstn]. rewrite app_nil_r. rewrite !concat_app. cbn [List.concat]. rewrite app_nil_r, app_length.
  replace (0 + (List.length (List.concat l1) + List.length c) - (0 + List.length (List.concat l1)))%nat with (List.length c) by lia. rewrite Nat.add_0_l.
  f_equal. rewrite <- (map_nth_seq (fun e => if fst e =? y then snd e else 0) (0, 0) (List.concat l1) c (List.concat l2)).
  rewrite <- app_assoc. apply map_ext. intros k. rewrite <- (map_nth fst _ (0, 0) k), <- (map_nth snd _ (0, 0) k). reflexivity.
Qed.
Print Assumptions sparse_to_dense.
Theorem sparse_single_entries : forall h cols y x, inb h (List.length cols) y x = true -> NoDup (map fst (nth (Z.to_nat x) cols [])) ->
  (forall v, In (y, v) (nth (Z.to_nat x) cols []) -> px 0 (sparse2numpy (csc_of h cols)) y x = v) /\
  (~ In y (map fst (nth (Z.to_nat x) cols [])) -> px 0 (sparse2numpy (csc_of h cols)) y x = 0).
Proof.
  intros h cols y x I ND. rewrite sparse_to_dense by exact I. set (c := nth _ _ _) in *. clearbody c. clear I.
  assert (Z0 : forall c, ~ In y (map fst c) -> zsum (map (fun e => if fst e =? y then snd e else 0) c) = 0).
  { clear. induction c as [|[a v] c IH]; intros N; [reflexivity|]. cbn [map zsum fst snd]. destruct (Z.eqb_spec a y) as [->|]; [exfalso; apply N; left; reflexivity|].
    change (0 + zsum (map (fun e => if fst e =? y then snd e else 0) c) = 0). rewrite IH; [reflexivity|]. intros J. apply N. right. exact J. }
  split; [|apply Z0]. intros v Hv. induction c as [|[a b] c IH]; [destruct Hv|]. cbn [map] in ND. inversion ND as [|? ? N1 N2]; subst. cbn [map fst snd].
  change (zsum ?h) with (zsum h). destruct Hv as [E|Hv].
  - injection E as -> ->. rewrite Z.eqb_refl. change (v + zsum (map (fun e => if fst e =? y then snd e else 0) c) = v). rewrite Z0 by exact N1. lia.
  - destruct (Z.eqb_spec a y) as [->|Na]; [exfalso; apply N1; apply in_map_iff; exists (y, v); auto|].
    change (0 + zsum (map (fun e => if fst e =? y then snd e else 0) c) = v). rewrite IH by assumption. lia.
Qed.
Print Assumptions sparse_single_entries.

(** ** Adding boundaries *)
Lemma lor01 a b : (a = 0 \/ a = 1) -> (b = 0 \/ b = 1) -> (Z.lor a b = 0 \/ Z.lor a b = 1) /\ (Z.lor a b = 1 <-> a = 1 \/ b = 1).
Proof. intros [-> | ->] [-> | ->]; cbn; split; auto; split; intros; try tauto; lia. Qed.
Lemma stack_or_ok h w n b c e edge (mark : Z -> Z -> Prop) : maps_are h w n b edge -> 1 <= c <= Z.of_nat n ->
  (forall y x, inb h w y x = true -> (px 0 e y x = 0 \/ px 0 e y x = 1) /\ (px 0 e y x = 1 <-> mark y x)) ->
  exists b', stack_or b (c - 1) e = Ok b' /\ maps_are h w n b' (fun c' y x => edge c' y x \/ (c' = c /\ mark y x)).
Proof.
  intros (W & B & Eh & Ew & L & P) Hc He. unfold stack_or. rewrite L, pyidx_pos by lia.
  set (i := Z.to_nat (c - 1)). set (f := tab (s_h b) (s_w b) _).
  assert (Ln : (i < List.length (chans b))%nat) by lia.
  assert (Nth : forall j dd, nth j (set_nth (chans b) i f) dd = if Nat.eqb j i then f else nth j (chans b) dd).
  { intros j dd. unfold set_nth. destruct (skipn i (chans b)) as [|x r] eqn:E.
    - assert (X := f_equal (@List.length (image Z)) E). rewrite skipn_length in X. cbn in X. lia.
    - assert (X : chans b = firstn i (chans b) ++ x :: r) by (rewrite <- E; symmetry; apply firstn_skipn).
      assert (Lf : List.length (firstn i (chans b)) = i) by (rewrite firstn_length; lia).
      destruct (Nat.eqb_spec j i) as [->|Nj].
      + rewrite app_nth2 by lia. rewrite Lf, Nat.sub_diag. reflexivity.
      + rewrite X at 2. destruct (Nat.lt_ge_cases j i) as [H|H]; [rewrite !app_nth1 by lia; reflexivity|].
        rewrite !app_nth2 by lia. rewrite Lf. destruct (j - i)%nat eqn:D; [lia|reflexivity]. }
  assert (Ls : List.length (set_nth (chans b) i f) = n).
  { unfold set_nth. destruct (skipn i (chans b)) as [|x r] eqn:E; assert (X := f_equal (@List.length (image Z)) E); rewrite skipn_length in X; cbn in X; [lia|].
    rewrite app_length, firstn_length. cbn [List.length]. lia. }
  eexists. split; [reflexivity|]. set (b' := mkStack _ _ _).
  assert (Old : (px 0 (nth i (chans b) (zeros (s_h b) (s_w b))) = px 0 (channel b (c - 1)))) by reflexivity.
  assert (Bi : forall y x, px 0 (channel b (c - 1)) y x = 0 \/ px 0 (channel b (c - 1)) y x = 1) by (intros y x; apply B; apply nth_In; exact Ln).
  assert (Fpx : forall y x, inb h w y x = true -> px 0 f y x = Z.lor (px 0 (channel b (c - 1)) y x) (px 0 e y x)).
  { intros y x I. unfold f. rewrite px_tab, Eh, Ew, I. rewrite <- Eh, <- Ew, Old. reflexivity. }
  split; [|split; [|split; [exact Eh|split; [exact Ew|split; [exact Ls|]]]]].
  - intros a Ha. apply In_nth with (d := zeros (s_h b) (s_w b)) in Ha. cbn [chans b'] in Ha. destruct Ha as (j & Hj & <-). rewrite Nth. cbn [s_h s_w b'].
    destruct (Nat.eqb j i); [split; [apply wf_tab|split; reflexivity]|]. apply W, nth_In. rewrite Ls in Hj. lia.
  - intros a Ha y x. apply In_nth with (d := zeros (s_h b) (s_w b)) in Ha. cbn [chans b'] in Ha. destruct Ha as (j & Hj & <-). rewrite Nth.
    destruct (Nat.eqb j i); [|apply B, nth_In; rewrite Ls in Hj; lia]. destruct (inb h w y x) eqn:I.
    + rewrite Fpx by exact I. apply (lor01 _ _ (Bi y x) (proj1 (He y x I))).
    + left. unfold f. rewrite px_tab, Eh, Ew, I. reflexivity.
  - intros c' y x Hc' I. unfold channel, b'. cbn [chans s_h s_w]. rewrite Nth.
    destruct (Nat.eqb_spec (Z.to_nat (c' - 1)) i) as [E|E].
    + assert (c' = c) by lia. subst c'. rewrite Fpx by exact I. destruct (lor01 _ _ (Bi y x) (proj1 (He y x I))) as [_ Q]. rewrite Q, (P c y x Hc' I), (proj2 (He y x I)). tauto.
    + change (px 0 (channel b (c' - 1)) y x = 1 <-> edge c' y x \/ (c' = c /\ mark y x)). rewrite (P c' y x Hc' I). split; [tauto|]. intros [H|(-> & _)]; [exact H|]. lia.
Qed.
Lemma maps_ext h w n b e e' : maps_are h w n b e -> (forall c y x, 1 <= c <= Z.of_nat n -> inb h w y x = true -> (e c y x <-> e' c y x)) -> maps_are h w n b e'.
Proof. intros (W & B & Eh & Ew & L & P) H. repeat (split; [assumption|]). intros c y x Hc I. rewrite (P c y x Hc I). apply H; assumption. Qed.
Lemma dense_px s y x : (px 0 (sparse2numpy s) y x = 0 \/ px 0 (sparse2numpy s) y x = 1) -> px 0 (imap (wrap 8) (sparse2numpy s)) y x = px 0 (sparse2numpy s) y x.
Proof. intros H. change 0 with (wrap 8 0) at 1. rewrite px_imap. unfold wrap. destruct H as [-> | ->]; reflexivity. Qed.
Lemma loaded_maps seg l : fits seg l -> binary_maps l ->
  maps_are (ht seg) (wd seg) (List.length l) (mkStack (ht seg) (wd seg) (map (fun s => imap (wrap 8) (sparse2numpy s)) l)) (fun c => marked l (Z.to_nat (c - 1))).
Proof.
  intros F B. split; [|split; [|split; [reflexivity|split; [reflexivity|split; [cbn [chans]; apply map_length|]]]]].
  - intros e I. cbn [chans] in I. apply in_map_iff in I. destruct I as (s & <- & I). unfold fits in F. rewrite Forall_forall in F. destruct (F s I). cbn [s_h s_w]. split; [apply wf_imap, wf_tab|]. split; assumption.
  - intros e I y x. cbn [chans] in I. apply in_map_iff in I. destruct I as (s & <- & I). rewrite dense_px by (apply B; exact I). apply B. exact I.
  - intros c y x Hc I. unfold channel. cbn [chans s_h s_w]. set (k := Z.to_nat (c - 1)). assert (K : (k < List.length l)%nat) by lia.
    destruct (nth_error l k) as [s|] eqn:E; [|apply nth_error_None in E; lia].
    rewrite (nth_indep _ _ (imap (wrap 8) (sparse2numpy s))) by (rewrite map_length; exact K).
    rewrite (map_nth (fun s => imap (wrap 8) (sparse2numpy s))). rewrite (nth_error_nth l k s E). rewrite dense_px by (apply B; eapply nth_error_In; exact E).
    unfold marked. rewrite E. split; [intros H; exists s; auto|intros (s' & X & H); injection X as <-; exact H].
Qed.
Lemma chan_marked seg l k : fits seg l -> binary_maps l -> (k < List.length l)%nat ->
  exists e, chan_at (mkStack (ht seg) (wd seg) (map (fun s => imap (wrap 8) (sparse2numpy s)) l)) (Z.of_nat k) = Ok e /\
    forall y x, (px 0 e y x = 0 \/ px 0 e y x = 1) /\ (px 0 e y x = 1 <-> marked l k y x).
Proof.
  intros F B K. destruct (nth_error l k) as [s|] eqn:E; [|apply nth_error_None in E; lia].
  exists (imap (wrap 8) (sparse2numpy s)). split.
  - rewrite chan_at_ok by (cbn [chans]; rewrite map_length; lia). unfold channel. cbn [chans s_h s_w]. rewrite Nat2Z.id.
    rewrite (nth_indep _ _ (imap (wrap 8) (sparse2numpy s))) by (rewrite map_length; exact K). rewrite (map_nth (fun s => imap (wrap 8) (sparse2numpy s))). rewrite (nth_error_nth l k s E). reflexivity.
  - intros y x. rewrite dense_px by (apply B; eapply nth_error_In; exact E). split; [apply B; eapply nth_error_In; exact E|].
    unfold marked. rewrite E. split; [intros H; exists s; auto|intros (s' & X & H); injection X as <-; exact H].
Qed.
(** *** C53, theorem 2: [load_instance_sensitive_gt]: the boundaries of a category together with those of its
    instances. *)
Theorem instance_sensitive_maps : forall d p q m i,
  d p = Some (ClsMat m) -> d q = Some (InstMat i) -> fits (c_seg m) (c_bdry m) -> fits (i_seg i) (i_bdry i) ->
  ht (i_seg i) = ht (c_seg m) -> wd (i_seg i) = wd (c_seg m) -> binary_maps (c_bdry m) -> binary_maps (i_bdry i) ->
  incl (i_cats i) (c_present m) -> (forall c, In c (i_cats i) -> 1 <= c <= Z.of_nat (List.length (c_bdry m))) -> (List.length (i_cats i) <= List.length (i_bdry i))%nat ->
  exists b, load_instance_sensitive_gt d p q = Ok (b, c_seg m, c_present m) /\
    maps_are (ht (c_seg m)) (wd (c_seg m)) (List.length (c_bdry m)) b (fun c y x =>
      marked (c_bdry m) (Z.to_nat (c - 1)) y x \/ exists k, nth_error (i_cats i) k = Some c /\ marked (i_bdry i) k y x).
Proof.
  intros d p q m i Dp Dq Fm Fi Eh Ew Bm Bi Inc Rc Lc. unfold load_instance_sensitive_gt.
  rewrite (load_cls_ok d p m Dp Fm). cbn [bind]. rewrite (load_inst_ok d q i Dq Fi). cbn [bind].
  replace (forallb (fun c => memZ c (c_present m)) (i_cats i)) with true by (symmetry; apply forallb_forall; intros c I; apply memZ_spec, Inc, I). cbn [negb].
  set (h := ht (c_seg m)) in *. set (w := wd (c_seg m)) in *. set (n := List.length (c_bdry m)) in *.
  assert (G : forall cats j b edge, (forall c, In c cats -> 1 <= c <= Z.of_nat n) -> (j + List.length cats <= List.length (i_bdry i))%nat -> maps_are h w n b edge ->
    exists b', add_instances (mkStack (ht (i_seg i)) (wd (i_seg i)) (map (fun s => imap (wrap 8) (sparse2numpy s)) (i_bdry i))) (Z.of_nat j) cats b = Ok b' /\
      maps_are h w n b' (fun c y x => edge c y x \/ exists k, nth_error cats k = Some c /\ marked (i_bdry i) (j + k) y x)).
  { induction cats as [|c cats IH]; intros j b edge R L M.
    - exists b. split; [reflexivity|]. eapply maps_ext; [exact M|]. intros c y x _ _. split; [tauto|]. intros [H|([|k] & X & _)]; [exact H|discriminate|discriminate].
    - cbn [add_instances List.length] in *. destruct (chan_marked (i_seg i) (i_bdry i) j Fi Bi ltac:(lia)) as (e & Ee & He). rewrite Ee. cbn [bind].
      destruct (stack_or_ok h w n b c e edge (marked (i_bdry i) j) M (R c (or_introl eq_refl)) ltac:(intros y x _; apply He)) as (b1 & E1 & M1). rewrite E1. cbn [bind].
      replace (Z.of_nat j + 1) with (Z.of_nat (S j)) by lia.
      destruct (IH (S j) b1 _ ltac:(intros c' I; apply R; right; exact I) ltac:(lia) M1) as (b2 & E2 & M2). exists b2. split; [exact E2|]. eapply maps_ext; [exact M2|]. intros c' y x _ _. split.
      + intros [[H|(-> & H)]|(k & X & H)]; [left; exact H|right; exists 0%nat; rewrite Nat.add_0_r; auto|right; exists (S k); split; [exact X|]]. rewrite Nat.add_succ_r. exact H.
      + intros [H|([|k] & X & H)]; [left; left; exact H| |].
        * injection X as ->. rewrite Nat.add_0_r in H. left; right. auto.
        * right. exists k. split; [exact X|]. rewrite Nat.add_succ_r in H. exact H. }
  destruct (G (i_cats i) 0%nat _ _ Rc ltac:(lia) (loaded_maps (c_seg m) (c_bdry m) Fm Bm)) as (b & E & M). change (Z.of_nat 0) with 0 in E. exists b. split; [|exact M]. fold h w. fold h w in E. rewrite E. reflexivity.
Qed.
Print Assumptions instance_sensitive_maps.
(** *** C53, theorem 3: [load_reanno_instance_sensitive_gt]: for the present categories the union of the two
    annotated maps, for the others the class map. *)
Theorem reanno_instance_sensitive_maps : forall d p q m i,
  d p = Some (ClsMat m) -> d q = Some (InstMat i) -> fits (c_seg m) (c_bdry m) -> fits (i_seg i) (i_bdry i) ->
  ht (i_seg i) = ht (c_seg m) -> wd (i_seg i) = wd (c_seg m) -> binary_maps (c_bdry m) -> binary_maps (i_bdry i) ->
  incl (i_cats i) (c_present m) -> (forall c, In c (c_present m) -> 1 <= c <= Z.of_nat (List.length (c_bdry m))) -> List.length (i_bdry i) = List.length (c_bdry m) ->
  exists b, load_reanno_instance_sensitive_gt d p q = Ok (b, c_seg m, c_present m) /\
    maps_are (ht (c_seg m)) (wd (c_seg m)) (List.length (c_bdry m)) b (fun c y x =>
      marked (c_bdry m) (Z.to_nat (c - 1)) y x \/ In c (c_present m) /\ marked (i_bdry i) (Z.to_nat (c - 1)) y x).
Proof.
  intros d p q m i Dp Dq Fm Fi Eh Ew Bm Bi Inc Rc Lc. unfold load_reanno_instance_sensitive_gt.
  rewrite (load_cls_ok d p m Dp Fm). cbn [bind]. rewrite (load_inst_ok d q i Dq Fi). cbn [bind].
  replace (forallb (fun c => memZ c (c_present m)) (i_cats i)) with true by (symmetry; apply forallb_forall; intros c I; apply memZ_spec, Inc, I). cbn [negb].
  cbn [chans s_h s_w]. rewrite !map_length, Lc, Eh, Ew, !Nat.eqb_refl. cbn [andb negb]. rewrite <- Eh, <- Ew.
  assert (Lm := loaded_maps (c_seg m) (c_bdry m) Fm Bm). rewrite <- Eh, <- Ew in Lm.
  set (h := ht (i_seg i)) in *. set (w := wd (i_seg i)) in *. set (n := List.length (c_bdry m)) in *.
  assert (G : forall cats b edge, (forall c, In c cats -> 1 <= c <= Z.of_nat n) -> maps_are h w n b edge ->
    exists b', add_categories (mkStack h w (map (fun s => imap (wrap 8) (sparse2numpy s)) (i_bdry i))) cats b = Ok b' /\
      maps_are h w n b' (fun c y x => edge c y x \/ In c cats /\ marked (i_bdry i) (Z.to_nat (c - 1)) y x)).
  { induction cats as [|c cats IH]; intros b edge R M.
    - exists b. split; [reflexivity|]. eapply maps_ext; [exact M|]. intros c y x _ _. split; [tauto|]. intros [H|([] & _)]. exact H.
    - cbn [add_categories]. assert (Rcc := R c (or_introl eq_refl)). destruct (chan_marked (i_seg i) (i_bdry i) (Z.to_nat (c - 1)) Fi Bi ltac:(lia)) as (e & Ee & He).
      rewrite Z2Nat.id in Ee by lia. fold h w in Ee. rewrite Ee. cbn [bind].
      destruct (stack_or_ok h w n b c e edge (marked (i_bdry i) (Z.to_nat (c - 1))) M Rcc ltac:(intros y x _; apply He)) as (b1 & E1 & M1). rewrite E1. cbn [bind].
      destruct (IH b1 _ ltac:(intros c' I; apply R; right; exact I) M1) as (b2 & E2 & M2). exists b2. split; [exact E2|]. eapply maps_ext; [exact M2|]. intros c' y x _ _. split.
      + intros [[H|(-> & H)]|(X & H)]; [left; exact H|right; split; [left; reflexivity|exact H]|right; split; [right; exact X|exact H]].
      + intros [H|([->|X] & H)]; [left; left; exact H|left; right; auto|right; auto]. }
  destruct (G (c_present m) _ _ Rc Lm) as (b & E & M). exists b. split; [|exact M]. fold h w. fold h w in E. rewrite E. reflexivity.
Qed.
Print Assumptions reanno_instance_sensitive_maps.
(** An instance of a category that is not listed as present is refused by both loaders ... *)
Theorem unlisted_category_is_refused : forall d p q m i c,
  d p = Some (ClsMat m) -> d q = Some (InstMat i) -> fits (c_seg m) (c_bdry m) -> fits (i_seg i) (i_bdry i) -> In c (i_cats i) -> ~ In c (c_present m) ->
  load_instance_sensitive_gt d p q = Err AssertionError /\ load_reanno_instance_sensitive_gt d p q = Err AssertionError.
Proof.
  intros d p q m i c Dp Dq Fm Fi Hc Hn. unfold load_instance_sensitive_gt, load_reanno_instance_sensitive_gt.
  rewrite (load_cls_ok d p m Dp Fm). cbn [bind]. rewrite (load_inst_ok d q i Dq Fi). cbn [bind].
  replace (forallb (fun c => memZ c (c_present m)) (i_cats i)) with false; [split; reflexivity|].
  symmetry. apply not_true_iff_false. intros X. rewrite forallb_forall in X. apply Hn, memZ_spec, X, Hc.
Qed.
Print Assumptions unlisted_category_is_refused.

(** ** Re-annotated images *)
Section Reanno.
Variables (dirs : text -> bool) (d : mats) (root out : text).
Hypothesis Root : directory root.
Hypothesis Out : directory out.
Hypothesis OutR : relative out.
Hypothesis Dirs : reanno_dirs dirs root out.
Lemma folder_component thin : component (reanno_folder thin).
Proof. destruct thin; (split; [discriminate|vm_compute; intuition discriminate]). Qed.
Lemma reanno_paths thin n : relative n -> n <> [] ->
  path_join root (reanno_folder thin) = root ++ lit "/" ++ reanno_folder thin /\
  path_join (root ++ lit "/" ++ reanno_folder thin) (lit "cls") = root ++ lit "/" ++ reanno_folder thin ++ lit "/cls" /\
  path_join (root ++ lit "/" ++ reanno_folder thin) (lit "inst") = root ++ lit "/" ++ reanno_folder thin ++ lit "/inst" /\
  path_join (root ++ lit "/" ++ reanno_folder thin ++ lit "/cls") (n ++ lit ".mat") = root ++ lit "/" ++ reanno_folder thin ++ lit "/cls/" ++ n ++ lit ".mat" /\
  path_join (root ++ lit "/" ++ reanno_folder thin ++ lit "/inst") (n ++ lit ".mat") = root ++ lit "/" ++ reanno_folder thin ++ lit "/inst/" ++ n ++ lit ".mat".
Proof.
  intros R N. assert (F := folder_component thin). set (f := reanno_folder thin) in *. clearbody f.
  assert (Df : directory (root ++ lit "/" ++ f)) by (apply (directory_join root f), component_directory, F).
  assert (Cc : component (lit "cls")) by (split; [discriminate|vm_compute; intuition discriminate]).
  assert (Ci : component (lit "inst")) by (split; [discriminate|vm_compute; intuition discriminate]).
  assert (Ec : path_join (root ++ lit "/" ++ f) (lit "cls") = root ++ lit "/" ++ f ++ lit "/cls") by (rewrite join_directory; [rewrite <- !app_assoc; reflexivity|exact Df|discriminate]).
  assert (Ei : path_join (root ++ lit "/" ++ f) (lit "inst") = root ++ lit "/" ++ f ++ lit "/inst") by (rewrite join_directory; [rewrite <- !app_assoc; reflexivity|exact Df|discriminate]).
  assert (Dc : directory (root ++ lit "/" ++ f ++ lit "/cls")).
  { assert (X := directory_join (root ++ lit "/" ++ f) (lit "cls") (component_directory _ Cc)). rewrite <- !app_assoc in X. exact X. }
  assert (Di : directory (root ++ lit "/" ++ f ++ lit "/inst")).
  { assert (X := directory_join (root ++ lit "/" ++ f) (lit "inst") (component_directory _ Ci)). rewrite <- !app_assoc in X. exact X. }
  split; [apply join_directory; [exact Root|apply component_relative; exact F]|]. split; [exact Ec|]. split; [exact Ei|]. split.
  - rewrite join_directory; [rewrite <- !app_assoc; reflexivity|exact Dc|apply relative_app; assumption].
  - rewrite join_directory; [rewrite <- !app_assoc; reflexivity|exact Di|apply relative_app; assumption].
Qed.
(** *** C53, theorem 4: the two files written for a re-annotated image. *)
Theorem reanno_files : forall n thin m i, relative n -> n <> [] -> reannotated d root thin n m i ->
  exists p q, sbd_reanno_routine dirs d root out (n, thin) = Ok [(sbd_file root out n (reanno_suffix thin false), p); (sbd_file root out n (reanno_suffix thin true), q)] /\
    reanno_content m i false p /\ reanno_content m i true q.
Proof.
  intros n thin m i R N (Dc & Di & Fm & Fi & Eh & Ew & Bm & Bi & Lm & Li & Inc & Pr).
  destruct (reanno_paths thin n R N) as (P0 & P1 & P2 & P3 & P4). destruct Dirs as (D1 & D2). destruct (D2 thin) as (D3 & D4 & D5).
  destruct (reanno_instance_sensitive_maps d _ _ m i Dc Di Fm Fi Eh Ew Bm Bi Inc ltac:(rewrite Lm; exact Pr) ltac:(congruence)) as (b & Eb & Mb).
  assert (Ma := loaded_maps (c_seg m) (c_bdry m) Fm Bm). rewrite Lm in Ma, Mb.
  set (a := mkStack (ht (c_seg m)) (wd (c_seg m)) _) in Ma.
  assert (Ea := load_cls_ok d _ m Dc Fm). fold a in Ea.
  destruct (png20 a) as (pa & Pa & Qa); [apply Ma|apply Ma|apply Ma|]. destruct (png20 b) as (pb & Pb & Qb); [apply Mb|apply Mb|apply Mb|].
  exists (Colour pa), (Colour pb). split; [|split].
  - assert (E : forall s1 s2, reanno_routine dirs d n (root ++ lit "/" ++ reanno_folder thin) (root ++ lit "/" ++ out) s1 s2 = Ok [(sbd_file root out n s1, Colour pa); (sbd_file root out n s2, Colour pb)]).
    { intros s1 s2. unfold reanno_routine. cbv zeta. rewrite D1, P1, P2, D4, D5. cbn [negb]. rewrite P3, P4, Dc, Di. cbn [negb]. rewrite Eb. cbn [bind]. rewrite Ea. cbn [bind].
      rewrite Pa. cbn [bind]. rewrite Pb. cbn [bind]. rewrite !(out_names root out Out) by assumption. reflexivity. }
    unfold sbd_reanno_routine. cbn [fst snd]. rewrite (save_dir_eq root out Root OutR). destruct thin; cbn [reanno_folder] in P0; rewrite P0; apply E.
  - exists a. split; [exact Qa|]. eapply maps_ext; [exact Ma|]. intros c y x _ _. cbv beta. split; [tauto|]. intros [H|(X & _)]; [exact H|discriminate].
  - exists b. split; [exact Qb|]. eapply maps_ext; [exact Mb|]. intros c y x _ _. cbv beta. tauto.
Qed.
Lemma reanno_suffix_free t t' j j' n n' : n ++ reanno_suffix t j = n' ++ reanno_suffix t' j' -> n = n' /\ t = t' /\ j = j'.
Proof.
  intros E.
  assert (S : forall t j t' j', endswith (reanno_suffix t j) (reanno_suffix t' j') = Bool.eqb t t' && Bool.eqb j j') by (intros [] [] [] []; reflexivity).
  assert (K : forall t j t' j' n n', (List.length (reanno_suffix t' j') <= List.length (reanno_suffix t j))%nat -> n ++ reanno_suffix t j = n' ++ reanno_suffix t' j' -> t = t' /\ j = j').
  { clear - S. intros t j t' j' n n' L E. specialize (S t j t' j'). set (s := reanno_suffix t j) in *. set (s' := reanno_suffix t' j') in *.
    assert (X : endswith s s' = true).
    { apply endswith_spec. exists (skipn (List.length n) n').
      assert (Ln : (List.length n <= List.length n')%nat) by (assert (X := f_equal (@List.length ascii) E); rewrite !app_length in X; lia).
      assert (E2 : skipn (List.length n) (n ++ s) = skipn (List.length n) (n' ++ s')) by (rewrite E; reflexivity).
      rewrite skipn_app, skipn_all, Nat.sub_diag in E2. cbn [skipn app] in E2. rewrite skipn_app in E2.
      replace (List.length n - List.length n')%nat with 0%nat in E2 by lia. cbn [skipn] in E2. exact E2. }
    rewrite S in X. apply andb_true_iff in X. destruct X as (X1 & X2). apply eqb_prop in X1, X2. auto. }
  assert (H : t = t' /\ j = j').
  { destruct (Nat.le_ge_cases (List.length (reanno_suffix t' j')) (List.length (reanno_suffix t j))) as [L|L]; [apply (K t j t' j' n n'); assumption|].
    destruct (K t' j' t j n' n L (eq_sym E)). auto. }
  destruct H as [<- <-]. split; [apply app_inv_tail in E; exact E|auto].
Qed.
(** *** C53, theorem 5: the run over the re-annotated images: every listed image gets its files, nothing else
    on the disk changes; the list of names written is the one of the unthinned annotations, and reading it back
    gives exactly these names. *)
Theorem reanno_run : forall raw thin_ k,
  (forall n, In n raw -> relative n /\ n <> [] /\ exists m i, reannotated d root false n m i) ->
  (forall n, In n thin_ -> relative n /\ n <> [] /\ exists m i, reannotated d root true n m i) ->
  exists names k', sbd_reanno dirs d root out raw thin_ k = (Ok names, k') /\ (Forall one_line raw -> read_split names = raw) /\
    (forall n (thin inst : bool) m i, In n (if thin then thin_ else raw) -> reannotated d root thin n m i ->
       exists p, k' (sbd_file root out n (reanno_suffix thin inst)) = Some p /\ reanno_content m i inst p) /\
    (forall q, (forall n (thin inst : bool), In n (if thin then thin_ else raw) -> q <> sbd_file root out n (reanno_suffix thin inst)) -> k' q = k q).
Proof.
  intros raw thin_ k Hr Ht.
  set (files := sbd_reanno_routine dirs d root out). set (w := fun job : text * bool => match files job with Ok w => w | Err _ => [] end).
  set (jobs := map (fun n : text => (n, false)) raw ++ map (fun n : text => (n, true)) thin_).
  assert (J : forall n (t : bool), In (n, t) jobs <-> In n (if t then thin_ else raw)).
  { intros n t. unfold jobs. rewrite in_app_iff, !in_map_iff. split.
    - intros [(x & E & I)|(x & E & I)]; injection E as <- <-; exact I.
    - destruct t; intros I; [right|left]; exists n; auto. }
  assert (G : forall n t, In (n, t) jobs -> relative n /\ n <> [] /\ exists m i, reannotated d root t n m i) by (intros n t I; apply J in I; destruct t; [apply Ht|apply Hr]; exact I).
  assert (W : forall n t m i, In (n, t) jobs -> reannotated d root t n m i -> files (n, t) = Ok (w (n, t)) /\ exists p q, w (n, t) = [(sbd_file root out n (reanno_suffix t false), p); (sbd_file root out n (reanno_suffix t true), q)] /\ reanno_content m i false p /\ reanno_content m i true q).
  { intros n t m i I A. destruct (G n t I) as (R & N & _). destruct (reanno_files n t m i R N A) as (p & q & E & C1 & C2). unfold w, files. rewrite E. split; [reflexivity|]. exists p, q. auto. }
  assert (Inj : forall n s n' s', sbd_file root out n s = sbd_file root out n' s' -> n ++ s = n' ++ s').
  { intros n s n' s' E. unfold sbd_file in E. apply app_inv_head, app_inv_head, app_inv_head, app_inv_head in E. exact E. }
  exists (write_lines raw), (place_all (flat_map w jobs) k). split; [|split; [|split]].
  - unfold sbd_reanno. destruct (reanno_paths false (lit "x") ltac:(discriminate) ltac:(discriminate)) as (P0 & _). destruct (reanno_paths true (lit "x") ltac:(discriminate) ltac:(discriminate)) as (P1 & _).
    destruct Dirs as (_ & D2). cbn [reanno_folder] in P0, P1. rewrite P0, P1. rewrite (proj1 (D2 false) : dirs (root ++ lit "/" ++ lit "gt_reanno_raw") = true), (proj1 (D2 true) : dirs (root ++ lit "/" ++ lit "gt_reanno_thin") = true). cbn [negb].
    fold files. fold jobs. rewrite (run_routines_ok files w); [reflexivity|]. intros [n t] I. destruct (G n t I) as (_ & _ & m & i & A). apply (W n t m i I A).
  - apply split_file_round_trip.
  - intros n thin inst m i I A. apply J in I. destruct (W n thin m i I A) as (_ & p & q & E & C1 & C2).
    exists (if inst then q else p). split; [|destruct inst; assumption]. apply place_all_in.
    + apply in_flat_map. exists (n, thin). split; [exact I|]. rewrite E. destruct inst; [right; left|left]; reflexivity.
    + intros p' I'. apply in_flat_map in I'. destruct I' as ([n' t'] & I' & Wp). destruct (G n' t' I') as (_ & _ & m' & i' & A').
      destruct (W n' t' m' i' I' A') as (_ & p2 & q2 & E' & _). assert (Wq := Wp). rewrite E' in Wp. destruct Wp as [X|[X|[]]]; apply pair_equal_spec in X; destruct X as (X & <-); apply Inj, reanno_suffix_free in X; destruct X as (-> & -> & <-);
        rewrite E in E'; injection E' as -> ->; reflexivity.
  - intros q Q. apply place_all_out. intros p I. apply in_flat_map in I. destruct I as ([n t] & I & Wp). destruct (G n t I) as (_ & _ & m & i & A).
    destruct (W n t m i I A) as (_ & p1 & q1 & E & _). rewrite E in Wp. apply J in I. destruct Wp as [X|[X|[]]]; apply pair_equal_spec in X; destruct X as (X & _); [apply (Q n t false I)|apply (Q n t true I)]; symmetry; exact X.
Qed.
End Reanno.
Print Assumptions reanno_files.
Print Assumptions reanno_run.
(** The names of images that only have thinned annotations are not listed. *)
Theorem thinned_names_are_not_listed : forall dirs d root out raw thin_ k names k', sbd_reanno dirs d root out raw thin_ k = (Ok names, k') -> Forall one_line raw -> forall n, In n thin_ -> ~ In n raw -> ~ In n (read_split names).
Proof.
  intros dirs d root out raw thin_ k names k' E F n _ N. unfold sbd_reanno in E. destruct (negb _); [discriminate|]. destruct (negb _); [discriminate|]. destruct (run_routines _ _ _) as [[[]|] ?]; [|discriminate].
  injection E as <- _. rewrite split_file_round_trip by exact F. exact N.
Qed.
Print Assumptions thinned_names_are_not_listed.

(** ** Sample lists *)
Lemma split_by_LF names : Forall (fun n => ~ In LF n) names -> split_by (Ascii.eqb LF) (write_lines names) = names ++ [[]].
Proof.
  induction 1 as [|n names H F IH]; [reflexivity|]. unfold write_lines in *. cbn [map List.concat app]. rewrite <- app_assoc. cbn [app].
  rewrite split_by_app; [rewrite IH; reflexivity| |reflexivity].
  apply Forall_forall. intros c I. destruct (Ascii.eqb_spec LF c) as [<-|]; [contradiction|reflexivity].
Qed.
(** *** C52, theorem 10: the conversion reads exactly the names written to a list, one per line, whatever the
    line ends. *)
Theorem sbd_list_round_trip : forall eol names, In eol [[LF]; [CR; LF]; [CR]] -> Forall (fun n => ~ In CR n /\ ~ In LF n) names ->
  get_samples (List.concat (map (fun n : text => n ++ eol) names)) = names.
Proof.
  intros eol names He F. unfold get_samples. rewrite line_ends by assumption. rewrite split_by_LF; [apply drop_last|]. eapply Forall_impl; [|exact F]. intros n (_ & H). exact H.
Qed.
Print Assumptions sbd_list_round_trip.
(** Conversion and evaluation take the same names from a list without unusual line breaks ... *)
Theorem sbd_lists_agree : forall content, (forall c, In c content -> is_linebreak c = true -> c = LF \/ c = CR) -> get_samples content = read_split content.
Proof.
  intros content H. unfold get_samples, read_split, splitlines. f_equal.
  assert (G : forall k t, (List.length t <= k)%nat -> (forall c, In c t -> is_linebreak c = true -> c = LF \/ c = CR) -> forall c, In c (universal_newlines t) -> is_linebreak c = true -> c = LF).
  { clear. induction k as [|k IH]; intros t L H c I B; [destruct t; [destruct I|cbn in L; lia]|]. destruct t as [|a t]; [destruct I|]. cbn [universal_newlines] in I. cbn [List.length] in L.
    destruct (Ascii.eqb_spec a CR) as [->|Na].
    - destruct t as [|b t]; [destruct I as [<-|[]]; reflexivity|]. destruct (Ascii.eqb b LF).
      + destruct I as [<-|I]; [reflexivity|]. apply (IH t ltac:(cbn in L; lia)); auto. intros c' I'. apply H. right. right. exact I'.
      + destruct I as [<-|I]; [reflexivity|]. apply (IH (b :: t) ltac:(lia)); auto. intros c' I'. apply H. right. exact I'.
    - destruct I as [<-|I]; [destruct (H a (or_introl eq_refl) B); [assumption|contradiction]|]. apply (IH t ltac:(lia)); auto. intros c' I'. apply H. right. exact I'. }
  specialize (G _ content (le_n _) H). revert G. generalize (universal_newlines content). clear. induction t as [|c t IH]; intros G; [reflexivity|]. cbn [split_by].
  rewrite IH by (intros c' I'; apply G; right; exact I'). replace (Ascii.eqb LF c) with (is_linebreak c); [reflexivity|].
  destruct (is_linebreak c) eqn:B; [rewrite (G c (or_introl eq_refl) B); reflexivity|]. destruct (Ascii.eqb_spec LF c) as [<-|]; [discriminate|reflexivity].
Qed.
Print Assumptions sbd_lists_agree.
(** ... with a form feed in a name they differ. *)
Theorem sbd_lists_always_agree_refuted : ~ (forall content, get_samples content = read_split content).
Proof. intros H. specialize (H (lit "a" ++ chr 12 :: lit "b")). discriminate. Qed.
Print Assumptions sbd_lists_always_agree_refuted.

(** ** The hypotheses can be met *)
(** A diagonal of 22 pixels as class boundary; an instance boundary in column 3. *)
Definition ex_diag : csc := csc_of 22 (map (fun k => [(Z.of_nat k, 1)]) (seq 0 22)).
Definition ex_col : csc := csc_of 22 (map (fun k => if Nat.eqb k 3 then map (fun y => (Z.of_nat y, 1)) (seq 0 22) else []) (seq 0 22)).
Definition ex_none : csc := csc_of 22 (map (fun _ => []) (seq 0 22)).
Definition ex_cls : cls_mat := mkCls (ex_none :: ex_diag :: repeat ex_none 18) (tab 22 22 (fun y x => if y <? x then 2 else 0)) [2].
Definition ex_inst : inst_mat := mkInst (tab 22 22 (fun y x => if y <? x then 1 else 0)) (ex_none :: ex_col :: repeat ex_none 18) [2].
Lemma binary_px s : forallb (fun yx => let v := px 0 (sparse2numpy s) (fst yx) (snd yx) in (v =? 0) || (v =? 1)) (coords (sp_h s) (sp_w s)) = true ->
  forall y x, px 0 (sparse2numpy s) y x = 0 \/ px 0 (sparse2numpy s) y x = 1.
Proof.
  intros H y x. destruct (inb (sp_h s) (sp_w s) y x) eqn:I; [|left; unfold sparse2numpy; rewrite px_tab, I; reflexivity].
  rewrite forallb_forall in H. specialize (H (y, x) ltac:(apply in_coords; exact I)). cbn [fst snd] in H. lia.
Qed.
Lemma ex_binary : binary_maps (c_bdry ex_cls) /\ binary_maps (i_bdry ex_inst).
Proof.
  assert (B : forall y x s, In s [ex_none; ex_diag; ex_col] -> px 0 (sparse2numpy s) y x = 0 \/ px 0 (sparse2numpy s) y x = 1).
  { intros y x s I. apply binary_px. repeat (destruct I as [<-|I]; [vm_compute; reflexivity|]). destruct I. }
  split; intros s y x I; apply B; cbn [c_bdry i_bdry ex_cls ex_inst] in I; destruct I as [<-|[<-|I]]; try (cbn; tauto); apply repeat_spec in I; subst s; cbn; tauto.
Qed.
Example ex_reanno_pair : reanno_pair ex_cls ex_inst.
Proof.
  assert (F : forall s, In s [ex_none; ex_diag; ex_col] -> sp_h s = 22%nat /\ sp_w s = 22%nat) by (intros s I; repeat (destruct I as [<-|I]; [split; reflexivity|]); destruct I).
  destruct ex_binary as [B1 B2]. repeat split; try assumption; try reflexivity.
  - apply Forall_forall. intros s I. apply F. cbn [c_bdry ex_cls] in I. destruct I as [<-|[<-|I]]; try (cbn; tauto). apply repeat_spec in I. subst s. cbn; tauto.
  - apply Forall_forall. intros s I. apply F. cbn [i_bdry ex_inst] in I. destruct I as [<-|[<-|I]]; try (cbn; tauto). apply repeat_spec in I. subst s. cbn; tauto.
  - intros c I. exact I.
  - destruct H as [<-|[]]; lia.
  - destruct H as [<-|[]]; lia.
Qed.
(** Class 2 of the re-annotated pair: the diagonal, and with instances also column 3. *)
Example ex_reanno_maps : (forall y x, marked (c_bdry ex_cls) 1 y x <-> px 0 (sparse2numpy ex_diag) y x = 1) /\ px 0 (sparse2numpy ex_diag) 7 7 = 1 /\ px 0 (sparse2numpy ex_diag) 7 8 = 0 /\ px 0 (sparse2numpy ex_col) 7 3 = 1.
Proof.
  split; [|vm_compute; auto]. intros y x. unfold marked. cbn [c_bdry ex_cls nth_error]. split; [intros (s & E & H); injection E as <-; exact H|intros H; exists ex_diag; auto].
Qed.
Definition ex_root : text := lit "/data/sbd".
Definition ex_mats : mats := fun p =>
  if text_eqb p (lit "/data/sbd/cls_orig/img.mat") then Some (ClsMat ex_cls) else
  if text_eqb p (lit "/data/sbd/inst_orig/img.mat") then Some (InstMat ex_inst) else
  if text_eqb p (lit "/data/sbd/gt_reanno_raw/cls/img.mat") then Some (ClsMat ex_cls) else
  if text_eqb p (lit "/data/sbd/gt_reanno_raw/inst/img.mat") then Some (InstMat ex_inst) else None.
Example ex_annotated : annotated ex_mats ex_root (lit "img") ex_cls ex_inst /\ reannotated ex_mats ex_root false (lit "img") ex_cls ex_inst /\ get_samples (lit "img" ++ [LF]) = [lit "img"].
Proof.
  destruct ex_reanno_pair as (F1 & F2 & E1 & E2 & _).
  split; [|split; [split; [reflexivity|split; [reflexivity|exact ex_reanno_pair]]|reflexivity]].
  split; [reflexivity|]. split; [reflexivity|]. split; [split; [apply wf_tab|split; [cbn; lia|exact F1]]|]. split; [apply wf_tab|]. split; [exact E1|]. split; [exact E2|]. split; [exact F2|].
  split; [intros c [<-|[]]; lia|cbn; lia].
Qed.
