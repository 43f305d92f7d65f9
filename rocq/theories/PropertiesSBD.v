(** C52: preparing SBD (helpers/convert_sbd.py, scripts/convert_datasets/sbd.py). *)
From Verif Require Import SpecSBD ProofsImage ProofsThin ProofsLabels ProofsEdges ProofsEdges2 PropertiesLabels PropertiesEdges PropertiesEdges2
  ProofsPaths ProofsConvert PropertiesConvert PropertiesSamples PropertiesFiles.
From Coq Require Import ZifyBool ZifyNat Lia.
Open Scope Z_scope.
Open Scope list_scope.

Lemma bordered_eq seg : add_ignore_pixel seg 5 21 = bordered seg.
Proof.
  apply img_ext with (d := 0); [apply wf_tab|apply wf_tab|split; reflexivity|]. intros y x I.
  change (inb (ht seg) (wd seg) y x = true) in I. rewrite add_ignore_px by (try exact I; lia). unfold bordered. rewrite px_tab, I. unfold interiorb.
  match goal with |- (if ?a then _ else _) = (if ?b then _ else _) => destruct a eqn:A, b eqn:B end; try reflexivity; lia.
Qed.
Lemma interiorb_spec im y x : interiorb im y x = true <-> interior im y x.
Proof. unfold interiorb, interior. lia. Qed.
Lemma region_class seg c : 0 <= c <= 20 -> region (bordered seg) c = class_region seg c.
Proof.
  intros Hc. unfold region, class_region. change (ht (bordered seg)) with (ht seg). change (wd (bordered seg)) with (wd seg).
  apply tab_ext. intros y x I. unfold bordered. rewrite px_tab, I. destruct (interiorb seg y x); [reflexivity|]. cbn [andb]. replace (21 =? c) with false by lia. reflexivity.
Qed.
Lemma region_void seg : ignored_region (bordered seg) SBD_labelIds [21] = void_region seg.
Proof.
  unfold ignored_region, void_region. change (ht (bordered seg)) with (ht seg). change (wd (bordered seg)) with (wd seg).
  apply tab_ext. intros y x I. cbn [existsb]. change (nth (Z.to_nat 21) SBD_labelIds 0) with 21. rewrite orb_false_r.
  unfold bordered. rewrite px_tab, I. destruct (interiorb seg y x); reflexivity.
Qed.
Lemma sbd_label_nth l : 0 <= l < 22 -> nth (Z.to_nat l) SBD_labelIds 0 = l.
Proof. intros H. unfold SBD_labelIds, zseq. change 0 with (Z.of_nat 0) at 1. rewrite map_nth, seq_nth by lia. lia. Qed.
Lemma sbd_in l t : In (l, t) SBD_label2trainId -> 1 <= l <= 20 /\ t = l - 1.
Proof.
  intros H. assert (F : forallb (fun p => (1 <=? fst p) && (fst p <=? 20) && (snd p =? fst p - 1)) SBD_label2trainId = true) by reflexivity.
  rewrite forallb_forall in F. specialize (F _ H). cbn [fst snd] in F. lia.
Qed.
Lemma sbd_has c : 1 <= c <= 20 -> In (c, c - 1) SBD_label2trainId.
Proof.
  intros H. assert (F : forall k, In k (seq 1 20) -> In (Z.of_nat k, Z.of_nat k - 1) SBD_label2trainId).
  { assert (G : forallb (fun k => existsb (fun p => (fst p =? Z.of_nat k) && (snd p =? Z.of_nat k - 1)) SBD_label2trainId) (seq 1 20) = true) by reflexivity.
    rewrite forallb_forall in G. intros k I. specialize (G k I). apply existsb_exists in G. destruct G as ([a b] & I' & E). cbn [fst snd] in E.
    replace (Z.of_nat k) with a by lia. replace (a - 1) with b by lia. exact I'. }
  specialize (F (Z.to_nat c)). rewrite Z2Nat.id in F by lia. apply F. apply in_seq. lia.
Qed.

(** ** Loading *)
Lemma dense_ok h w l : Forall (fun s => sp_h s = h /\ sp_w s = w) l -> dense h w l = Ok (map (fun s => imap (wrap 8) (sparse2numpy s)) l).
Proof.
  induction l as [|s l IH]; intros F; [reflexivity|]. inversion F as [|? ? (A & B) F']; subst. cbn [dense map]. rewrite !Nat.eqb_refl. cbn [andb]. rewrite IH by exact F'. reflexivity.
Qed.
Lemma load_cls_ok d p m : d p = Some (ClsMat m) -> fits (c_seg m) (c_bdry m) ->
  load_cls d p = Ok (mkStack (ht (c_seg m)) (wd (c_seg m)) (map (fun s => imap (wrap 8) (sparse2numpy s)) (c_bdry m)), c_seg m, c_present m).
Proof. intros E F. unfold load_cls, np_boundaries. rewrite E, dense_ok by exact F. reflexivity. Qed.
Lemma load_inst_ok d p m : d p = Some (InstMat m) -> fits (i_seg m) (i_bdry m) ->
  load_inst d p = Ok (mkStack (ht (i_seg m)) (wd (i_seg m)) (map (fun s => imap (wrap 8) (sparse2numpy s)) (i_bdry m)), i_seg m, i_cats m).
Proof. intros E F. unfold load_inst, np_boundaries. rewrite E, dense_ok by exact F. reflexivity. Qed.

(** ** Train ids *)
Lemma sbd_conversion s : List.length (chans s) = 22%nat -> wf_stack s -> binary_stack s ->
  exists t, edge_label2trainId s SBD_label2trainId = Ok t /\ List.length (chans t) = 20%nat /\ s_h t = s_h s /\ s_w t = s_w s /\ wf_stack t /\ binary_stack t /\
    forall c y x, 1 <= c <= 20 -> px 0 (channel t (c - 1)) y x = px 0 (channel s c) y x.
Proof.
  intros L W B. destruct shipped_tables_are_numberings as (_ & NS & _ & LS & _).
  destruct (edge_conversion s SBD_label2trainId NS) as (t & Et & Lt & Ht & Wt & P).
  { intros l t H. apply sbd_in in H. lia. }
  assert (Ech : forall k, (k < 20)%nat -> nth k (chans t) (zeros (s_h t) (s_w t)) = nth (S k) (chans s) (zeros (s_h s) (s_w s))).
  { intros k Hk. unfold edge_label2trainId in Et.
    destruct (l2t_loop_ok s SBD_label2trainId 20) with (acc := repeat (tab (s_h s) (s_w s) (fun _ _ => 0)) 20) as (out & E & Lo & P1 & _).
    - intros l' t' H. apply sbd_in in H. lia.
    - apply NS.
    - reflexivity.
    - change (List.length SBD_label2trainId) with 20%nat in Et. rewrite E in Et. cbn [bind] in Et. injection Et as <-. cbn [chans s_h s_w].
      specialize (P1 _ _ (sbd_has (Z.of_nat k + 1) ltac:(lia))). replace (Z.to_nat (Z.of_nat k + 1 - 1)) with k in P1 by lia.
      replace (Z.to_nat (Z.of_nat k + 1)) with (S k) in P1 by lia. exact P1. }
  exists t. split; [exact Et|]. split; [rewrite Lt; exact LS|]. split; [exact Ht|]. split; [exact Wt|].
  assert (LS' : List.length (chans t) = 20%nat) by (rewrite Lt; exact LS).
  split; [|split].
  - intros e He. apply In_nth with (d := zeros (s_h t) (s_w t)) in He. destruct He as (k & Hk & <-). rewrite Ech by lia. rewrite Ht, Wt. apply W, nth_In; lia.
  - intros e He y x. apply In_nth with (d := zeros (s_h t) (s_w t)) in He. destruct He as (k & Hk & <-). rewrite Ech by lia. apply B, nth_In; lia.
  - intros c y x Hc. exact (P c (c - 1) y x (sbd_has c Hc)).
Qed.

Lemma stack_binary h w s n : wf_stack s -> s_h s = h -> s_w s = w -> List.length (chans s) = n ->
  (forall k y x, 0 <= k < Z.of_nat n -> inb h w y x = true -> px 0 (channel s k) y x = 0 \/ px 0 (channel s k) y x = 1) -> binary_stack s.
Proof.
  intros W Eh Ew L B e He y x. destruct (W e He) as (W1 & W2 & W3).
  destruct (inb h w y x) eqn:I; [|left; apply px_out; [exact W1|]; rewrite W2, W3, Eh, Ew; exact I].
  apply In_nth with (d := zeros (s_h s) (s_w s)) in He. destruct He as (k & Hk & <-). specialize (B (Z.of_nat k) y x ltac:(lia) I). unfold channel in B. rewrite Nat2Z.id in B. exact B.
Qed.

Lemma void_ids i : In i [21] -> 0 <= i < Z.of_nat (List.length SBD_labelIds).
Proof. intros [<-|[]]. cbn; lia. Qed.

(** ** Semantic edges *)
(** *** C52, theorem 1: edge map c-1 of the semantic file: the band of the given radius around the pixels
    of class c at least five pixels away from the sides, borders with the void pixels not counting. *)
Theorem sbd_semantic_pixels : forall d p m radius, d p = Some (ClsMat m) -> sbd_class_file m -> 1 <= radius ->
  exists e, convert_mat2np d p None radius false 21 = Ok (e, bordered (c_seg m), None) /\
    edge_maps (ht (c_seg m)) (wd (c_seg m)) e (semantic_edge m radius).
Proof.
  intros d p m radius D (W & H & F) R. set (seg := c_seg m) in *.
  destruct (mask2edge_transform SBD_labelIds [21] radius (bordered seg) (wf_tab _ _ _) ltac:(discriminate) R H void_ids ltac:(cbn; lia))
    as (s & Es & Ls & Hs & Ws & P).
  change (List.length SBD_labelIds) with 22%nat in *. change (ht (bordered seg)) with (ht seg) in *. change (wd (bordered seg)) with (wd seg) in *.
  unfold mask2edge_call, mask2edge_ctor in Es. change (Nat.eqb (List.length SBD_labelIds) 0) with false in Es. replace (radius <? 1) with false in Es by lia. cbn [bind] in Es.
  destruct (mask2onehot (bordered seg) SBD_labelIds) as [mask|] eqn:Em; [|discriminate]. cbn [bind] in Es.
  destruct (loop_mask2edge mask [21] radius false false) as [e0|] eqn:El; [|discriminate]. cbn [bind to_train] in Es. injection Es as ->.
  assert (Wst : wf_stack s).
  { destruct (onehot_parts _ _ _ Em) as (Wm & _ & _ & _ & Lm).
    destruct (semantic_edges mask [21] radius false Wm) as (ign & r & _ & Er & Wr & _); [intros i [<-|[]]; rewrite Lm; cbn; lia|]. rewrite El in Er; injection Er as <-. exact Wr. }
  assert (Bst : binary_stack s).
  { apply (stack_binary (ht seg) (wd seg) s 22 Wst Hs Ws Ls). intros k y x Hk I. apply (P k y x Hk I). }
  destruct (sbd_conversion s Ls Wst Bst) as (t & Et & Lt & Ht & Wt & Wt' & Bt & Pt).
  exists t. split.
  - unfold convert_mat2np. rewrite (load_cls_ok d p m D F). cbn [bind]. fold seg. cbv zeta. rewrite bordered_eq, Em. cbn [bind]. rewrite El. cbn [bind]. rewrite Et. reflexivity.
  - split; [exact Wt'|]. split; [congruence|]. split; [congruence|]. split; [exact Lt|]. intros c y x Hc I. rewrite Pt by exact Hc.
    destruct (P c y x ltac:(lia) I) as (P1 & P2). split; [exact P1|]. rewrite P2. rewrite sbd_label_nth by lia. rewrite region_class by lia. rewrite region_void.
    unfold semantic_edge. fold seg. split; [tauto|]. intros X. split; [|exact X]. intros [E|[]]. lia.
Qed.
Print Assumptions sbd_semantic_pixels.

(** ** Instances *)
Lemma inst_inner_shape seg cat : forall ic i num out, wf out -> ht out = ht seg -> wd out = wd seg ->
  let r := inst_inner seg cat i num ic out in wf r /\ ht r = ht seg /\ wd r = wd seg.
Proof.
  induction ic as [|c ic IH]; intros i num out W H V; cbn [inst_inner]; [auto|]. destruct (cat =? c); apply IH; auto; try reflexivity. apply wf_tab.
Qed.
Lemma convert_inst_shape seg ic present : wf (convert_inst_seg seg ic present) /\ ht (convert_inst_seg seg ic present) = ht seg /\ wd (convert_inst_seg seg ic present) = wd seg.
Proof.
  unfold convert_inst_seg. assert (G : forall out, wf out -> ht out = ht seg -> wd out = wd seg ->
    let r := fold_left (fun out cat => inst_inner seg cat 0 0 ic out) present out in wf r /\ ht r = ht seg /\ wd r = wd seg).
  { induction present as [|c l IH]; intros out W H V; cbn [fold_left]; [auto|]. destruct (inst_inner_shape seg c ic 0 0 out W H V) as (A & B & C). apply IH; assumption. }
  apply G; [apply wf_tab|reflexivity|reflexivity].
Qed.
Lemma convert_inst_wf seg ic present : wf (convert_inst_seg seg ic present). Proof. apply convert_inst_shape. Qed.
Lemma convert_inst_dims seg ic present : ht (convert_inst_seg seg ic present) = ht seg /\ wd (convert_inst_seg seg ic present) = wd seg.
Proof. apply convert_inst_shape. Qed.
Section Instances.
Variables (m : cls_mat) (i : inst_mat).
Hypothesis Pair : sbd_pair m i.
Notation cats := (i_cats i).
Notation present := (c_present m).
Notation conv := (convert_inst_seg (i_seg i) cats present).
Lemma conv_px y x : inb (ht (i_seg i)) (wd (i_seg i)) y x = true ->
  (forall k, (k < List.length cats)%nat -> px 0 (i_seg i) y x = Z.of_nat k + 1 -> In (nth k cats 0) present ->
     px 0 conv y x = 1000 * nth k cats 0 + rank (nth k cats 0) cats k) /\
  ((forall k, (k < List.length cats)%nat -> px 0 (i_seg i) y x = Z.of_nat k + 1 -> ~ In (nth k cats 0) present) -> px 0 conv y x = 0).
Proof.
  intros I. destruct Pair as (_ & _ & _ & _ & _ & Rc & Lc). destruct (convert_inst_seg_spec (i_seg i) cats present y x I) as (P1 & P2). split.
  - intros k Hk E Hp. rewrite E in P1. replace (Z.to_nat (Z.of_nat k + 1 - 1)) with k in P1 by lia. rewrite P1 by (try exact Hp; lia).
    pose proof (Rc _ (nth_In cats 0 Hk)). pose proof (rank_bound (nth k cats 0) cats k). apply instance_id_value; lia.
  - intros N. apply P2. intros (V & Hp). apply (N (Z.to_nat (px 0 (i_seg i) y x - 1))); [lia|lia|exact Hp].
Qed.
Lemma conv_value y x : inb (ht (i_seg i)) (wd (i_seg i)) y x = true ->
  (exists k, (k < List.length cats)%nat /\ px 0 (i_seg i) y x = Z.of_nat k + 1 /\ In (nth k cats 0) present /\
     px 0 conv y x = 1000 * nth k cats 0 + rank (nth k cats 0) cats k /\ 1 <= nth k cats 0 <= 20 /\ 0 <= rank (nth k cats 0) cats k < 1000)
  \/ (px 0 conv y x = 0 /\ forall k, (k < List.length cats)%nat -> px 0 (i_seg i) y x = Z.of_nat k + 1 -> ~ In (nth k cats 0) present).
Proof.
  intros I. destruct (conv_px y x I) as (P1 & P2). destruct Pair as (_ & _ & _ & _ & _ & Rc & Lc). set (v := px 0 (i_seg i) y x) in *.
  destruct (Z_le_dec 1 v) as [V1|V1]; [|right; split; [apply P2|]; intros; lia].
  destruct (Z_le_dec v (Z.of_nat (List.length cats))) as [V2|V2]; [|right; split; [apply P2|]; intros; lia].
  set (k := Z.to_nat (v - 1)). destruct (in_dec Z.eq_dec (nth k cats 0) present) as [Hp|Hp].
  - left. exists k. split; [lia|]. split; [lia|]. split; [exact Hp|]. split; [apply P1; [lia|lia|exact Hp]|]. split; [apply Rc, nth_In; lia|].
    pose proof (rank_bound (nth k cats 0) cats k). lia.
  - right. assert (N : forall k0, (k0 < List.length cats)%nat -> v = Z.of_nat k0 + 1 -> ~ In (nth k0 cats 0) present).
    { intros k0 H0 E0. replace k0 with k by lia. exact Hp. }
    split; [apply P2; exact N|exact N].
Qed.
Lemma conv_region k : (k < List.length cats)%nat -> In (nth k cats 0) present ->
  region conv (1000 * nth k cats 0 + rank (nth k cats 0) cats k) = instance_region (i_seg i) (Z.of_nat k + 1).
Proof.
  intros Hk Hp. destruct Pair as (_ & _ & _ & _ & _ & Rc & Lc). pose proof (Rc _ (nth_In cats 0 Hk)) as C. pose proof (rank_bound (nth k cats 0) cats k) as Rk.
  assert (Eh : ht conv = ht (i_seg i) /\ wd conv = wd (i_seg i)).
  { apply convert_inst_dims. }
  destruct Eh as [Eh Ew]. unfold region, instance_region. rewrite Eh, Ew. apply tab_ext. intros y x I. f_equal.
  destruct (conv_value y x I) as [(k' & H1 & H2 & H3 & H4 & H5 & H6)|(H4 & N)].
  - rewrite H2, H4. destruct (Z.eqb_spec (Z.of_nat k' + 1) (Z.of_nat k + 1)) as [E|E].
    + replace k' with k by lia. lia.
    + apply Z.eqb_neq. intros X. apply E. f_equal. f_equal.
      assert (Ec : nth k' cats 0 = nth k cats 0) by lia. rewrite Ec in X. assert (Er : rank (nth k cats 0) cats k' = rank (nth k cats 0) cats k) by lia.
      apply rank_inj in Er; [exact Er|exact H1|exact Hk| |].
      * rewrite (nth_indep cats _ 0) by exact H1. exact Ec.
      * rewrite (nth_indep cats _ 0) by exact Hk. reflexivity.
  - rewrite H4. replace (0 =? _) with false by lia. symmetry. apply Z.eqb_neq. intros X. apply (N k Hk X Hp).
Qed.
Lemma conv_ids id : has_id conv id -> 0 <= id < 100000.
Proof.
  intros (y & x & I & E). destruct (convert_inst_dims (i_seg i) cats present) as [Eh Ew]. rewrite Eh, Ew in I.
  destruct (conv_value y x I) as [(k' & H1 & H2 & H3 & H4 & H5 & H6)|(H4 & N)]; lia.
Qed.
(** The ids of category [c] in the converted map are its instances. *)
Lemma conv_instances c (Q : image Z -> Prop) : 1 <= c <= 20 ->
  ((exists id, has_id conv id /\ id / 1000 = c /\ Q (region conv id)) <->
   In c present /\ exists k, (k < List.length cats)%nat /\ nth k cats 0 = c /\
     (exists y x, inb (ht (i_seg i)) (wd (i_seg i)) y x = true /\ px 0 (i_seg i) y x = Z.of_nat k + 1) /\ Q (instance_region (i_seg i) (Z.of_nat k + 1))).
Proof.
  intros Hc. destruct (convert_inst_dims (i_seg i) cats present) as [Eh Ew]. split.
  - intros (id & (y & x & I & E) & Ed & HQ). rewrite Eh, Ew in I.
    destruct (conv_value y x I) as [(k & H1 & H2 & H3 & H4 & H5 & H6)|(H4 & N)]; [|assert (id = 0) by lia; subst id; cbn in Ed; lia].
    assert (Ec : nth k cats 0 = c).
    { rewrite <- Ed, <- E, H4. rewrite Z.mul_comm. rewrite Z.div_add_l by lia. rewrite (Z.div_small (rank (nth k cats 0) cats k)) by lia. lia. }
    rewrite <- Ec. split; [exact H3|]. exists k. split; [exact H1|]. split; [reflexivity|]. split; [exists y, x; auto|].
    rewrite <- conv_region by assumption. rewrite <- H4, E. exact HQ.
  - intros (Hp & k & Hk & Ek & (y & x & I & E) & HQ). exists (1000 * c + rank c cats k).
    assert (Hp' : In (nth k cats 0) present) by (rewrite Ek; exact Hp).
    destruct (conv_px y x I) as (P1 & _). specialize (P1 k Hk E Hp'). rewrite Ek in P1.
    destruct Pair as (_ & _ & _ & _ & _ & _ & Lc). pose proof (rank_bound c cats k).
    split; [exists y, x; rewrite Eh, Ew; auto|]. split; [rewrite Z.mul_comm, Z.div_add_l by lia; rewrite Z.div_small by lia; lia|].
    rewrite <- Ek. rewrite conv_region by assumption. exact HQ.
Qed.
End Instances.

(** *** C52, theorem 2: edge map c-1 of the instance sensitive file. *)
Theorem sbd_instance_pixels : forall d p q m i radius, d p = Some (ClsMat m) -> d q = Some (InstMat i) -> sbd_pair m i -> 1 <= radius ->
  exists e inst, convert_mat2np d p (Some q) radius false 21 = Ok (e, bordered (c_seg m), Some inst) /\ instance_numbers m i inst /\
    edge_maps (ht (c_seg m)) (wd (c_seg m)) e (instance_edge m i radius).
Proof.
  intros d p q m i radius D D' Pair R. pose proof Pair as ((W & H & F) & Wi & Hi & Vi & Fi & Rc & Lc). set (seg := c_seg m) in *.
  set (conv := convert_inst_seg (i_seg i) (i_cats i) (c_present m)).
  destruct (convert_inst_dims (i_seg i) (i_cats i) (c_present m)) as [Eh Ew]. fold conv in Eh, Ew.
  assert (Wc : wf conv) by apply convert_inst_wf.
  destruct (instance_mask2edge_transform SBD_inst_labelIds SBD_labelIds [21] radius (bordered seg) conv 1 (wf_tab _ _ _) Wc) as (s & Es & Ls & P).
  { change (ht (bordered seg)) with (ht seg). congruence. }
  { change (wd (bordered seg)) with (wd seg). congruence. }
  { discriminate. }
  { exact R. }
  { exact H. }
  { apply void_ids. }
  { cbn; lia. }
  { left; reflexivity. }
  { intros l I. apply in_map_iff in I. destruct I as (z & <- & I). apply in_zseq in I. lia. }
  { lia. }
  { apply (conv_ids m i Pair). }
  change (List.length SBD_labelIds) with 22%nat in *. change (ht (bordered seg)) with (ht seg) in *. change (wd (bordered seg)) with (wd seg) in *.
  unfold instance_mask2edge_call, mask2edge_ctor in Es. change (Nat.eqb (List.length SBD_labelIds) 0) with false in Es. replace (radius <? 1) with false in Es by lia. cbn [bind] in Es.
  destruct (negb _); [discriminate|].
  destruct (mask2onehot (bordered seg) SBD_labelIds) as [mask|] eqn:Em; [|discriminate]. cbn [bind] in Es.
  destruct (loop_instance_mask2edge mask conv SBD_inst_labelIds [21] radius false false) as [e0|] eqn:El; [|discriminate]. cbn [bind to_train] in Es. injection Es as ->.
  assert (Wst : wf_stack s /\ s_h s = ht seg /\ s_w s = wd seg).
  { destruct (onehot_parts _ _ _ Em) as (Wm & _ & Hm & Vm & Lm). change (ht (bordered seg)) with (ht seg) in Hm. change (wd (bordered seg)) with (wd seg) in Vm.
    assert (V : valid_ids mask [21]) by (intros k [<-|[]]; rewrite Lm; cbn; lia).
    destruct (ignore_of_ok mask [21] V) as (ign & Ei & _).
    destruct (instance_edges mask conv SBD_inst_labelIds [21] radius false 1 ign Wm Wc ltac:(congruence) ltac:(congruence) V eq_refl ltac:(lia) Ei (conv_ids m i Pair))
      as (r & Er & Wr & _). fold conv in Er. rewrite El in Er; injection Er as <-. split; [exact Wr|].
    unfold loop_instance_mask2edge in El. rewrite Ei in El. cbn [bind] in El. destruct (sorted_head SBD_inst_labelIds) as [l0|]; [|discriminate]. cbn [bind] in El.
    destruct (build_insts _ _ _) as [insts|]; [|discriminate]. cbn [bind] in El. injection El as <-. split; assumption. }
  destruct Wst as (Wst & Hs & Ws).
  assert (Bst : binary_stack s).
  { apply (stack_binary (ht seg) (wd seg) s 22 Wst Hs Ws Ls). intros k y x Hk I. apply (P k y x Hk I). }
  destruct (sbd_conversion s Ls Wst Bst) as (t & Et & Lt & Ht & Wt & Wt' & Bt & Pt).
  exists t, conv. split; [|split].
  - unfold convert_mat2np. rewrite (load_cls_ok d p m D F). cbn [bind]. fold seg. cbv zeta. rewrite bordered_eq, Em. cbn [bind].
    rewrite (load_inst_ok d q i D' Fi). cbn [bind]. fold conv. rewrite El. cbn [bind]. rewrite Et. reflexivity.
  - split; [exact Wc|]. split; [exact Eh|]. split; [exact Ew|]. intros y x I. rewrite Eh, Ew in I. cbv zeta.
    destruct (convert_inst_seg_spec (i_seg i) (i_cats i) (c_present m) y x I) as (P1 & P2). fold conv in P1, P2. split; [|exact P2].
    intros V Hp. rewrite P1 by assumption. pose proof (Rc _ (nth_In (i_cats i) 0 (n := Z.to_nat (px 0 (i_seg i) y x - 1)) ltac:(lia))).
    pose proof (rank_bound (nth (Z.to_nat (px 0 (i_seg i) y x - 1)) (i_cats i) 0) (i_cats i) (Z.to_nat (px 0 (i_seg i) y x - 1))). apply instance_id_value; lia.
  - split; [exact Wt'|]. split; [congruence|]. split; [congruence|]. split; [exact Lt|]. intros c y x Hc I. rewrite Pt by exact Hc.
    destruct (P c y x ltac:(lia) I) as (P1 & P2). split; [exact P1|]. rewrite P2. rewrite sbd_label_nth by lia. rewrite region_class by lia. rewrite region_void.
    pose proof (conv_instances m i Pair c (fun r => boundary_spec r (void_region seg) radius y x) Hc) as CI. fold conv in CI. cbv beta in CI.
    unfold instance_edge. fold seg. unfold semantic_edge. fold seg. rewrite <- CI.
    assert (NI : ~ In c [21]) by (intros [E|[]]; lia).
    assert (HP : (exists y' x', inb (ht seg) (wd seg) y' x' = true /\ px 0 (bordered seg) y' x' = c) <-> (exists y x, interior seg y x /\ px 0 seg y x = c)).
    { split; intros (y' & x' & A & B); exists y', x'.
      - unfold bordered in B. rewrite px_tab, A in B. destruct (interiorb seg y' x') eqn:Q; [|lia]. split; [apply interiorb_spec; exact Q|exact B].
      - assert (A' := proj2 (interiorb_spec seg y' x') A). assert (I' : inb (ht seg) (wd seg) y' x' = true) by (apply inb_spec; unfold interior in A; lia).
        split; [exact I'|]. unfold bordered. rewrite px_tab, I', A'. exact B. }
    rewrite HP. split.
    + intros (_ & A & [B|(id & B1 & B2 & B3 & B4)]); (split; [exact A|]); [left; exact B|right; exists id; auto].
    + intros (A & [B|(id & B1 & B2 & B3)]); (split; [exact NI|split; [exact A|]]); [left; exact B|right; exists id]. split; [exact B1|]. split; [lia|]. split; [exact B2|exact B3].
Qed.
Print Assumptions sbd_instance_pixels.

(** ** Thinned edges *)
Lemma sbd_thin_map d p ip radius e seg inst : convert_mat2np d p ip radius false 21 = Ok (e, seg, inst) -> convert_mat2np d p ip radius true 21 = Ok (map_stack thin_u8 e, seg, inst).
Proof.
  unfold convert_mat2np. destruct (load_cls d p) as [[[b s0] present]|]; [|discriminate]. cbn [bind]. cbv zeta.
  destruct (mask2onehot _ SBD_labelIds) as [m|] eqn:Em; [|discriminate]. cbn [bind].
  assert (Z0 := thin_u8_zeros (s_h m) (s_w m)).
  destruct ip as [q|].
  - destruct (load_inst d q) as [[[b' s1] cats]|]; [|discriminate]. cbn [bind].
    unfold loop_instance_mask2edge. destruct (ignore_of m [21]) as [ign|]; [|discriminate]. cbn [bind]. destruct (sorted_head _) as [l0|]; [|discriminate]. cbn [bind].
    destruct (build_insts _ _ _) as [insts|]; [|discriminate]. cbn [bind]. cbv zeta.
    rewrite (edge_loop_map thin_u8 (s_h m) (s_w m) Z0 m [21] (fun label mm => inst_edge (convert_inst_seg s1 cats present) insts ign radius false label mm) eq_refl eq_refl).
    rewrite (to_train_map thin_u8 (s_h m) (s_w m) Z0) by reflexivity. intros E.
    match type of E with bind ?x _ = _ => match goal with |- bind (bind ?y _) _ = _ => change y with x end end.
    destruct (edge_label2trainId _ _) as [t|]; [|discriminate]. cbn [bind] in *. injection E as <- <- <-. reflexivity.
  - unfold loop_mask2edge. destruct (ignore_of m [21]) as [ign|]; [|discriminate]. cbn [bind]. cbv zeta.
    rewrite (edge_loop_map thin_u8 (s_h m) (s_w m) Z0 m [21] (fun label mm => mask2bdry mm ign radius false) eq_refl eq_refl).
    rewrite (to_train_map thin_u8 (s_h m) (s_w m) Z0) by reflexivity. intros E.
    match type of E with bind ?x _ = _ => match goal with |- bind (bind ?y _) _ = _ => change y with x end end.
    destruct (edge_label2trainId _ _) as [t|]; [|discriminate]. cbn [bind] in *. injection E as <- <- <-. reflexivity.
Qed.
Lemma edge_maps_binary h w e P : edge_maps h w e P -> binary_stack e.
Proof.
  intros (W & Eh & Ew & L & Q). apply (stack_binary h w e 20 W Eh Ew L). intros k y x Hk I. destruct (Q (k + 1) y x ltac:(lia) I) as (A & _).
  replace (k + 1 - 1) with k in A by lia. exact A.
Qed.
Lemma thin_maps h w e P : edge_maps h w e P -> thinned_maps e (map_stack thin_u8 e) /\ binary_stack (map_stack thin_u8 e).
Proof.
  intros M. pose proof (edge_maps_binary _ _ _ _ M) as B. destruct M as (W & Eh & Ew & L & _).
  assert (W' : wf_stack (map_stack thin_u8 e)).
  { intros a I. cbn [chans map_stack] in I. apply in_map_iff in I. destruct I as (b & <- & I). destruct (W b I) as (A1 & A2 & A3). destruct (thin_u8_shape b A1) as (B1 & B2 & B3).
    cbn [s_h s_w map_stack]. split; [exact B1|]. split; congruence. }
  split.
  - split; [exact W'|]. split; [reflexivity|]. split; [reflexivity|]. split; [cbn [chans map_stack]; rewrite map_length; exact L|].
    intros c Hc. assert (K : (Z.to_nat (c - 1) < List.length (chans e))%nat) by lia.
    assert (Ic : In (channel e (c - 1)) (chans e)) by (apply nth_In; exact K).
    destruct (W _ Ic) as (Wc & Hc1 & Hc2). destruct (thin_u8_px _ Wc (B _ Ic)) as (r & Er & Pr). exists r. split; [exact Er|].
    intros y x I. rewrite <- Pr by (rewrite Hc1, Hc2; exact I). unfold channel at 1. cbn [chans map_stack s_h s_w].
    rewrite (nth_indep _ _ (thin_u8 (zeros (s_h e) (s_w e)))) by (rewrite map_length; exact K). rewrite map_nth. reflexivity.
  - intros a I y x. cbn [chans map_stack] in I. apply in_map_iff in I. destruct I as (b & <- & I). destruct (W b I) as (A & Bh & C).
    destruct (thin_u8_px b A (B b I)) as (r & _ & P'). destruct (thin_u8_shape b A) as (A' & B' & C').
    destruct (inb (ht b) (wd b) y x) eqn:In; [rewrite (P' y x In); destruct (px false (as_bool r) y x); auto|]. left. apply px_out; [exact A'|]. rewrite B', C'. exact In.
Qed.

(** ** The border *)
Lemma sqd_nonneg y x y' x' : 0 <= sqd y x y' x'.
Proof. unfold sqd. pose proof (Z.square_nonneg (y - y')). pose proof (Z.square_nonneg (x - x')). lia. Qed.
Lemma unit_sq a b : a * a + b * b = 1 -> a = 0 /\ (b = 1 \/ b = -1) \/ b = 0 /\ (a = 1 \/ a = -1).
Proof.
  intros E. assert (A : -1 <= a <= 1) by nia. assert (B : -1 <= b <= 1) by nia.
  assert (a = -1 \/ a = 0 \/ a = 1) as [-> | [-> | ->]] by lia; assert (b = -1 \/ b = 0 \/ b = 1) as [-> | [-> | ->]] by lia; lia.
Qed.
Lemma unit_step y x y' x' : (y - y') * (y - y') + (x - x') * (x - x') = 1 -> (y' = y /\ (x' = x + 1 \/ x' = x - 1)) \/ (x' = x /\ (y' = y + 1 \/ y' = y - 1)).
Proof. intros E. apply unit_sq in E. lia. Qed.
(** *** C52, theorem 3: with the radii used (1 and 2) no semantic edge lies within five pixels of a side. *)
Theorem semantic_edges_keep_off_the_border : forall m radius c y x, 1 <= c <= 20 -> radius <= 2 ->
  inb (ht (c_seg m)) (wd (c_seg m)) y x = true -> semantic_edge m radius c y x -> interior (c_seg m) y x.
Proof.
  intros m radius c y x Hc R I (R0 & H). set (seg := c_seg m) in *. apply interiorb_spec.
  assert (Mem : forall y x, member (class_region seg c) y x -> interiorb seg y x = true /\ px 0 seg y x = c).
  { intros y' x' Q. unfold member, class_region in Q. rewrite px_tab in Q. destruct (inb (ht seg) (wd seg) y' x'); [|congruence].
    destruct (interiorb seg y' x'); [|cbn in Q; congruence]. cbn [andb] in Q. destruct (Z.eqb_spec (px 0 seg y' x') c); [auto|cbn in Q; congruence]. }
  assert (Out : forall y x, outside (class_region seg c) (void_region seg) y x -> interiorb seg y x = true /\ px 0 seg y x <> c).
  { intros y' x' (Q1 & Q2 & Q3). change (inb (ht seg) (wd seg) y' x' = true) in Q1. unfold void_region in Q3. rewrite px_tab, Q1 in Q3. unfold class_region in Q2. rewrite px_tab, Q1 in Q2.
    destruct (interiorb seg y' x'); [|cbn in Q3; congruence]. split; [reflexivity|]. cbn [andb] in Q2. destruct (Z.eqb_spec (px 0 seg y' x') c); [cbn in Q2; congruence|assumption]. }
  destruct H as [(M & _)|[(O & _)|(_ & _ & y1 & x1 & y2 & x2 & M & O & S)]]; [apply (Mem y x M)|apply (Out y x O)|].
  destruct (Mem _ _ M) as (A1 & B1). destruct (Out _ _ O) as (A2 & B2).
  destruct (interiorb seg y x) eqn:Q; [reflexivity|exfalso].
  assert (Dif : y1 <> y2 \/ x1 <> x2) by (destruct (Z.eq_dec y1 y2); [destruct (Z.eq_dec x1 x2); [subst; congruence|auto]|auto]).
  assert (Q1 : y1 <> y \/ x1 <> x) by (destruct (Z.eq_dec y1 y); [destruct (Z.eq_dec x1 x); [subst; congruence|auto]|auto]).
  assert (Q2 : y2 <> y \/ x2 <> x) by (destruct (Z.eq_dec y2 y); [destruct (Z.eq_dec x2 x); [subst; congruence|auto]|auto]).
  unfold sum_within in S. rewrite !andb_true_iff in S. destruct S as ((S0 & S1) & S2).
  assert (Sq : forall a b, a <> 0 \/ b <> 0 -> 1 <= a * a + b * b) by (intros a b [N|N]; nia).
  assert (D1 : 1 <= sqd y x y1 x1) by (unfold sqd; apply Sq; lia). assert (D2 : 1 <= sqd y x y2 x2) by (unfold sqd; apply Sq; lia).
  assert (T : sqd y x y1 x1 = 1 /\ sqd y x y2 x2 = 1).
  { set (a := sqd y x y1 x1) in *. set (b := sqd y x y2 x2) in *. assert (radius = 0 \/ radius = 1 \/ radius = 2) as [-> | [-> | ->]] by lia; [lia|lia|]. 
    assert (a + b <= 4) by lia. assert (4 * a * b <= (4 - a - b) * (4 - a - b)) by lia. assert (a <= 3) by lia. assert (b <= 3) by lia.
    assert (a = 1 \/ a = 2 \/ a = 3) as [-> | [-> | ->]] by lia; assert (b = 1 \/ b = 2 \/ b = 3) as [-> | [-> | ->]] by lia; lia. }
  destruct T as [T1 T2]. unfold sqd in T1, T2.
  apply unit_step in T1. apply unit_step in T2. unfold interiorb in *. lia.
Qed.
Print Assumptions semantic_edges_keep_off_the_border.
(** The instance map has no such border: instance sensitive edges do enter the border (where the
    evaluation blanks every prediction, so that these pixels can only be missed) ... *)
Theorem instance_edges_keep_off_the_border_refuted : exists m i y x, sbd_pair m i /\ inb (ht (c_seg m)) (wd (c_seg m)) y x = true /\
  instance_edge m i 2 1 y x /\ ~ interior (c_seg m) y x.
Proof.
  exists (mkCls [] (tab 22 22 (fun _ _ => 1)) [1]), (mkInst (tab 22 22 (fun _ x => if x <? 11 then 1 else 2)) [] [1; 1]), 4, 10.
  split.
  { split; [split; [apply wf_tab|split; [cbn; lia|constructor]]|]. split; [apply wf_tab|]. split; [reflexivity|]. split; [reflexivity|]. split; [constructor|].
    cbn [i_cats]. split; [intros c [<-|[<-|[]]]; lia|cbn; lia]. }
  split; [reflexivity|]. split; [|unfold interior; cbn; lia].
  split; [exists 5, 5; split; [unfold interior; cbn; lia|reflexivity]|]. right. split; [left; reflexivity|]. exists 0%nat. cbn [i_cats].
  split; [cbn; lia|]. split; [reflexivity|]. split; [exists 0, 0; split; reflexivity|].
  split; [lia|]. left. split; [unfold member; vm_compute; discriminate|]. exists 5, 11. split; [|unfold sqd; lia].
  split; [reflexivity|]. split; vm_compute; reflexivity.
Qed.
Print Assumptions instance_edges_keep_off_the_border_refuted.
(** ... but not further than the radius. *)
Theorem edges_are_near_the_interior : forall m i radius c y x, instance_edge m i radius c y x ->
  ht (i_seg i) = ht (c_seg m) -> wd (i_seg i) = wd (c_seg m) ->
  exists y' x', interior (c_seg m) y' x' /\ sqd y x y' x' <= radius * radius.
Proof.
  intros m i radius c y x (_ & H) Eh Ew. set (seg := c_seg m) in *.
  assert (G : forall r, ht r = ht seg -> wd r = wd seg -> boundary_spec r (void_region seg) radius y x -> exists y' x', interior seg y' x' /\ sqd y x y' x' <= radius * radius).
  { intros r Rh Rw (R0 & B).
    assert (O : forall y x, outside r (void_region seg) y x -> interior seg y x).
    { intros y' x' (A1 & _ & A3). rewrite Rh, Rw in A1. unfold void_region in A3. rewrite px_tab, A1 in A3. apply interiorb_spec. destruct (interiorb seg y' x'); [reflexivity|discriminate]. }
    destruct B as [(_ & y' & x' & A & D)|[(A & y' & x' & _ & D)|(_ & _ & y1 & x1 & y2 & x2 & _ & A & S)]].
    - exists y', x'. auto.
    - exists y, x. split; [apply O; exact A|]. unfold sqd. nia.
    - exists y2, x2. split; [apply O; exact A|]. unfold sum_within in S. assert (0 <= sqd y x y1 x1) by apply sqd_nonneg. rewrite !andb_true_iff in S. destruct S as ((_ & S) & _). lia. }
  destruct H as [H|(_ & k & _ & _ & _ & H)]; revert H; apply G; try reflexivity; assumption.
Qed.
Print Assumptions edges_are_near_the_interior.
(** *** C52, theorem 4: every semantic edge is an instance sensitive edge. *)
Theorem instance_edges_contain_semantic_edges : forall m i radius c y x, 1 <= c <= 20 -> semantic_edge m radius c y x -> instance_edge m i radius c y x.
Proof.
  intros m i radius c y x Hc H. split; [|left; exact H]. set (seg := c_seg m) in *.
  assert (Mem : forall y x, member (class_region seg c) y x -> interior seg y x /\ px 0 seg y x = c).
  { intros y' x' Q. unfold member, class_region in Q. rewrite px_tab in Q. destruct (inb (ht seg) (wd seg) y' x'); [|congruence].
    rewrite <- interiorb_spec. destruct (interiorb seg y' x'); [|cbn in Q; congruence]. cbn [andb] in Q. destruct (Z.eqb_spec (px 0 seg y' x') c); [auto|cbn in Q; congruence]. }
  destruct H as (_ & [(M & _)|[(_ & y' & x' & M & _)|(_ & _ & y1 & x1 & _ & _ & M & _)]]).
  - exists y, x. auto.
  - exists y', x'. auto.
  - exists y1, x1. auto.
Qed.
Print Assumptions instance_edges_contain_semantic_edges.

(** ** Images that are too small *)
(** *** C52, theorem 5: with fewer than 22 rows there is no conversion. *)
Theorem small_images_are_rejected : forall d p ip radius thin m, d p = Some (ClsMat m) -> fits (c_seg m) (c_bdry m) -> (ht (c_seg m) < 22)%nat ->
  convert_mat2np d p ip radius thin 21 = Err AssertionError.
Proof.
  intros d p ip radius thin m D F H. unfold convert_mat2np. rewrite (load_cls_ok d p m D F). cbn [bind]. cbv zeta.
  rewrite mask2onehot_rejects_small_images; [reflexivity|discriminate|exact H].
Qed.
Print Assumptions small_images_are_rejected.

(** ** The files of a sample *)
Lemma train_ids seg : let im := convert_seg_label2train (bordered seg) SBD_label2trainId in
  wf im /\ ht im = ht seg /\ wd im = wd seg /\ forall y x, inb (ht im) (wd im) y x = true -> let v := px 0 seg y x in
    px 0 im y x = if interiorb seg y x && (1 <=? v) && (v <=? 20) then v - 1 else 255.
Proof.
  cbv zeta. destruct (mask_conversion_shape (bordered seg) SBD_label2trainId) as (W & [H V]). unfold convert_seg_label2train.
  split; [exact W|]. split; [exact H|]. split; [exact V|]. intros y x I. rewrite H, V in I. change (inb (ht seg) (wd seg) y x = true) in I.
  destruct (mask_conversion (bordered seg) SBD_label2trainId y x) as (P1 & P2).
  { destruct shipped_tables_are_numberings as (_ & NS & _). apply NS. }
  { intros l t Hin. apply sbd_in in Hin. lia. }
  { exact I. }
  assert (Eb : px 0 (bordered seg) y x = if interiorb seg y x then px 0 seg y x else 21) by (unfold bordered; rewrite px_tab, I; reflexivity).
  destruct (interiorb seg y x) eqn:Q; cbn [andb].
  - destruct ((1 <=? px 0 seg y x) && (px 0 seg y x <=? 20)) eqn:R.
    + apply P1. rewrite Eb. apply sbd_has. lia.
    + apply P2. rewrite Eb. intros C. apply in_map_iff in C. destruct C as ([l t] & E & C). apply sbd_in in C. cbn [fst] in E. lia.
  - apply P2. rewrite Eb. intros C. apply in_map_iff in C. destruct C as ([l t] & E & C). apply sbd_in in C. cbn [fst] in E. lia.
Qed.
Lemma png20 e : wf_stack e -> binary_stack e -> List.length (chans e) = 20%nat -> exists im, rgb_multilabel_encoding e = Ok im /\ decode_png im 20 = e.
Proof. intros W B L. destruct (png_round_trip e W B ltac:(lia)) as (im & E & D). exists im. split; [exact E|]. rewrite L in D. exact D. Qed.
Definition job_suffixes (thin : bool) : list text :=
  if thin then [lit "_thin_edge.png"; lit "_thin_isedge.png"]
  else [lit "_raw_edge.png"; lit "_raw_isedge.png"; lit "_labelIds.png"; lit "_trainIds.png"; lit "_instanceIds.png"].
Ltac content := unfold sbd_content; cbv zeta; repeat apply conj; intros X; try (vm_compute in X; discriminate X); clear X.
Section Sample.
Variables (dirs : text -> bool) (d : mats) (root out : text).
Hypothesis Root : directory root.
Hypothesis Out : directory out.
Hypothesis OutR : relative out.
Hypothesis Dirs : sbd_dirs dirs root out.
Lemma save_dir_eq : path_join root out = root ++ lit "/" ++ out.
Proof. apply join_directory; assumption. Qed.
Lemma out_directory : directory (root ++ lit "/" ++ out).
Proof. apply (directory_join root out). exact Out. Qed.
Lemma sub_dir c : component (lit c) -> directory (root ++ lit "/" ++ lit c).
Proof. intros C. apply (directory_join root (lit c)). apply component_directory. exact C. Qed.
Lemma cls_component : component (lit "cls_orig"). Proof. split; [discriminate|vm_compute; intuition discriminate]. Qed.
Lemma inst_component : component (lit "inst_orig"). Proof. split; [discriminate|vm_compute; intuition discriminate]. Qed.
Lemma mat_names n : relative n -> n <> [] ->
  path_join (path_join root (lit "cls_orig")) (n ++ lit ".mat") = class_mat_file root n /\
  path_join (path_join root (lit "inst_orig")) (n ++ lit ".mat") = instance_mat_file root n.
Proof.
  intros R N. rewrite (join_directory root (lit "cls_orig")) by (try assumption; discriminate). rewrite (join_directory root (lit "inst_orig")) by (try assumption; discriminate). split.
  - rewrite join_directory; [|exact (sub_dir "cls_orig" cls_component)|apply relative_app; assumption]. unfold class_mat_file. rewrite <- app_assoc. reflexivity.
  - rewrite join_directory; [|exact (sub_dir "inst_orig" inst_component)|apply relative_app; assumption]. unfold instance_mat_file. rewrite <- app_assoc. reflexivity.
Qed.
Lemma out_names n sfx : relative n -> n <> [] -> path_join (root ++ lit "/" ++ out) (n ++ sfx) = sbd_file root out n sfx.
Proof.
  intros R N. rewrite join_directory; [|exact out_directory|apply relative_app; assumption]. unfold sbd_file. rewrite <- !app_assoc. reflexivity.
Qed.
(** *** C52, theorem 6: the files written for a sample and their contents. *)
Theorem routine_writes : forall n thin m i, relative n -> n <> [] -> annotated d root n m i ->
  exists pics, sbd_routine dirs d root out (n, thin) = Ok (combine (map (sbd_file root out n) (job_suffixes thin)) pics) /\
    Forall2 (sbd_content m i) (job_suffixes thin) pics.
Proof.
  intros n thin m i R N (Dc & Di & Pair). destruct (mat_names n R N) as [Ec Ei]. destruct Dirs as (D1 & D2 & D3).
  assert (C1 : path_join root (lit "cls_orig") = root ++ lit "/cls_orig") by (rewrite join_directory; [reflexivity|exact Root|discriminate]).
  assert (C2 : path_join root (lit "inst_orig") = root ++ lit "/inst_orig") by (rewrite join_directory; [reflexivity|exact Root|discriminate]).
  pose proof Pair as (Cf & _).
  set (rad := if thin then 1 else 2).
  destruct (sbd_semantic_pixels d (class_mat_file root n) m rad Dc Cf ltac:(unfold rad; destruct thin; lia)) as (es & Es & Ms).
  destruct (sbd_instance_pixels d (class_mat_file root n) (instance_mat_file root n) m i rad Dc Di Pair ltac:(unfold rad; destruct thin; lia)) as (ei & im & Eii & Nm & Mi).
  pose proof (edge_maps_binary _ _ _ _ Ms) as Bs. pose proof (edge_maps_binary _ _ _ _ Mi) as Bi.
  unfold sbd_routine. cbn [fst snd]. rewrite save_dir_eq. destruct thin; unfold rad in *.
  - destruct (thin_maps _ _ _ _ Ms) as (Ts & Bs'). destruct (thin_maps _ _ _ _ Mi) as (Ti & Bi').
    destruct (png20 (map_stack thin_u8 es)) as (p1 & P1 & Q1); [apply Ts|exact Bs'|apply Ts|].
    destruct (png20 (map_stack thin_u8 ei)) as (p2 & P2 & Q2); [apply Ti|exact Bi'|apply Ti|].
    exists [Colour p1; Colour p2]. split.
    + unfold routine. cbv zeta. rewrite D1, C1, D2, C2, D3. cbn [negb]. rewrite <- C1, <- C2, Ec, Ei, Dc, Di. cbn [negb].
      rewrite (sbd_thin_map _ _ _ _ _ _ _ Eii). cbn [bind]. rewrite (sbd_thin_map _ _ _ _ _ _ _ Es). cbn [bind]. rewrite P1. cbn [bind]. rewrite P2. cbn [bind].
      cbn [thin_suffixes x_edge x_isedge]. rewrite !out_names by assumption. reflexivity.
    + constructor; [|constructor; [|constructor]].
      * content. exists es, (map_stack thin_u8 es). auto.
      * content. exists ei, (map_stack thin_u8 ei). auto.
  - destruct (png20 es) as (p1 & P1 & Q1); [apply Ms|exact Bs|apply Ms|]. destruct (png20 ei) as (p2 & P2 & Q2); [apply Mi|exact Bi|apply Mi|].
    exists [Colour p1; Colour p2; Gray (bordered (c_seg m)); Gray (convert_seg_label2train (bordered (c_seg m)) SBD_label2trainId); Gray im]. split.
    + unfold routine. cbv zeta. rewrite D1, C1, D2, C2, D3. cbn [negb]. rewrite <- C1, <- C2, Ec, Ei, Dc, Di. cbn [negb].
      rewrite Eii. cbn [bind]. rewrite Es. cbn [bind]. rewrite P1. cbn [bind]. rewrite P2. cbn [bind].
      cbn [raw_suffixes x_edge x_isedge x_label x_train x_inst]. rewrite !out_names by assumption. reflexivity.
    + constructor; [|constructor; [|constructor; [|constructor; [|constructor; [|constructor]]]]].
      * content. exists es. auto.
      * content. exists ei. auto.
      * content. reflexivity.
      * content. eexists. split; [reflexivity|]. apply train_ids.
      * content. exists im. auto.
Qed.
End Sample.
Print Assumptions routine_writes.

(** ** The run over the sample lists *)
Lemma place_all_app a b k : place_all (a ++ b) k = place_all b (place_all a k).
Proof. unfold place_all. apply fold_left_app. Qed.
Lemma place_all_out l : forall k q, (forall p, ~ In (q, p) l) -> place_all l k q = k q.
Proof.
  induction l as [|[a c] l IH]; intros k q N; [reflexivity|]. change (place_all l (place a c k) q = k q). rewrite IH by (intros p I; apply (N p); right; exact I).
  apply place_other. intros ->. apply (N c). left. reflexivity.
Qed.
Lemma place_all_in l : forall k q p, In (q, p) l -> (forall p', In (q, p') l -> p' = p) -> place_all l k q = Some p.
Proof.
  induction l as [|[a c] l IH]; intros k q p I U; [destruct I|]. change (place_all l (place a c k) q = Some p).
  destruct (in_dec (list_eq_dec ascii_dec) q (map fst l)) as [J|J].
  - apply in_map_iff in J. destruct J as ([q' p'] & E & J). cbn [fst] in E. subst q'. assert (p' = p) by (apply U; right; exact J). subst p'.
    apply IH; [exact J|]. intros p' J'. apply U. right. exact J'.
  - assert (E : (a, c) = (q, p)).
    { destruct I as [E|I]; [exact E|]. exfalso. apply J. apply in_map_iff. exists (q, p). auto. }
    injection E as -> ->. rewrite place_all_out; [apply place_same|]. intros p' J'. apply J. apply in_map_iff. exists (q, p'). auto.
Qed.
Lemma run_routines_ok {A} (f : A -> res (list (text * picture))) (w : A -> list (text * picture)) : forall l k,
  (forall a, In a l -> f a = Ok (w a)) -> run_routines f l k = (Ok tt, place_all (flat_map w l) k).
Proof.
  induction l as [|a l IH]; intros k H; [reflexivity|]. cbn [run_routines flat_map]. rewrite H by (left; reflexivity). rewrite place_all_app. apply IH. intros b I. apply H. right. exact I.
Qed.
(** An exception ends the run; what was written before stays. *)
Lemma run_routines_stop {A} (f : A -> res (list (text * picture))) (w : A -> list (text * picture)) a e : forall l l' k,
  (forall b, In b l -> f b = Ok (w b)) -> f a = Err e -> run_routines f (l ++ a :: l') k = (Err e, place_all (flat_map w l) k).
Proof.
  induction l as [|b l IH]; intros l' k H E; [cbn; rewrite E; reflexivity|]. cbn [run_routines flat_map app]. rewrite H by (left; reflexivity). rewrite place_all_app. apply IH; [|exact E].
  intros c I. apply H. right. exact I.
Qed.
Lemma suffix_free s s' n n' : In s sbd_suffixes -> In s' sbd_suffixes -> n ++ s = n' ++ s' -> n = n' /\ s = s'.
Proof.
  intros H H' E.
  assert (S : forall a b : text, forallb (fun s => forallb (fun s' => text_eqb s s' || negb (endswith s s')) sbd_suffixes) sbd_suffixes = true) by reflexivity.
  assert (K : forall s s' n n', In s sbd_suffixes -> In s' sbd_suffixes -> (List.length s' <= List.length s)%nat -> n ++ s = n' ++ s' -> s = s').
  { clear - S. intros s s' n n' H H' L E. specialize (S s s'). rewrite forallb_forall in S. specialize (S s H). rewrite forallb_forall in S. specialize (S s' H').
    apply orb_true_iff in S. destruct S as [S|S]; [apply text_eqb_spec; exact S|]. exfalso. apply negb_true_iff in S. revert S. apply eq_true_false_abs.
    apply endswith_spec. exists (skipn (List.length n) n').
    assert (Ln : (List.length n <= List.length n')%nat) by (assert (X := f_equal (@List.length ascii) E); rewrite !app_length in X; lia).
    assert (E2 : skipn (List.length n) (n ++ s) = skipn (List.length n) (n' ++ s')) by (rewrite E; reflexivity).
    rewrite skipn_app, skipn_all, Nat.sub_diag in E2. cbn [skipn app] in E2. rewrite skipn_app in E2.
    replace (List.length n - List.length n')%nat with 0%nat in E2 by lia. cbn [skipn] in E2. exact E2. }
  assert (s = s').
  { destruct (Nat.le_ge_cases (List.length s') (List.length s)) as [L|L]; [apply (K s s' n n'); assumption|symmetry; apply (K s' s n' n); auto]. }
  subst s'. split; [apply app_inv_tail in E; exact E|reflexivity].
Qed.
Lemma job_suffix_in thin s : In s (job_suffixes thin) -> In s sbd_suffixes.
Proof. destruct thin; cbn [job_suffixes]; unfold sbd_suffixes; cbn [In]; tauto. Qed.
Lemma job_suffix_of thin thin' s : In s (job_suffixes thin) -> In s (job_suffixes thin') -> thin = thin'.
Proof.
  intros H H'. destruct thin, thin'; try reflexivity; exfalso.
  - assert (F : forallb (fun s => negb (existsb (text_eqb s) (job_suffixes false))) (job_suffixes true) = true) by reflexivity.
    rewrite forallb_forall in F. specialize (F s H). apply negb_true_iff in F. revert F. apply eq_true_false_abs. apply existsb_exists. exists s. split; [exact H'|apply text_eqb_refl].
  - assert (F : forallb (fun s => negb (existsb (text_eqb s) (job_suffixes true))) (job_suffixes false) = true) by reflexivity.
    rewrite forallb_forall in F. specialize (F s H). apply negb_true_iff in F. revert F. apply eq_true_false_abs. apply existsb_exists. exists s. split; [exact H'|apply text_eqb_refl].
Qed.
Lemma job_suffix_ex s : In s sbd_suffixes -> exists thin, In s (job_suffixes thin).
Proof. unfold sbd_suffixes. cbn [In]. intros H. repeat (destruct H as [<-|H]; [first [exists false; cbn; tauto | exists true; cbn; tauto]|]). destruct H. Qed.
Lemma job_suffix_nodup thin : NoDup (job_suffixes thin).
Proof. destruct thin; repeat constructor; vm_compute; intuition discriminate. Qed.
Lemma combine_unique (A : list text) (B : list picture) : NoDup A -> forall q p p', In (q, p) (combine A B) -> In (q, p') (combine A B) -> p = p'.
Proof.
  intros ND. revert B. induction ND as [|a A Na ND IH]; intros [|b B] q p p' I I'; try (destruct I; fail). cbn [combine] in I, I'.
  destruct I as [E|I], I' as [E'|I'].
  - congruence.
  - injection E as <- <-. apply in_combine_l in I'. contradiction.
  - injection E' as <- <-. apply in_combine_l in I. contradiction.
  - eapply IH; eassumption.
Qed.
Section Run.
Variables (dirs : text -> bool) (d : mats) (root out : text).
Hypothesis Root : directory root.
Hypothesis Out : directory out.
Hypothesis OutR : relative out.
Hypothesis Dirs : sbd_dirs dirs root out.
Notation files := (sbd_routine dirs d root out).
Definition written (job : text * bool) : list (text * picture) := match files job with Ok w => w | Err _ => [] end.
Lemma file_inj n s n' s' : In s sbd_suffixes -> In s' sbd_suffixes -> sbd_file root out n s = sbd_file root out n' s' -> n = n' /\ s = s'.
Proof. intros H H' E. unfold sbd_file in E. apply app_inv_head, app_inv_head, app_inv_head, app_inv_head in E. apply suffix_free; assumption. Qed.
Lemma written_spec n thin m i : relative n -> n <> [] -> annotated d root n m i ->
  files (n, thin) = Ok (written (n, thin)) /\ exists pics, written (n, thin) = combine (map (sbd_file root out n) (job_suffixes thin)) pics /\ Forall2 (sbd_content m i) (job_suffixes thin) pics.
Proof.
  intros R N A. destruct (routine_writes dirs d root out Root Out OutR Dirs n thin m i R N A) as (pics & E & F). unfold written. rewrite E. split; [reflexivity|]. exists pics. auto.
Qed.
Lemma written_in n thin m i q p : relative n -> n <> [] -> annotated d root n m i -> In (q, p) (written (n, thin)) ->
  exists s, In s (job_suffixes thin) /\ q = sbd_file root out n s /\ sbd_content m i s p.
Proof.
  intros R N A I. destruct (written_spec n thin m i R N A) as (_ & pics & E & F). rewrite E in I. clear E.
  induction F as [|s p' ss ps C F IH]; [destruct I|]. cbn [map combine] in I. destruct I as [X|I].
  - injection X as <- <-. exists s. split; [left; reflexivity|]. auto.
  - destruct (IH I) as (s' & H1 & H2 & H3). exists s'. split; [right; exact H1|]. auto.
Qed.
Lemma written_ex n thin m i s : relative n -> n <> [] -> annotated d root n m i -> In s (job_suffixes thin) ->
  exists p, In (sbd_file root out n s, p) (written (n, thin)) /\ sbd_content m i s p.
Proof.
  intros R N A I. destruct (written_spec n thin m i R N A) as (_ & pics & E & F). rewrite E. clear E.
  induction F as [|s' p' ss ps C F IH]; [destruct I|]. cbn [map combine]. destruct I as [->|I].
  - exists p'. split; [left; reflexivity|exact C].
  - destruct (IH I) as (p & H1 & H2). exists p. split; [right; exact H1|exact H2].
Qed.
(** A list of jobs on a disk: every listed file holds what it should, nothing else changes. *)
Lemma jobs_disk (jobs : list (text * bool)) k :
  (forall n t, In (n, t) jobs -> relative n /\ n <> [] /\ exists m i, annotated d root n m i) ->
  let k' := place_all (flat_map written jobs) k in
  (forall n t s m i, In (n, t) jobs -> In s (job_suffixes t) -> annotated d root n m i -> exists p, k' (sbd_file root out n s) = Some p /\ sbd_content m i s p) /\
  (forall q, (forall n t s, In (n, t) jobs -> In s (job_suffixes t) -> q <> sbd_file root out n s) -> k' q = k q).
Proof.
  intros H k'. split.
  - intros n t s m i J Hs A. destruct (H n t J) as (R & N & _). destruct (written_ex n t m i s R N A Hs) as (p & W & C). exists p. split; [|exact C].
    apply place_all_in; [apply in_flat_map; exists (n, t); auto|]. intros p' I'. apply in_flat_map in I'. destruct I' as ([n' t'] & J' & W').
    destruct (H n' t' J') as (R' & N' & m' & i' & A'). destruct (written_in n' t' m' i' _ _ R' N' A' W') as (s' & Hs' & E & _).
    apply file_inj in E; [|eapply job_suffix_in; eassumption|eapply job_suffix_in; eassumption]. destruct E as [<- <-].
    assert (t' = t) by (eapply job_suffix_of; eassumption). subst t'. destruct (written_spec n t m i R N A) as (_ & pics & E & _). rewrite E in W, W'.
    eapply combine_unique; [|exact W'|exact W]. apply FinFun.Injective_map_NoDup; [|apply job_suffix_nodup].
    intros a b X. unfold sbd_file in X. apply app_inv_head, app_inv_head, app_inv_head, app_inv_head, app_inv_head in X. exact X.
  - intros q N. apply place_all_out. intros p I. apply in_flat_map in I. destruct I as ([n t] & J & W). destruct (H n t J) as (R & Nn & m & i & A).
    destruct (written_in n t m i _ _ R Nn A W) as (s & Hs & E & _). apply (N n t s J Hs E).
Qed.
Definition jobs_of (names : list text) : list (text * bool) := map (fun n => (n, false)) names ++ map (fun n => (n, true)) names.
Lemma in_jobs names n t : In (n, t) (jobs_of names) <-> In n names.
Proof.
  unfold jobs_of. rewrite in_app_iff, !in_map_iff. split.
  - intros [(x & E & I)|(x & E & I)]; injection E as <- _; exact I.
  - intros I. destruct t; [right|left]; exists n; auto.
Qed.
(** *** C52, theorem 7: the conversion of the two splits.  Every sample gets its seven files with the
    contents of the specification, nothing else on the disk changes. *)
Theorem sbd_conversion_run : forall train val k,
  get_samples train <> [] -> get_samples val <> [] ->
  (forall n, In n (get_samples train ++ get_samples val) -> relative n /\ n <> [] /\ exists m i, annotated d root n m i) ->
  exists k', sbd_splits dirs d root out [Some train; Some val] k = (Ok tt, k') /\
    (forall n m i s, In n (get_samples train ++ get_samples val) -> annotated d root n m i -> In s sbd_suffixes ->
       exists p, k' (sbd_file root out n s) = Some p /\ sbd_content m i s p) /\
    (forall q, (forall n s, In n (get_samples train ++ get_samples val) -> In s sbd_suffixes -> q <> sbd_file root out n s) -> k' q = k q).
Proof.
  intros train val k T V H. set (t := get_samples train) in *. set (v := get_samples val) in *.
  set (jobs := jobs_of t ++ jobs_of v). exists (place_all (flat_map written jobs) k).
  assert (Hj : forall n b, In (n, b) jobs -> In n (t ++ v)) by (intros n b I; unfold jobs in I; rewrite in_app_iff in *; rewrite !in_jobs in I; exact I).
  assert (Jh : forall n b, In n (t ++ v) -> In (n, b) jobs) by (intros n b I; unfold jobs; rewrite in_app_iff in *; rewrite !in_jobs; exact I).
  assert (Ok' : forall l, incl l (t ++ v) -> forall k, run_routines files (jobs_of l) k = (Ok tt, place_all (flat_map written (jobs_of l)) k)).
  { intros l L k0. apply run_routines_ok. intros [n b] I. apply in_jobs in I. destruct (H n (L n I)) as (R & N & m & i & A). apply (written_spec n b m i R N A). }
  split; [|].
  - cbn [sbd_splits]. fold t. fold v. destruct t as [|t0 tl] eqn:Et; [congruence|]. rewrite <- Et in *. fold (jobs_of t). rewrite (Ok' t) by (intros x I; apply in_or_app; left; exact I).
    destruct v as [|v0 vl] eqn:Ev; [congruence|]. rewrite <- Ev in *. fold (jobs_of v). rewrite (Ok' v) by (intros x I; apply in_or_app; right; exact I).
    unfold jobs. rewrite flat_map_app, place_all_app, Et, Ev. reflexivity.
  - destruct (jobs_disk jobs k) as (D1 & D2).
    { intros n b I. apply H, (Hj n b I). }
    split.
    + intros n m i s I A Hs. destruct (job_suffix_ex s Hs) as (b & Hb). apply (D1 n b s m i (Jh n b I) Hb A).
    + intros q N. apply D2. intros n b s I Hs. apply N; [apply (Hj n b I)|apply (job_suffix_in b s Hs)].
Qed.
End Run.
Print Assumptions sbd_conversion_run.

(** *** C52, theorem 8: the run stops at the first sample without annotations (or with an image of fewer
    than 22 rows); the files of the samples before it are there, the split list is not continued. *)
Theorem sbd_conversion_stops : forall dirs d root out train val k a n b,
  directory root -> directory out -> relative out -> sbd_dirs dirs root out ->
  get_samples train = a ++ n :: b ->
  (forall n, In n a -> relative n /\ n <> [] /\ exists m i, annotated d root n m i) ->
  relative n -> n <> [] ->
  (d (class_mat_file root n) = None \/ d (instance_mat_file root n) = None \/
   exists m i, d (class_mat_file root n) = Some (ClsMat m) /\ fits (c_seg m) (c_bdry m) /\ (ht (c_seg m) < 22)%nat /\ d (instance_mat_file root n) = Some i) ->
  exists k', sbd_splits dirs d root out (Some train :: val) k = (Err AssertionError, k') /\
    (forall n' m i s, In n' a -> annotated d root n' m i -> In s (job_suffixes false) -> exists p, k' (sbd_file root out n' s) = Some p /\ sbd_content m i s p) /\
    (forall q, (forall n' s, In n' a -> In s (job_suffixes false) -> q <> sbd_file root out n' s) -> k' q = k q).
Proof.
  intros dirs d root out train val k a n b Root Out OutR Dirs E H R N Bad.
  assert (Er : sbd_routine dirs d root out (n, false) = Err AssertionError).
  { destruct Dirs as (D1 & D2 & D3). destruct (mat_names root Root n R N) as [Ec Ei].
    assert (C1 : path_join root (lit "cls_orig") = root ++ lit "/cls_orig") by (rewrite join_directory; [reflexivity|exact Root|discriminate]).
    assert (C2 : path_join root (lit "inst_orig") = root ++ lit "/inst_orig") by (rewrite join_directory; [reflexivity|exact Root|discriminate]).
    unfold sbd_routine. cbn [fst snd]. rewrite save_dir_eq by assumption. unfold routine. cbv zeta. rewrite D1, C1, D2, C2, D3. cbn [negb]. rewrite <- C1, <- C2, Ec, Ei.
    destruct Bad as [B|[B|(m & i & B1 & B2 & B3 & B4)]].
    - rewrite B. reflexivity.
    - rewrite B. destruct (d (class_mat_file root n)); reflexivity.
    - rewrite B1, B4. cbn [negb]. rewrite (small_images_are_rejected _ _ _ _ _ m B1 B2 B3). reflexivity. }
  exists (place_all (flat_map (written dirs d root out) (map (fun n => (n, false)) a)) k). split.
  - cbn [sbd_splits]. rewrite E. rewrite map_app. cbn [map]. destruct (a ++ n :: b) as [|x l] eqn:El; [destruct a; discriminate|].
    rewrite <- app_assoc. cbn [app].
    rewrite (run_routines_stop _ (written dirs d root out) (n, false) AssertionError); [reflexivity| |exact Er].
    intros [n' t] I. apply in_map_iff in I. destruct I as (n0 & X & I). injection X as <- <-. destruct (H n0 I) as (R' & N' & m & i & A).
    apply (written_spec dirs d root out Root Out OutR Dirs n0 false m i R' N' A).
  - destruct (jobs_disk dirs d root out Root Out OutR Dirs (map (fun n => (n, false)) a) k) as (D1 & D2).
    { intros n' t I. apply in_map_iff in I. destruct I as (n0 & X & I). injection X as <- _. apply H. exact I. }
    split.
    + intros n' m i s I A Hs. apply (D1 n' false s m i); [apply in_map_iff; exists n'; auto|exact Hs|exact A].
    + intros q Q. apply D2. intros n' t s I Hs. apply in_map_iff in I. destruct I as (n0 & X & I). injection X as <- <-. apply Q; assumption.
Qed.
Print Assumptions sbd_conversion_stops.
(** *** C52, theorem 9: the evaluator reads exactly these files. *)
Theorem sbd_evaluator_reads_converted_files : forall root out split thin inst n,
  In (edge_name SBD thin inst) sbd_suffixes /\ In (lit "_labelIds.png") sbd_suffixes /\
  ground_truth SBD root out split thin inst n = EdgeSeg (sbd_file root out n (edge_name SBD thin inst)) (sbd_file root out n (lit "_labelIds.png")).
Proof. intros root out split thin inst n. split; [destruct thin, inst; cbn; tauto|]. split; [cbn; tauto|reflexivity]. Qed.
Print Assumptions sbd_evaluator_reads_converted_files.
