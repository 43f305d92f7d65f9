(** C50: converting Cityscapes label images to edge files. *)
From Verif Require Import SpecConvert ProofsImage ProofsLabels ProofsEdges ProofsEdges2 PropertiesLabels PropertiesEdges PropertiesEdges2 PropertiesEval3 ProofsText ProofsNMS PropertiesResults PropertiesThin.
From Coq Require Import Lia Lqa ZifyBool ZifyNat.
Open Scope Z_scope.
Open Scope list_scope.

(** ** Refused conversions *)
(** Thinned edges need radius 1. *)
Theorem thin_needs_radius_one : forall radius, radius <> 1 ->
  (forall inst img, convert_edges inst radius true img = Err AssertionError)
  /\ (forall inst scale seal img, convert_scaled inst radius true scale seal img = Err AssertionError)
  /\ (forall d file inst proc ls is es scale seal, convert_label d file inst proc ls is es radius true scale seal = Err AssertionError).
Proof.
  intros radius H. assert (E : (radius =? 1) = false) by lia. split; [|split]; intros; unfold convert_edges, convert_scaled, convert_label; rewrite E; reflexivity.
Qed.
Print Assumptions thin_needs_radius_one.
(** Only .png and .tif files can be produced. *)
Theorem only_png_and_tif : forall d file inst proc ls is es radius thin scale seal q,
  convert_label d file inst proc ls is es radius thin scale seal = Ok q ->
  snd (splitext (edge_target file proc ls es)) = lit ".png" \/ snd (splitext (edge_target file proc ls es)) = lit ".tif".
Proof.
  intros d file inst proc ls is es radius thin scale seal q. unfold convert_label, known_format.
  set (ext := snd (splitext (edge_target file proc ls es))).
  destruct (thin && negb (radius =? 1)); [discriminate|]. destruct (negb (on_disk d file)); [discriminate|].
  destruct (text_eqb ext (lit ".png")) eqn:P; [apply text_eqb_spec in P; auto|].
  destruct (text_eqb ext (lit ".tif")) eqn:T; [apply text_eqb_spec in T; auto|].
  destruct (text_eqb ext (lit ".bin")) eqn:B; [|discriminate]. cbn [orb negb].
  destruct (open_gray d file) as [im|]; [|discriminate]. cbn [bind].
  match goal with |- bind ?x _ = _ -> _ => destruct x; [|discriminate] end. cbn [bind].
  match goal with |- bind ?x _ = _ -> _ => destruct x; [|discriminate] end. cbn [bind].
  unfold store_edges. rewrite P, T, B. discriminate.
Qed.
Print Assumptions only_png_and_tif.

(** ** Storing *)
Lemma store_reads e ext : wf_stack e -> binary_stack e -> List.length (chans e) = 19%nat -> ext = lit ".png" \/ ext = lit ".tif" ->
  exists p, store_edges ext e = Ok p /\ reads p e.
Proof.
  intros W B L [-> | ->]; unfold store_edges.
  - change (text_eqb (lit ".png") (lit ".png")) with true. cbn iota. destruct (png_round_trip e W B ltac:(lia)) as (p & -> & D). exists (Colour p). split; [reflexivity|].
    cbn [reads]. rewrite L in D. exact D.
  - change (text_eqb (lit ".tif") (lit ".png")) with false. change (text_eqb (lit ".tif") (lit ".tif")) with true. cbn iota. eexists. split; [reflexivity|]. cbn [reads].
    destruct (decode_tif_spec e 19 W B ltac:(lia) ltac:(lia)) as [-> _]. f_equal. change (Z.to_nat 19) with 19%nat. rewrite <- L. apply resized_same.
Qed.

(** ** Raw edges *)
Lemma worked_resize scale im : (0 <= scale)%Q -> label_image im -> (0 < ht im)%nat -> worked_on scale im (if qlt scale 1 then resize 0 (scaled (ht im) scale) (scaled (wd im) scale) im else im).
Proof.
  intros S (W & V) H. destruct (qlt scale 1) eqn:Q; split; intros C.
  - exists (scaled (ht im) scale), (scaled (wd im) scale). split; [apply scaled_is_rounding; exact S|]. split; [apply scaled_is_rounding; exact S|]. apply resize_resamples; assumption.
  - apply qlt_spec in Q. lra.
  - assert (X : qlt scale 1 = true) by (apply qlt_spec; exact C). congruence.
  - reflexivity.
Qed.
Lemma worked_unique scale im a b : (0 <= scale)%Q -> worked_on scale im a -> worked_on scale im b -> a = b.
Proof.
  intros S A B. destruct (Qlt_le_dec scale 1) as [Q|Q].
  - destruct (proj1 A Q) as (h & w & Sh & Sw & R). destruct (proj1 B Q) as (h' & w' & Sh' & Sw' & R').
    rewrite (proj2 (scaled_is_rounding (ht im) scale S) h Sh), (proj2 (scaled_is_rounding (wd im) scale S) w Sw) in R.
    rewrite (proj2 (scaled_is_rounding (ht im) scale S) h' Sh'), (proj2 (scaled_is_rounding (wd im) scale S) w' Sw') in R'.
    eapply resampling_is_unique; eassumption.
  - rewrite (proj2 A Q), (proj2 B Q). reflexivity.
Qed.
Lemma resize_instances h w im inst : label_image im -> (0 < ht im)%nat -> instances_of im inst ->
  instances_of (resize 0 h w im) (option_map (resize 0 h w) inst).
Proof.
  intros (W & V) H. destruct inst as [i|]; [|auto]. intros (Wi & Hi & Vi & R). cbn [option_map instances_of].
  destruct (resize_resamples i h w ltac:(lia) ltac:(lia)) as (A & B & C & D). split; [exact A|]. split; [exact B|]. split; [exact C|].
  intros y x I. rewrite B, C in I. destruct (D y x I) as (y' & x' & I' & _ & _ & ->). apply R. exact I'.
Qed.
Lemma instances_ids im inst : instances_of im inst ->
  match inst with None => True | Some i => wf i /\ ht i = ht im /\ wd i = wd im /\ (forall id, has_id i id -> 0 <= id < 100000) end.
Proof. destruct inst as [i|]; [|auto]. intros (A & B & C & R). split; [exact A|]. split; [exact B|]. split; [exact C|]. intros id (y & x & I & <-). apply R. exact I. Qed.

(** Not thinned, resampling first (or none): reading the file gives, for every class, the edges the
    on-the-fly evaluator computes from the images resampled to that scale. *)
Theorem raw_conversion : forall img inst img' inst' radius scale seal ext category,
  (0 <= scale)%Q -> seal = false \/ (1 <= scale)%Q ->
  label_image img -> instances_of img inst -> worked_on scale img img' -> (34 <= ht img')%nat ->
  match inst, inst' with None, None => True | Some i, Some i' => worked_on scale i i' | _, _ => False end ->
  ext = lit ".png" \/ ext = lit ".tif" -> 1 <= category <= 19 ->
  exists p t, bind (convert_scaled inst radius false scale seal img) (store_edges ext) = Ok p /\ reads p t /\
    List.length (chans t) = 19%nat /\ s_h t = ht img' /\ s_w t = wd img' /\
    otf_edge category inst' radius img' = Ok (channel t (category - 1)).
Proof.
  intros img inst img' inst' radius scale seal ext category S Hs Li Ii Wo Rows Wi Ext Hc.
  assert (Hpos : (0 < ht img)%nat).
  { destruct (Qlt_le_dec scale 1) as [Q|Q]; [|rewrite (proj2 Wo Q) in Rows; lia].
    destruct (proj1 Wo Q) as (h & w & Sh & _ & (_ & Eh & _)). unfold scaled_size in Sh. destruct (ht img) as [|n]; [|lia].
    exfalso. rewrite <- Eh in Sh. change (inject_Z (Z.of_nat 0)) with 0%Q in Sh. assert (X : (inject_Z 34 <= inject_Z (Z.of_nat (ht img')))%Q) by (rewrite <- Zle_Qle; lia). change (inject_Z 34) with 34%Q in X. lra. }
  assert (E1 : img' = if qlt scale 1 then resize 0 (scaled (ht img) scale) (scaled (wd img) scale) img else img) by (eapply worked_unique; [exact S|exact Wo|apply worked_resize; assumption]).
  assert (E2 : inst' = if qlt scale 1 then option_map (resize 0 (scaled (ht img) scale) (scaled (wd img) scale)) inst else inst).
  { destruct inst as [i|], inst' as [i'|]; try contradiction; [|destruct (qlt scale 1); reflexivity]. destruct Ii as (Wfi & Hi & Vi & _).
    assert (X : i' = if qlt scale 1 then resize 0 (scaled (ht i) scale) (scaled (wd i) scale) i else i).
    { eapply worked_unique; [exact S|exact Wi|]. apply worked_resize; [exact S|split; [exact Wfi|destruct Li; lia]|lia]. }
    rewrite Hi, Vi in X. rewrite X. destruct (qlt scale 1); reflexivity. }
  assert (Li' : wf img' /\ instances_of img' inst').
  { rewrite E1, E2. destruct (qlt scale 1) eqn:Q; [|destruct Li; auto]. split; [apply wf_tab|apply resize_instances; assumption]. }
  destruct Li' as [W' I'].
  destruct (convert_edges_channels img' inst' radius category W' Rows Hc (instances_ids _ _ I')) as (t & Et & Wt & Bt & Lt & Ht & Vt & Eo).
  destruct (store_reads t ext Wt Bt Lt Ext) as (p & Ep & Rp). exists p, t. split; [|auto 10].
  unfold convert_scaled. cbn [andb]. cbv zeta. rewrite orb_false_r, andb_true_r.
  assert (F : (qlt scale 1 && negb seal)%bool = qlt scale 1 /\ (qlt scale 1 && seal)%bool = false).
  { destruct Hs as [->|Q]; [split; [apply andb_true_r|apply andb_false_r]|]. replace (qlt scale 1) with false; [split; reflexivity|].
    symmetry. apply not_true_iff_false. intros X. apply qlt_spec in X. lra. }
  destruct F as [-> ->]. rewrite <- E1, <- E2. rewrite Et. exact Ep.
Qed.
Print Assumptions raw_conversion.

(** Raw edges at a scale below 1 with [seal] (the half size files): the edges are computed at full
    scale, and pixel (y, x) of the file is the full scale pixel (y H / h, x W / w), rounded down. *)
Lemma resize_np_shape scale a : wf (resize_np scale a) /\ ht (resize_np scale a) = scaled (ht a) scale /\ wd (resize_np scale a) = scaled (wd a) scale.
Proof. split; [apply wf_tab|split; reflexivity]. Qed.
Theorem sealed_raw_conversion : forall img inst radius scale ext category,
  (0 <= scale)%Q -> (scale < 1)%Q -> wf img -> (34 <= ht img)%nat -> instances_of img inst ->
  ext = lit ".png" \/ ext = lit ".tif" -> 1 <= category <= 19 ->
  exists p t e, bind (convert_scaled inst radius false scale true img) (store_edges ext) = Ok p /\ reads p t /\
    List.length (chans t) = 19%nat /\ scaled_size (ht img) scale (s_h t) /\ scaled_size (wd img) scale (s_w t) /\
    otf_edge category inst radius img = Ok e /\
    forall y x, inb (s_h t) (s_w t) y x = true ->
      px 0 (channel t (category - 1)) y x =
      px 0 e (Z.min (y * Z.of_nat (ht img) / Z.of_nat (s_h t)) (Z.of_nat (ht img) - 1)) (Z.min (x * Z.of_nat (wd img) / Z.of_nat (s_w t)) (Z.of_nat (wd img) - 1)).
Proof.
  intros img inst radius scale ext category S Q W Rows Ii Ext Hc.
  destruct (convert_edges_channels img inst radius category W Rows Hc (instances_ids _ _ Ii)) as (t & Et & Wt & Bt & Lt & Ht & Vt & Eo).
  set (t' := mkStack (scaled (ht img) scale) (scaled (wd img) scale) (map (resize_np scale) (chans t))).
  assert (Wt' : wf_stack t').
  { intros e I. cbn [chans t'] in I. apply in_map_iff in I. destruct I as (a & <- & I). destruct (Wt a I) as (A & B & C). destruct (resize_np_shape scale a) as (A' & B' & C'). cbn [s_h s_w t'].
    split; [exact A'|]. split; [rewrite B', B, Ht; reflexivity|rewrite C', C, Vt; reflexivity]. }
  assert (Bt' : binary_stack t').
  { intros e I y x. cbn [chans t'] in I. apply in_map_iff in I. destruct I as (a & <- & I). unfold resize_np. rewrite px_tab. destruct (inb _ _ _ _); [|left; reflexivity]. apply Bt. exact I. }
  assert (Lt' : List.length (chans t') = 19%nat) by (cbn [chans t']; rewrite map_length; exact Lt).
  destruct (store_reads t' ext Wt' Bt' Lt' Ext) as (p & Ep & Rp). exists p, t', (channel t (category - 1)).
  split.
  { unfold convert_scaled. cbn [andb orb negb]. cbv zeta. rewrite (proj2 (qlt_spec scale 1) Q). cbn [andb orb negb]. rewrite Et. cbn [bind]. exact Ep. }
  split; [exact Rp|]. split; [exact Lt'|]. split; [apply scaled_is_rounding; exact S|]. split; [apply scaled_is_rounding; exact S|]. split; [exact Eo|].
  intros y x I. unfold channel, t' at 1. cbn [chans].
  assert (K : (Z.to_nat (category - 1) < List.length (chans t))%nat) by lia.
  rewrite (nth_indep _ _ (resize_np scale (zeros (s_h t) (s_w t)))) by (rewrite map_length; exact K). rewrite map_nth.
  destruct (Wt (nth (Z.to_nat (category - 1)) (chans t) (zeros (s_h t) (s_w t))) (nth_In _ _ K)) as (A & B & C).
  unfold resize_np. rewrite px_tab. rewrite B, C, Ht, Vt. cbn [s_h s_w t'] in I |- *. rewrite I. unfold cv_nearest. reflexivity.
Qed.
Print Assumptions sealed_raw_conversion.

(** ** Thinned edges *)
Section MapStack.
Variables (F : image Z -> image Z) (h w : nat).
Hypothesis F0 : F (zeros h w) = zeros h w.
Definition map_stack (s : stack) : stack := mkStack (s_h s) (s_w s) (map F (chans s)).
Lemma set_nth_map (l : list (image Z)) i a : set_nth (map F l) i (F a) = map F (set_nth l i a).
Proof. unfold set_nth. rewrite map_app, firstn_map, skipn_map. destruct (skipn i l); reflexivity. Qed.
Lemma edge_loop_map mask ids f : s_h mask = h -> s_w mask = w -> edge_loop mask ids (fun l m => F (f l m)) = map_stack (edge_loop mask ids f).
Proof.
  intros Eh Ew. unfold edge_loop, map_stack. cbn [chans s_h s_w]. f_equal.
  assert (X : forall labels edges, fold_left (fun edges label => match label_edge mask ids (fun l m => F (f l m)) label with Some e => set_nth edges (Z.to_nat label) e | None => edges end) labels (map F edges)
     = map F (fold_left (fun edges label => match label_edge mask ids f label with Some e => set_nth edges (Z.to_nat label) e | None => edges end) labels edges)).
  { induction labels as [|l labels IH]; intros edges; [reflexivity|]. cbn [fold_left]. rewrite <- IH. f_equal. unfold label_edge. destruct (memZ l ids); [reflexivity|]. destruct (any_nonzero _); [apply set_nth_map|reflexivity]. }
  rewrite <- X. f_equal. rewrite map_map. apply map_ext. intros _. rewrite Eh, Ew. symmetry. exact F0.
Qed.
Lemma l2t_map (s : stack) d : s_h s = h -> s_w s = w -> forall acc, l2t_loop (map_stack s) d (map F acc) = bind (l2t_loop s d acc) (fun l => Ok (map F l)).
Proof.
  intros Eh Ew. induction d as [|[a b] d IH]; intros acc; [reflexivity|]. cbn [l2t_loop map_stack chans s_h s_w]. rewrite !map_length.
  destruct (pyidx (List.length (chans s)) a) as [i|]; [|reflexivity]. destruct (pyidx (List.length acc) b) as [j|]; [|reflexivity].
  rewrite <- IH. f_equal. rewrite <- set_nth_map. f_equal. rewrite Eh, Ew. change (tab h w (fun _ _ => 0)) with (zeros h w). rewrite <- F0 at 1. apply map_nth.
Qed.
Lemma to_train_map (s : stack) d : s_h s = h -> s_w s = w -> edge_label2trainId (map_stack s) d = bind (edge_label2trainId s d) (fun t => Ok (map_stack t)).
Proof.
  intros Eh Ew. unfold edge_label2trainId. cbn [s_h s_w map_stack]. 
  assert (R : repeat (tab (s_h s) (s_w s) (fun _ _ => 0)) (List.length d) = map F (repeat (tab (s_h s) (s_w s) (fun _ _ => 0)) (List.length d))).
  { rewrite Eh, Ew. change (tab h w (fun _ _ => 0)) with (zeros h w). induction (List.length d) as [|n IH]; [reflexivity|]. cbn [repeat map]. rewrite F0, <- IH. reflexivity. }
  rewrite R at 1. change (mkStack (s_h s) (s_w s) (map F (chans s))) with (map_stack s). rewrite l2t_map by assumption.
  destruct (l2t_loop s d _); reflexivity.
Qed.
End MapStack.
Lemma convert_thin_map inst img t : convert_edges inst 1 false img = Ok t -> convert_edges inst 1 true img = Ok (map_stack thin_u8 t).
Proof.
  unfold convert_edges. cbn [andb negb]. change (1 =? 1) with true. cbn [andb negb].
  destruct (mask2onehot img CITYSCAPES_labelIds) as [m|] eqn:Em; [|discriminate]. cbn [bind].
  assert (Z0 := thin_u8_zeros (s_h m) (s_w m)).
  destruct inst as [i|].
  - unfold loop_instance_mask2edge. destruct (ignore_of m [2; 3]) as [ign|]; [|discriminate]. cbn [bind]. destruct (sorted_head _) as [l0|]; [|discriminate]. cbn [bind].
    destruct (build_insts _ _ _) as [insts|]; [|discriminate]. cbn [bind]. cbv zeta.
    rewrite (edge_loop_map thin_u8 (s_h m) (s_w m) Z0 m [2; 3] (fun label mm => inst_edge i insts ign 1 false label mm) eq_refl eq_refl).
    rewrite (to_train_map thin_u8 (s_h m) (s_w m) Z0) by reflexivity. intros E. 
    match type of E with ?x = _ => match goal with |- bind ?y _ = _ => change y with x end end. rewrite E. reflexivity.
  - unfold loop_mask2edge. destruct (ignore_of m [2; 3]) as [ign|]; [|discriminate]. cbn [bind]. cbv zeta.
    rewrite (edge_loop_map thin_u8 (s_h m) (s_w m) Z0 m [2; 3] (fun label mm => mask2bdry mm ign 1 false) eq_refl eq_refl).
    rewrite (to_train_map thin_u8 (s_h m) (s_w m) Z0) by reflexivity. intros E.
    match type of E with ?x = _ => match goal with |- bind ?y _ = _ => change y with x end end. rewrite E. reflexivity.
Qed.
Lemma thin_loop_bin fuel : forall k b i, binary_thin_loop fuel k (Bin b) <> Some (Raw i).
Proof.
  induction fuel as [|fuel IH]; intros k b i; cbn [binary_thin_loop]; [discriminate|]. destruct (match k with None => true | Some k => 0 <? k end); [|discriminate].
  destruct (Nat.eqb _ 0); [discriminate|]. destruct (Nat.eqb _ 0); [discriminate|]. apply IH.
Qed.
Lemma thin_loop_raw fuel k a i : binary_thin_loop fuel k (Raw a) = Some (Raw i) -> i = a.
Proof.
  destruct fuel as [|fuel]; cbn [binary_thin_loop]; [discriminate|]. destruct (match k with None => true | Some k => 0 <? k end); [|congruence].
  destruct (Nat.eqb _ 0); [congruence|]. destruct (Nat.eqb _ 0); [discriminate|]. intros E. apply thin_loop_bin in E. contradiction.
Qed.
Lemma px_nonzero (a : image Z) y x : px false (nonzero a) y x = negb (px 0 a y x =? 0).
Proof. exact (px_imap (fun v => negb (v =? 0)) 0 a y x). Qed.
Lemma thin_u8_px a : wf a -> (forall y x, px 0 a y x = 0 \/ px 0 a y x = 1) ->
  exists r, binary_thin None (Raw a) = Some r /\ forall y x, inb (ht a) (wd a) y x = true -> px 0 (thin_u8 a) y x = b2z (px false (as_bool r) y x).
Proof.
  intros W B. destruct (binary_thin_terminates None (Raw a) W) as (r & Er). exists r. split; [exact Er|]. intros y x I. unfold thin_u8. rewrite Er. rewrite px_tab, I.
  destruct r as [i|b]; [|reflexivity]. assert (i = a) by (unfold binary_thin in Er; apply thin_loop_raw in Er; exact Er). subst i.
  cbn [as_bool]. rewrite px_nonzero. destruct (B y x) as [-> | ->]; reflexivity.
Qed.
(** Thinned files: every class is the thinning of the radius 1 edges, which are computed from the images
    resampled to the scale (with [seal] or without). *)
Theorem thin_conversion : forall img inst img' inst' scale seal ext category,
  (0 <= scale)%Q ->
  label_image img -> instances_of img inst -> worked_on scale img img' -> (34 <= ht img')%nat ->
  match inst, inst' with None, None => True | Some i, Some i' => worked_on scale i i' | _, _ => False end ->
  ext = lit ".png" \/ ext = lit ".tif" -> 1 <= category <= 19 ->
  exists p t e r, bind (convert_scaled inst 1 true scale seal img) (store_edges ext) = Ok p /\ reads p t /\
    List.length (chans t) = 19%nat /\ s_h t = ht img' /\ s_w t = wd img' /\
    otf_edge category inst' 1 img' = Ok e /\ binary_thin None (Raw e) = Some r /\
    forall y x, inb (ht img') (wd img') y x = true -> px 0 (channel t (category - 1)) y x = b2z (px false (as_bool r) y x).
Proof.
  intros img inst img' inst' scale seal ext category S Li Ii Wo Rows Wi Ext Hc.
  destruct (raw_conversion img inst img' inst' 1 scale false ext category S (or_introl eq_refl) Li Ii Wo Rows Wi Ext Hc) as (p0 & t0 & Ep0 & Rp0 & Lt0 & Ht0 & Vt0 & Eo).
  unfold convert_scaled in Ep0 |- *. change (1 =? 1) with true in *. cbn [andb negb orb] in *. cbv zeta in *. rewrite orb_true_r, andb_true_r. rewrite andb_false_r, andb_true_r in Ep0. rewrite andb_false_r. cbn [andb] in Ep0.
  set (ii := if qlt scale 1 then _ else inst) in *. set (im := if qlt scale 1 then _ else img) in *.
  assert (Hpos : (0 < ht img)%nat).
  { destruct (Qlt_le_dec scale 1) as [Q|Q]; [|rewrite (proj2 Wo Q) in Rows; lia].
    destruct (proj1 Wo Q) as (h & w & Sh & _ & (_ & Eh & _)). unfold scaled_size in Sh. destruct (ht img) as [|n]; [|lia].
    exfalso. rewrite <- Eh in Sh. change (inject_Z (Z.of_nat 0)) with 0%Q in Sh. assert (X : (inject_Z 34 <= inject_Z (Z.of_nat (ht img')))%Q) by (rewrite <- Zle_Qle; lia). change (inject_Z 34) with 34%Q in X. lra. }
  assert (E1 : img' = im) by (eapply worked_unique; [exact S|exact Wo|apply worked_resize; assumption]).
  assert (E2 : inst' = ii).
  { unfold ii. destruct inst as [i|], inst' as [i'|]; try contradiction; [|destruct (qlt scale 1); reflexivity]. destruct Ii as (Wfi & Hi & Vi & _).
    assert (X : i' = if qlt scale 1 then resize 0 (scaled (ht i) scale) (scaled (wd i) scale) i else i).
    { eapply worked_unique; [exact S|exact Wi|]. apply worked_resize; [exact S|split; [exact Wfi|destruct Li; lia]|lia]. }
    rewrite Hi, Vi in X. rewrite X. destruct (qlt scale 1); reflexivity. }
  assert (I' : wf img' /\ instances_of img' inst').
  { rewrite E1, E2. unfold im, ii. destruct (qlt scale 1) eqn:Q; [|destruct Li; auto]. split; [apply wf_tab|apply resize_instances; assumption]. }
  destruct I' as [W' I'].
  destruct (convert_edges_channels img' inst' 1 category W' Rows Hc (instances_ids _ _ I')) as (t & Et & Wt & Bt & Lt & Ht & Vt & Eo').
  rewrite <- E1, <- E2. clear Ep0 Rp0.
  assert (Wt' : wf_stack (map_stack thin_u8 t)).
  { intros e I. cbn [chans map_stack] in I. apply in_map_iff in I. destruct I as (a & <- & I). destruct (Wt a I) as (A & B & C). destruct (thin_u8_shape a A) as (A' & B' & C'). cbn [s_h s_w map_stack].
    split; [exact A'|]. split; congruence. }
  assert (Bt' : binary_stack (map_stack thin_u8 t)).
  { intros e I y x. cbn [chans map_stack] in I. apply in_map_iff in I. destruct I as (a & <- & I). destruct (Wt a I) as (A & B & C).
    destruct (thin_u8_px a A (Bt a I)) as (r & _ & P). destruct (thin_u8_shape a A) as (A' & B' & C').
    destruct (inb (ht a) (wd a) y x) eqn:In; [rewrite (P y x In); destruct (px false (as_bool r) y x); auto|]. left. apply px_out; [exact A'|]. rewrite B', C'. exact In. }
  assert (Lt' : List.length (chans (map_stack thin_u8 t)) = 19%nat) by (cbn [chans map_stack]; rewrite map_length; exact Lt).
  destruct (store_reads _ ext Wt' Bt' Lt' Ext) as (p & Ep & Rp).
  assert (K : (Z.to_nat (category - 1) < List.length (chans t))%nat) by lia.
  assert (Ic : In (channel t (category - 1)) (chans t)) by (apply nth_In; exact K).
  destruct (Wt _ Ic) as (Wc & Hc1 & Hc2). destruct (thin_u8_px _ Wc (Bt _ Ic)) as (r & Er & Pr).
  exists p, (map_stack thin_u8 t), (channel t (category - 1)), r.
  split; [rewrite (convert_thin_map _ _ _ Et); exact Ep|]. split; [exact Rp|]. split; [exact Lt'|]. split; [exact Ht|]. split; [exact Vt|]. split; [exact Eo'|]. split; [exact Er|].
  intros y x I. rewrite <- Pr by (rewrite Hc1, Hc2, Ht, Vt; exact I). unfold channel at 1. cbn [chans map_stack s_h s_w].
  rewrite (nth_indep _ _ (thin_u8 (zeros (s_h t) (s_w t)))) by (rewrite map_length; exact K). rewrite map_nth. reflexivity.
Qed.
Print Assumptions thin_conversion.

(** ** Half size ground truth *)
(** The half size raw file is not the full size raw file resampled the way the evaluation does it: the
    conversion keeps the even pixels, the evaluation at scale 1/2 the odd ones. *)
Definition two_classes : image Z := tab 34 2 (fun y _ => if y <? 17 then 7 else 8).
Theorem half_raw_is_full_raw_at_half_scale_refuted : exists full half,
  bind (convert_scaled None 2 false 1 true two_classes) (store_edges (lit ".png")) = Ok (Colour full) /\
  bind (convert_scaled None 2 false (1 # 2) true two_classes) (store_edges (lit ".png")) = Ok (Colour half) /\
  g_h half = 17%nat /\ g_w half = 1%nat /\ decode_png (resize_rgb 17 1 full) 19 <> decode_png half 19.
Proof.
  eexists. eexists. split; [vm_compute; reflexivity|]. split; [vm_compute; reflexivity|]. split; [reflexivity|]. split; [reflexivity|]. vm_compute. discriminate.
Qed.
Print Assumptions half_raw_is_full_raw_at_half_scale_refuted.

(** The hypotheses are met. *)
Example ex_conversion : label_image two_classes /\ instances_of two_classes (Some two_classes) /\ worked_on 1 two_classes two_classes /\ (34 <= ht two_classes)%nat
  /\ exists t, convert_scaled (Some two_classes) 2 false 1 true two_classes = Ok t /\ map (fun c => Z.of_nat (count_true (nonzero c))) (chans t) = [8; 8; 0; 0; 0; 0; 0; 0; 0; 0; 0; 0; 0; 0; 0; 0; 0; 0; 0].
Proof.
  assert (P : forall y x, 0 <= px 0 two_classes y x < 100000) by (intros y x; unfold two_classes; rewrite px_tab; destruct (inb _ _ _ _); [destruct (y <? 17)|]; lia).
  split; [split; [apply wf_tab|cbn; lia]|]. split; [split; [apply wf_tab|split; [reflexivity|split; [reflexivity|intros; apply P]]]|].
  split; [split; [intros C; exfalso; lra|reflexivity]|]. split; [cbn; lia|]. eexists. split; [vm_compute; reflexivity|]. vm_compute. reflexivity.
Qed.
