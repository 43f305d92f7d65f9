(** End-to-end statements about boundaries: from a label image (and instance image) to the
    pixels of the edge maps, for the [Mask2Edge] transforms (C48), the on-the-fly evaluator and
    the stored files (C31). *)
From Verif Require Import ModelEdges SpecEdges ProofsImage ProofsThin ProofsLabels ProofsEdges ProofsEdges2
  PropertiesLabels PropertiesEdges.
From Coq Require Import Permutation.
From Coq Require Import ZifyBool ZifyNat Lia.
Open Scope Z_scope.

(** ** Specification *)
(** The pixels carrying one of the ignored labels ([ids] are positions in the label list). *)
Definition ignored_region (img : image Z) (labels ids : list Z) : image Z :=
  tab (ht img) (wd img) (fun y x => b2z (existsb (fun i => px 0 img y x =? nth (Z.to_nat i) labels 0) ids)).
(** The pixels with value [v]. *)
Definition region (img : image Z) (v : Z) : image Z :=
  tab (ht img) (wd img) (fun y x => b2z (px 0 img y x =? v)).

Lemma region_binary img v : binary (region img v).
Proof. intros y x. unfold region. rewrite px_tab. destruct (inb _ _ _ _); [|auto]. destruct (_ =? _); auto. Qed.

Lemma outside_ignore m ign ign' y x :
  (forall y x, inb (ht m) (wd m) y x = true -> (px 0 ign y x = 0 <-> px 0 ign' y x = 0)) ->
  outside m ign y x -> outside m ign' y x.
Proof. intros H (A & B & C). split; [exact A|]. split; [exact B|]. apply H; assumption. Qed.
Lemma boundary_ignore m ign ign' r y x : inb (ht m) (wd m) y x = true ->
  (forall y x, inb (ht m) (wd m) y x = true -> (px 0 ign y x = 0 <-> px 0 ign' y x = 0)) ->
  boundary_spec m ign r y x -> boundary_spec m ign' r y x.
Proof.
  intros I H (R0 & C). split; [exact R0|].
  destruct C as [(M & y' & x' & O & D)|[(O & y' & x' & M & D)|(M & G & y1 & x1 & y2 & x2 & M1 & O2 & S)]].
  - left. split; [exact M|]. exists y', x'. split; [eapply outside_ignore; eassumption|exact D].
  - right; left. split; [eapply outside_ignore; eassumption|]. exists y', x'. auto.
  - right; right. split; [exact M|]. split; [intros C; apply G, H; assumption|].
    exists y1, x1, y2, x2. split; [exact M1|]. split; [eapply outside_ignore; eassumption|exact S].
Qed.

Lemma onehot_channel img labels s k : mask2onehot img labels = Ok s -> 0 <= k < Z.of_nat (length labels) ->
  channel s k = region img (nth (Z.to_nat k) labels 0).
Proof.
  unfold mask2onehot. destruct (Nat.eqb _ _); [discriminate|]. destruct (Nat.ltb _ _); [discriminate|].
  intros H Hk; injection H as <-. unfold channel. cbn [chans s_h s_w].
  set (f := fun l => tab (ht img) (wd img) (fun y x => b2z (px 0 img y x =? l))).
  rewrite (nth_indep _ _ (f 0)) by (rewrite map_length; lia). rewrite (map_nth f). reflexivity.
Qed.

(** The ignore map computed from the one-hot stack marks exactly the ignored region. *)
Lemma onehot_ignore img labels s ids : mask2onehot img labels = Ok s ->
  (forall i, In i ids -> 0 <= i < Z.of_nat (length labels)) -> (length ids < 255)%nat ->
  exists ign, ignore_of s ids = Ok ign /\ wf ign /\ ht ign = ht img /\ wd ign = wd img /\
    (forall y x, 0 <= px 0 ign y x < 255) /\
    forall y x, inb (ht img) (wd img) y x = true ->
      (px 0 ign y x = 0 <-> px 0 (ignored_region img labels ids) y x = 0).
Proof.
  intros E V L. destruct (onehot_parts _ _ _ E) as (W & B & Hh & Hw & Ls).
  destruct (ignore_of_ok s ids) as (ign & Ei & Wi & Hi & Vi & P); [intros i Hi; rewrite Ls; apply V, Hi|].
  exists ign. rewrite Hh in Hi. rewrite Hw in Vi.
  assert (C : forall y x, inb (ht img) (wd img) y x = true ->
     ignored_count s ids y x = zsum (map (fun i => b2z (px 0 img y x =? nth (Z.to_nat i) labels 0)) ids)).
  { intros y x I. unfold ignored_count. f_equal. apply map_ext_in. intros i Hin.
    rewrite (onehot_channel img labels s i E (V i Hin)). unfold region. rewrite px_tab, I. reflexivity. }
  assert (Bd : forall (f : Z -> bool) l, 0 <= zsum (map (fun i => b2z (f i)) l) <= Z.of_nat (length l) /\
     (zsum (map (fun i => b2z (f i)) l) = 0 <-> existsb f l = false)).
  { intros f. induction l as [|a l [IH1 IH2]]; [cbn; split; [lia|tauto]|]. cbn [map zsum existsb length].
    change (zsum (b2z (f a) :: map (fun i => b2z (f i)) l)) with (b2z (f a) + zsum (map (fun i => b2z (f i)) l)).
    destruct (f a); cbn [b2z orb]; [split; [lia|split; [lia|discriminate]]|]. split; [lia|]. rewrite <- IH2. lia. }
  split; [exact Ei|]. split; [exact Wi|]. split; [exact Hi|]. split; [exact Vi|].
  assert (PP : forall y x, inb (ht img) (wd img) y x = true ->
     px 0 ign y x = zsum (map (fun i => b2z (px 0 img y x =? nth (Z.to_nat i) labels 0)) ids)).
  { intros y x I. rewrite P by (rewrite Hh, Hw; exact I). rewrite C by exact I. apply Z.mod_small.
    destruct (Bd (fun i => px 0 img y x =? nth (Z.to_nat i) labels 0) ids) as [Bb _]. lia. }
  split.
  - intros y x. destruct (inb (ht img) (wd img) y x) eqn:I.
    + rewrite PP by exact I. destruct (Bd (fun i => px 0 img y x =? nth (Z.to_nat i) labels 0) ids) as [Bb _]. lia.
    + rewrite px_out; [lia|exact Wi|rewrite Hi, Vi; exact I].
  - intros y x I. rewrite PP by exact I. unfold ignored_region. rewrite px_tab, I.
    destruct (Bd (fun i => px 0 img y x =? nth (Z.to_nat i) labels 0) ids) as [_ Bb]. rewrite Bb.
    destruct (existsb _ _); cbn; split; congruence.
Qed.

Lemma boundary_region img img' labels s ids ign v r y x : mask2onehot img labels = Ok s ->
  (forall i, In i ids -> 0 <= i < Z.of_nat (length labels)) -> (length ids < 255)%nat ->
  ignore_of s ids = Ok ign -> ht img' = ht img -> wd img' = wd img -> inb (ht img) (wd img) y x = true ->
  (px 0 (mask2bdry (region img' v) ign r false) y x = 1 <->
   boundary_spec (region img' v) (ignored_region img labels ids) r y x).
Proof.
  intros E V L Ei Eh Ew I. destruct (onehot_ignore img labels s ids E V L) as (ign' & Ei' & Wi & Hi & Vi & B & Z0).
  rewrite Ei in Ei'; injection Ei' as <-.
  assert (Hr : ht (region img' v) = ht img) by exact Eh. assert (Wr : wd (region img' v) = wd img) by exact Ew.
  assert (G : ignore_for (region img' v) ign).
  { split; [apply wf_tab|]. split; [exact Wi|]. split; [congruence|]. split; [congruence|exact B]. }
  destruct (boundary_pixels (region img' v) ign r y x (region_binary _ _) G ltac:(rewrite Hr, Wr; exact I)) as [P _].
  rewrite P. split; apply boundary_ignore; try (rewrite Hr, Wr; exact I); rewrite Hr, Wr; intros; [apply Z0; assumption|].
  symmetry; apply Z0; assumption.
Qed.

(** ** C48: the [Mask2Edge] transform *)
(** Position [k] of the label list that is not ignored: the edge map is the boundary of the
    pixels labelled [labelIds[k]], not counting borders with the ignored region; ignored
    positions have no edges.  The mask is returned unchanged. *)
Theorem mask2edge_transform : forall labelIds ids radius mask, wf mask ->
  labelIds <> [] -> 1 <= radius -> (length labelIds <= ht mask)%nat ->
  (forall i, In i ids -> 0 <= i < Z.of_nat (length labelIds)) -> (length ids < 255)%nat ->
  exists edge, mask2edge_call labelIds ids None radius mask = Ok (edge, mask) /\
    length (chans edge) = length labelIds /\ s_h edge = ht mask /\ s_w edge = wd mask /\
    forall k y x, 0 <= k < Z.of_nat (length labelIds) -> inb (ht mask) (wd mask) y x = true ->
      (px 0 (channel edge k) y x = 0 \/ px 0 (channel edge k) y x = 1) /\
      (px 0 (channel edge k) y x = 1 <->
        ~ In k ids /\ boundary_spec (region mask (nth (Z.to_nat k) labelIds 0)) (ignored_region mask labelIds ids) radius y x).
Proof.
  intros labelIds ids radius mask W N R H V L.
  destruct (mask2onehot_spec mask labelIds N H) as (s & Es & Ls & Hs & Ws & _).
  destruct (onehot_parts _ _ _ Es) as (Wst & _).
  assert (Vs : valid_ids s ids) by (intros i Hi; rewrite Ls; apply V, Hi).
  destruct (semantic_edges s ids radius false Wst Vs) as (ign & r & Ei & Er & Wr & Hr & Vr & Lr & _ & P).
  exists r. unfold mask2edge_call, mask2edge_ctor.
  replace (Nat.eqb (length labelIds) 0) with false by (destruct labelIds; [congruence|reflexivity]).
  replace (radius <? 1) with false by lia. cbn [bind]. rewrite Es. cbn [bind]. rewrite Er. cbn [bind to_train].
  split; [reflexivity|]. split; [congruence|]. split; [congruence|]. split; [congruence|].
  intros k y x Hk I. destruct (P k ltac:(rewrite Ls; exact Hk)) as [P1 P2].
  destruct (in_dec Z.eq_dec k ids) as [Hin|Hout].
  - rewrite (P1 Hin), px_zeros. split; [left; reflexivity|]. split; [discriminate|tauto].
  - rewrite (P2 Hout). cbn [finish]. rewrite (onehot_channel mask labelIds s k Es Hk). split; [apply mask2bdry_01|].
    rewrite (boundary_region mask mask labelIds s ids ign _ radius y x Es V L Ei eq_refl eq_refl I). tauto.
Qed.
Print Assumptions mask2edge_transform.

(** With instances: also the boundaries between the instances of a class (ids
    1000*k .. 1000*k+999) that is present and not below the smallest instance class. *)
Theorem instance_mask2edge_transform : forall inst_labels labelIds ids radius mask inst l0, wf mask -> wf inst ->
  ht inst = ht mask -> wd inst = wd mask ->
  labelIds <> [] -> 1 <= radius -> (length labelIds <= ht mask)%nat ->
  (forall i, In i ids -> 0 <= i < Z.of_nat (length labelIds)) -> (length ids < 255)%nat ->
  In l0 inst_labels -> (forall l, In l inst_labels -> l0 <= l) -> 0 <= l0 ->
  (forall id, has_id inst id -> 0 <= id < 100000) ->
  exists edge, instance_mask2edge_call inst_labels labelIds ids None radius mask inst = Ok (edge, mask) /\
    length (chans edge) = length labelIds /\
    forall k y x, 0 <= k < Z.of_nat (length labelIds) -> inb (ht mask) (wd mask) y x = true ->
      (px 0 (channel edge k) y x = 0 \/ px 0 (channel edge k) y x = 1) /\
      (px 0 (channel edge k) y x = 1 <->
        ~ In k ids /\ (exists y' x', inb (ht mask) (wd mask) y' x' = true /\ px 0 mask y' x' = nth (Z.to_nat k) labelIds 0) /\
        (boundary_spec (region mask (nth (Z.to_nat k) labelIds 0)) (ignored_region mask labelIds ids) radius y x \/
         exists id, has_id inst id /\ l0 <= k /\ id / 1000 = k /\
           boundary_spec (region inst id) (ignored_region mask labelIds ids) radius y x)).
Proof.
  intros inst_labels labelIds ids radius mask inst l0 W Wi Hi Vi N R H V L In0 Min0 L0 Rid.
  destruct (mask2onehot_spec mask labelIds N H) as (s & Es & Ls & Hs & Ws & _).
  destruct (onehot_parts _ _ _ Es) as (Wst & _).
  assert (Vs : valid_ids s ids) by (intros i Hi'; rewrite Ls; apply V, Hi').
  destruct (onehot_ignore mask labelIds s ids Es V L) as (ign & Ei & _).
  assert (S : sorted_head inst_labels = Ok l0).
  { destruct (sorted_head inst_labels) as [l1|e] eqn:E.
    - destruct (sorted_head_spec _ _ E) as [I1 M1]. specialize (M1 l0 In0). specialize (Min0 l1 I1). f_equal; lia.
    - destruct inst_labels; [destruct In0|discriminate]. }
  destruct (instance_edges s inst inst_labels ids radius false l0 ign Wst Wi ltac:(congruence) ltac:(congruence) Vs S L0 Ei Rid)
    as (r & Er & Wr & Lr & P).
  exists r. unfold instance_mask2edge_call, mask2edge_ctor.
  replace (Nat.eqb (length labelIds) 0) with false by (destruct labelIds; [congruence|reflexivity]).
  replace (radius <? 1) with false by lia. cbn [bind]. rewrite Hi, Vi, !Nat.eqb_refl. cbn [andb negb].
  rewrite Es. cbn [bind]. rewrite Er. cbn [bind to_train]. split; [reflexivity|]. split; [congruence|].
  intros k y x Hk I. destruct (P k y x ltac:(rewrite Ls; exact Hk) ltac:(rewrite Hs, Ws; exact I)) as (P1 & P2 & P3).
  rewrite (onehot_channel mask labelIds s k Es Hk) in P2, P3.
  set (v := nth (Z.to_nat k) labelIds 0) in *.
  destruct (in_dec Z.eq_dec k ids) as [Hin|Hout].
  { rewrite (P1 Hin). split; [left; reflexivity|]. split; [discriminate|tauto]. }
  assert (D : (forall y x, px 0 (region mask v) y x = 0) \/
              exists y' x', inb (ht mask) (wd mask) y' x' = true /\ px 0 mask y' x' = v).
  { destruct (existsb (fun p => px 0 mask (fst p) (snd p) =? v) (coords (ht mask) (wd mask))) eqn:X.
    - right. apply existsb_exists in X. destruct X as ([y' x'] & Hc & Ev). cbn [fst snd] in Ev. apply in_coords in Hc.
      exists y', x'. split; [exact Hc|lia].
    - left. intros y' x'. unfold region. rewrite px_tab. destruct (inb (ht mask) (wd mask) y' x') eqn:I'; [|reflexivity].
      destruct (Z.eqb_spec (px 0 mask y' x') v) as [E|E]; [|reflexivity]. exfalso.
      assert (C : existsb (fun p => px 0 mask (fst p) (snd p) =? v) (coords (ht mask) (wd mask)) = true).
      { apply existsb_exists. exists (y', x'). split; [apply in_coords; exact I'|cbn; lia]. }
      congruence. }
  destruct D as [D|(y' & x' & I' & E)].
  - rewrite (P2 Hout D). split; [left; reflexivity|]. split; [discriminate|]. intros (_ & (y' & x' & I' & E) & _).
    specialize (D y' x'). unfold region in D. rewrite px_tab, I', E, Z.eqb_refl in D. discriminate.
  - destruct (P3 Hout) as [Q1 Q2].
    { exists y', x'. unfold region. rewrite px_tab, I', E, Z.eqb_refl. discriminate. }
    split; [exact Q2|]. rewrite Q1, (boundary_region mask mask labelIds s ids ign v radius y x Es V L Ei eq_refl eq_refl I).
    split.
    + intros [Hb|(id & A & B & C & Hb)]; (split; [exact Hout|]); (split; [eauto|]); [left; exact Hb|right].
      exists id. split; [exact A|]. split; [exact B|]. split; [exact C|].
      apply (boundary_region mask inst labelIds s ids ign id radius y x Es V L Ei Hi Vi I). exact Hb.
    + intros (_ & _ & [Hb|(id & A & B & C & Hb)]); [left; exact Hb|right].
      exists id. split; [exact A|]. split; [exact B|]. split; [exact C|].
      apply (boundary_region mask inst labelIds s ids ign id radius y x Es V L Ei Hi Vi I). exact Hb.
Qed.
Print Assumptions instance_mask2edge_transform.

(** With a label table the edge maps and the mask are renumbered consistently: map [t] of the
    result is map [l] of the unconverted result for every entry (l, t). *)
Theorem mask2edge_transform_train_ids : forall labelIds ids radius mask d edge m, numbering d -> d <> [] ->
  (forall l t, In (l, t) d -> l < Z.of_nat (length labelIds)) ->
  mask2edge_call labelIds ids None radius mask = Ok (edge, m) -> length (chans edge) = length labelIds ->
  exists edge', mask2edge_call labelIds ids (Some d) radius mask = Ok (edge', mask_label2trainId mask d) /\
    length (chans edge') = length d /\
    forall l t y x, In (l, t) d -> px 0 (channel edge' t) y x = px 0 (channel edge l) y x.
Proof.
  intros labelIds ids radius mask d edge m N Nd Hd E Le. unfold mask2edge_call in *.
  destruct (mask2edge_ctor labelIds radius) as [u|]; [|discriminate]. cbn [bind] in *.
  destruct (mask2onehot mask labelIds) as [s|]; [|discriminate]. cbn [bind] in *.
  destruct (loop_mask2edge s ids radius false false) as [e|]; [|discriminate]. cbn [bind to_train] in *. injection E as -> ->.
  destruct (edge_conversion edge d N) as (r & Er & Lr & _ & _ & P); [intros l t H; rewrite Le; eapply Hd, H|].
  exists r. destruct d as [|p d]; [congruence|]. cbn [to_train]. rewrite Er. cbn [bind]. split; [reflexivity|]. split; [exact Lr|].
  intros l t y x H. exact (P l t y x H).
Qed.
Print Assumptions mask2edge_transform_train_ids.

Theorem instance_mask2edge_transform_train_ids : forall inst_labels labelIds ids radius mask inst d edge m, numbering d -> d <> [] ->
  (forall l t, In (l, t) d -> l < Z.of_nat (length labelIds)) ->
  instance_mask2edge_call inst_labels labelIds ids None radius mask inst = Ok (edge, m) -> length (chans edge) = length labelIds ->
  exists edge', instance_mask2edge_call inst_labels labelIds ids (Some d) radius mask inst = Ok (edge', mask_label2trainId mask d) /\
    length (chans edge') = length d /\
    forall l t y x, In (l, t) d -> px 0 (channel edge' t) y x = px 0 (channel edge l) y x.
Proof.
  intros inst_labels labelIds ids radius mask inst d edge m N Nd Hd E Le. unfold instance_mask2edge_call in *.
  destruct (mask2edge_ctor labelIds radius) as [u|]; [|discriminate]. cbn [bind] in *.
  destruct (negb _); [discriminate|].
  destruct (mask2onehot mask labelIds) as [s|]; [|discriminate]. cbn [bind] in *.
  destruct (loop_instance_mask2edge s inst inst_labels ids radius false false) as [e|]; [|discriminate].
  cbn [bind to_train] in *. injection E as -> ->.
  destruct (edge_conversion edge d N) as (r & Er & Lr & _ & _ & P); [intros l t H; rewrite Le; eapply Hd, H|].
  exists r. destruct d as [|p d]; [congruence|]. cbn [to_train]. rewrite Er. cbn [bind]. split; [reflexivity|]. split; [exact Lr|].
  intros l t y x H. exact (P l t y x H).
Qed.
Print Assumptions instance_mask2edge_transform_train_ids.

(** What the constructor and the call reject. *)
Theorem mask2edge_transform_rejects : forall inst_labels labelIds ids d radius mask inst,
  ((labelIds = [] \/ radius < 1 \/ (ht mask < length labelIds)%nat) ->
     mask2edge_call labelIds ids d radius mask = Err AssertionError) /\
  ((labelIds = [] \/ radius < 1 \/ ht mask <> ht inst \/ wd mask <> wd inst \/ (ht mask < length labelIds)%nat) ->
     instance_mask2edge_call inst_labels labelIds ids d radius mask inst = Err AssertionError).
Proof.
  intros inst_labels labelIds ids d radius mask inst. unfold mask2edge_call, instance_mask2edge_call, mask2edge_ctor, mask2onehot.
  split; intros H.
  - destruct (Nat.eqb_spec (length labelIds) 0); [reflexivity|]. destruct (Z.ltb_spec radius 1); [reflexivity|]. cbn [bind].
    destruct (Nat.ltb_spec (ht mask) (length labelIds)); [reflexivity|].
    destruct H as [->|[H|H]]; [cbn in *; lia|lia|lia].
  - destruct (Nat.eqb_spec (length labelIds) 0); [reflexivity|]. destruct (Z.ltb_spec radius 1); [reflexivity|]. cbn [bind].
    destruct (Nat.eqb_spec (ht mask) (ht inst)); [|reflexivity]. destruct (Nat.eqb_spec (wd mask) (wd inst)); [|reflexivity].
    cbn [andb negb]. destruct (Nat.ltb_spec (ht mask) (length labelIds)); [reflexivity|].
    destruct H as [->|[H|[H|[H|H]]]]; [cbn in *; lia|lia|lia|lia|lia].
Qed.
Print Assumptions mask2edge_transform_rejects.

(** ** C31: Cityscapes, from the label image to the evaluated pixels *)
Definition cityscapes_ignored (img : image Z) : image Z :=
  tab (ht img) (wd img) (fun y x => b2z ((px 0 img y x =? 2) || (px 0 img y x =? 3))).
Lemma cityscapes_ignored_eq img : ignored_region img CITYSCAPES_labelIds [2; 3] = cityscapes_ignored img.
Proof.
  unfold ignored_region, cityscapes_ignored. apply tab_ext. intros y x I. cbn [existsb].
  change (nth (Z.to_nat 2) CITYSCAPES_labelIds 0) with 2. change (nth (Z.to_nat 3) CITYSCAPES_labelIds 0) with 3.
  rewrite orb_false_r. reflexivity.
Qed.
Lemma cityscapes_label_nth l : 0 <= l < 34 -> nth (Z.to_nat l) CITYSCAPES_labelIds 0 = l.
Proof.
  intros H. unfold CITYSCAPES_labelIds, zseq. change 0 with (Z.of_nat 0) at 1.
  rewrite map_nth, seq_nth by lia. lia.
Qed.

Lemma otf_label category label : 1 <= category -> In (label, category - 1) CITYSCAPES_label2trainId ->
  trainId2label (category - 1) = Ok label.
Proof.
  intros Hc Hin. destruct (cityscapes_in _ _ Hin) as [_ R].
  destruct (trainId2label_ok category ltac:(lia)) as (l & E & Hl). rewrite E. f_equal.
  destruct shipped_tables_are_numberings as ((_ & N2 & _) & _). revert Hl Hin N2. clear.
  generalize (category - 1). intros t. induction CITYSCAPES_label2trainId as [|[a b] d IH]; [intros []|]. cbn.
  intros [H|H] [H'|H'] N2; inversion N2; subst.
  - congruence.
  - injection H as -> ->. exfalso. apply H2. apply in_map_iff. exists (label, t); auto.
  - injection H' as -> ->. exfalso. apply H2. apply in_map_iff. exists (l, t); auto.
  - auto.
Qed.

(** Semantic mode: in the evaluated edge map of category [c] — computed on the fly, and equally
    decoded from the stored PNG — a pixel is set exactly when it lies in the boundary band of the
    class with train id [c-1], borders with the labels 2 and 3 (rectification border, out
    of roi) not counting. *)
Theorem cityscapes_semantic_pixels : forall img radius category label, wf img -> (34 <= ht img)%nat ->
  1 <= category -> In (label, category - 1) CITYSCAPES_label2trainId ->
  exists png e, otf_edge category None radius img = Ok e /\ convert_png None radius false img = Ok png /\
    channel (decode_png png 19) (category - 1) = e /\
    forall y x, inb (ht img) (wd img) y x = true ->
      (px 0 e y x = 0 \/ px 0 e y x = 1) /\
      (px 0 e y x = 1 <-> boundary_spec (region img label) (cityscapes_ignored img) radius y x).
Proof.
  intros img radius category label W H Hc Hin. pose proof (cityscapes_in _ _ Hin) as Rl.
  destruct (stored_png_equals_on_the_fly img None radius category W H ltac:(lia) I) as (png & e & Ep & Ee & Ec).
  exists png, e. split; [exact Ee|]. split; [exact Ep|]. split; [exact Ec|].
  destruct (mask2onehot_spec img CITYSCAPES_labelIds ltac:(discriminate) H) as (s & Es & Ls & Hs & Ws & _).
  destruct (onehot_parts _ _ _ Es) as (Wst & _). change (length CITYSCAPES_labelIds) with 34%nat in Ls.
  assert (V : forall i, In i [2; 3] -> 0 <= i < Z.of_nat (length CITYSCAPES_labelIds)) by (intros i [<-|[<-|[]]]; cbn; lia).
  assert (Vs : valid_ids s [2; 3]) by (intros i Hi; rewrite Ls; exact (V i Hi)).
  destruct (otf_semantic_edges s [2; 3] radius label Wst Vs ltac:(lia)) as (r & Er & Eo).
  destruct (semantic_edges s [2; 3] radius false Wst Vs) as (ign & r' & Ei & Er' & _ & _ & _ & _ & _ & P).
  rewrite Er in Er'; injection Er' as <-.
  unfold otf_edge in Ee. rewrite (otf_label category label Hc Hin) in Ee. cbn [bind] in Ee. rewrite Es in Ee. cbn [bind] in Ee.
  rewrite Eo in Ee. injection Ee as <-.
  assert (Nout : ~ In label [2; 3]).
  { intros C. assert (F : forallb (fun p => negb (memZ (fst p) [2; 3])) CITYSCAPES_label2trainId = true) by reflexivity.
    rewrite forallb_forall in F. specialize (F _ Hin). cbn [fst] in F. apply memZ_spec in C. rewrite C in F. discriminate. }
  destruct (P label ltac:(lia)) as [_ P2]. rewrite (P2 Nout). cbn [finish].
  rewrite (onehot_channel img CITYSCAPES_labelIds s label Es ltac:(change (length CITYSCAPES_labelIds) with 34%nat; lia)).
  rewrite cityscapes_label_nth by lia. intros y x Ix. split; [apply mask2bdry_01|].
  rewrite (boundary_region img img CITYSCAPES_labelIds s [2; 3] ign label radius y x Es V ltac:(cbn; lia) Ei eq_refl eq_refl Ix).
  rewrite cityscapes_ignored_eq. reflexivity.
Qed.
Print Assumptions cityscapes_semantic_pixels.

(** Instance-sensitive mode: the class boundary together with the boundary of every instance
    (id = 1000 * label + number) of a class that occurs in the image; classes below 24 (the
    stuff classes) have their class boundary only. *)
Theorem cityscapes_instance_pixels : forall img inst radius category label, wf img -> wf inst -> (34 <= ht img)%nat ->
  ht inst = ht img -> wd inst = wd img -> (forall id, has_id inst id -> 0 <= id < 100000) ->
  1 <= category -> In (label, category - 1) CITYSCAPES_label2trainId ->
  exists png e, otf_edge category (Some inst) radius img = Ok e /\ convert_png (Some inst) radius false img = Ok png /\
    channel (decode_png png 19) (category - 1) = e /\
    forall y x, inb (ht img) (wd img) y x = true ->
      (px 0 e y x = 0 \/ px 0 e y x = 1) /\
      (px 0 e y x = 1 <->
        has_id img label /\
        (boundary_spec (region img label) (cityscapes_ignored img) radius y x \/
         24 <= label /\ exists id, has_id inst id /\ id / 1000 = label /\
           boundary_spec (region inst id) (cityscapes_ignored img) radius y x)).
Proof.
  intros img inst radius category label W Wi H Hi Vi Rid Hc Hin. pose proof (cityscapes_in _ _ Hin) as Rl.
  destruct (stored_png_equals_on_the_fly img (Some inst) radius category W H ltac:(lia)
             (conj Wi (conj Hi (conj Vi Rid)))) as (png & e & Ep & Ee & Ec).
  exists png, e. split; [exact Ee|]. split; [exact Ep|]. split; [exact Ec|].
  destruct (mask2onehot_spec img CITYSCAPES_labelIds ltac:(discriminate) H) as (s & Es & Ls & Hs & Ws & _).
  destruct (onehot_parts _ _ _ Es) as (Wst & _). change (length CITYSCAPES_labelIds) with 34%nat in Ls.
  assert (V : forall i, In i [2; 3] -> 0 <= i < Z.of_nat (length CITYSCAPES_labelIds)) by (intros i [<-|[<-|[]]]; cbn; lia).
  assert (Vs : valid_ids s [2; 3]) by (intros i Hi'; rewrite Ls; exact (V i Hi')).
  assert (S : sorted_head CITYSCAPES_inst_labelIds = Ok 24) by reflexivity.
  destruct (otf_instance_edges s inst CITYSCAPES_inst_labelIds [2; 3] radius label 24 Wst Wi Vs S) as (r & Er & Eo).
  { intros id Hid Hm. specialize (Rid id Hid). lia. }
  { lia. }
  destruct (ignore_of_ok s [2; 3] Vs) as (ign & Ei & _).
  destruct (instance_edges s inst CITYSCAPES_inst_labelIds [2; 3] radius false 24 ign Wst Wi ltac:(congruence) ltac:(congruence) Vs S ltac:(lia) Ei Rid)
    as (r' & Er' & _ & _ & P).
  rewrite Er in Er'; injection Er' as <-.
  unfold otf_edge in Ee. rewrite (otf_label category label Hc Hin) in Ee. cbn [bind] in Ee. rewrite Es in Ee. cbn [bind] in Ee.
  rewrite Eo in Ee. injection Ee as <-.
  assert (Nout : ~ In label [2; 3]).
  { intros C. assert (F : forallb (fun p => negb (memZ (fst p) [2; 3])) CITYSCAPES_label2trainId = true) by reflexivity.
    rewrite forallb_forall in F. specialize (F _ Hin). cbn [fst] in F. apply memZ_spec in C. rewrite C in F. discriminate. }
  assert (Ech : channel s label = region img label).
  { rewrite (onehot_channel img CITYSCAPES_labelIds s label Es ltac:(change (length CITYSCAPES_labelIds) with 34%nat; lia)).
    rewrite cityscapes_label_nth by lia. reflexivity. }
  intros y x Ix. destruct (P label y x ltac:(lia) ltac:(rewrite Hs, Ws; exact Ix)) as (_ & P2 & P3).
  rewrite Ech in P2, P3.
  assert (Bi : forall img' v, ht img' = ht img -> wd img' = wd img ->
     (px 0 (mask2bdry (region img' v) ign radius false) y x = 1 <-> boundary_spec (region img' v) (cityscapes_ignored img) radius y x)).
  { intros img' v E1 E2.
    rewrite (boundary_region img img' CITYSCAPES_labelIds s [2; 3] ign v radius y x Es V ltac:(cbn; lia) Ei E1 E2 Ix).
    rewrite cityscapes_ignored_eq. reflexivity. }
  destruct (existsb (fun p => px 0 img (fst p) (snd p) =? label) (coords (ht img) (wd img))) eqn:X.
  - apply existsb_exists in X. destruct X as ([y' x'] & Hcc & Ev). cbn [fst snd] in Ev. apply in_coords in Hcc.
    destruct (P3 Nout) as [Q1 Q2].
    { exists y', x'. unfold region. rewrite px_tab, Hcc, Ev. discriminate. }
    split; [exact Q2|]. rewrite Q1, (Bi img label eq_refl eq_refl). split.
    + intros D. split; [exists y', x'; split; [exact Hcc|lia]|]. destruct D as [D|(id & A & B & C & D)]; [left; exact D|right].
      split; [exact B|]. exists id. split; [exact A|]. split; [exact C|]. apply (Bi inst id Hi Vi). exact D.
    + intros (_ & [D|(B & id & A & C & D)]); [left; exact D|right]. exists id. split; [exact A|]. split; [exact B|].
      split; [exact C|]. apply (Bi inst id Hi Vi). exact D.
  - assert (Z0 : forall y x, px 0 (region img label) y x = 0).
    { intros y' x'. unfold region. rewrite px_tab. destruct (inb (ht img) (wd img) y' x') eqn:I'; [|reflexivity].
      destruct (Z.eqb_spec (px 0 img y' x') label) as [E|E]; [|reflexivity]. exfalso.
      assert (C : existsb (fun p => px 0 img (fst p) (snd p) =? label) (coords (ht img) (wd img)) = true).
      { apply existsb_exists. exists (y', x'). split; [apply in_coords; exact I'|cbn; lia]. }
      congruence. }
    rewrite (P2 Nout Z0). split; [left; reflexivity|]. split; [discriminate|]. intros ((y' & x' & I' & E) & _).
    specialize (Z0 y' x'). unfold region in Z0. rewrite px_tab, I', E, Z.eqb_refl in Z0. discriminate.
Qed.
Print Assumptions cityscapes_instance_pixels.

(** ** C27 addendum: the shipped tables number the classes in increasing label order *)
Theorem shipped_tables_keep_order : forall d, d = CITYSCAPES_label2trainId \/ d = SBD_label2trainId ->
  forall l t l' t', In (l, t) d -> In (l', t') d -> (l < l' <-> t < t').
Proof.
  intros d Hd.
  assert (F : forallb (fun p => forallb (fun q => Bool.eqb (fst p <? fst q) (snd p <? snd q)) d) d = true)
    by (destruct Hd as [-> | ->]; reflexivity).
  intros l t l' t' H H'. rewrite forallb_forall in F. specialize (F _ H). rewrite forallb_forall in F. specialize (F _ H').
  cbn [fst snd] in F. apply eqb_prop in F. lia.
Qed.
Print Assumptions shipped_tables_keep_order.
Theorem cityscapes_evaluated_labels : forall l, In l (map fst CITYSCAPES_label2trainId) <->
  0 <= l < 34 /\ ~ In l [0; 1; 2; 3; 4; 5; 6; 9; 10; 14; 15; 16; 18; 29; 30].
Proof.
  intros l. cbn. lia.
Qed.
Print Assumptions cityscapes_evaluated_labels.

(** ** A concrete case *)
(** A road (7) above a pavement (8) with an ignored column. *)
Definition small_mask : image Z := mkImage 4 3 [[0; 0; 2]; [0; 0; 2]; [1; 1; 2]; [1; 1; 2]].
Example ex_mask2edge_transform :
  match mask2edge_call [0; 1; 2] [2] None 1 small_mask with
  | Ok (e, m) => (map (@rows Z) (chans e), rows m)
  | Err _ => ([], [])
  end = ([[[0; 0; 0]; [1; 1; 0]; [1; 1; 0]; [0; 0; 0]]; [[0; 0; 0]; [1; 1; 0]; [1; 1; 0]; [0; 0; 0]];
          [[0; 0; 0]; [0; 0; 0]; [0; 0; 0]; [0; 0; 0]]], rows small_mask).
Proof. vm_compute. reflexivity. Qed.
Example ex_mask2edge_hyps : wf small_mask /\ (length [0; 1; 2] <= ht small_mask)%nat /\
  (forall i, In i [2] -> 0 <= i < Z.of_nat (length [0; 1; 2])).
Proof.
  split; [split; [reflexivity|repeat constructor]|]. split; [cbn; lia|]. intros i [<-|[]]; cbn; lia.
Qed.
