(** Theorems for C16, C25, C26, C27, C31. *)
From Verif Require Import ModelLabels SpecLabels ProofsLabels.
From Coq Require Import ZifyBool ZifyNat Psatz Permutation.
Local Open Scope Z_scope.

(** ** C25: PNG encoding *)
(** Encoding then decoding with [n] classes gives the first [n] channels (at most 24), zero
    padded. *)
Theorem png_decode_encode : forall s im n, wf_stack s -> binary_stack s -> 0 <= n ->
  rgb_multilabel_encoding s = Ok im -> decode_png im n = resized (Nat.min (Z.to_nat n) 24) s.
Proof. intros s im n W B Hn E. apply decode_png_spec; assumption. Qed.
Print Assumptions png_decode_encode.

Theorem png_round_trip : forall s, wf_stack s -> binary_stack s -> (length (chans s) <= 24)%nat ->
  exists im, rgb_multilabel_encoding s = Ok im /\ decode_png im (Z.of_nat (length (chans s))) = s.
Proof.
  intros s W B L. destruct (rgb_ok s L) as (im & E & _). exists im. split; [exact E|].
  rewrite (png_decode_encode s im) by (auto; lia).
  replace (Nat.min (Z.to_nat (Z.of_nat (length (chans s)))) 24) with (length (chans s)) by lia. apply resized_same.
Qed.
Print Assumptions png_round_trip.

Theorem png_encoding_injective : forall s t im, wf_stack s -> wf_stack t -> binary_stack s -> binary_stack t ->
  length (chans s) = length (chans t) ->
  rgb_multilabel_encoding s = Ok im -> rgb_multilabel_encoding t = Ok im -> s = t.
Proof.
  intros s t im Ws Wt Bs Bt L Es Et.
  assert (Ls : (length (chans s) <= 24)%nat).
  { destruct (Nat.le_gt_cases (length (chans s)) 24); [assumption|].
    unfold rgb_multilabel_encoding in Es. rewrite rgb_loop_err in Es by lia. discriminate. }
  destruct (png_round_trip s Ws Bs Ls) as (i1 & E1 & D1).
  destruct (png_round_trip t Wt Bt ltac:(lia)) as (i2 & E2 & D2).
  rewrite Es in E1. injection E1 as <-. rewrite Et in E2. injection E2 as <-.
  rewrite <- D1, <- D2, L. reflexivity.
Qed.
Print Assumptions png_encoding_injective.

(** The encoder accepts exactly the stacks of at most 24 channels. *)
Theorem png_encoder_limit : forall s,
  ((length (chans s) <= 24)%nat -> exists im, rgb_multilabel_encoding s = Ok im) /\
  ((24 < length (chans s))%nat -> rgb_multilabel_encoding s = Err ValueError).
Proof.
  intros s. split; intros L.
  - destruct (rgb_ok s L) as (im & E & _). eauto.
  - unfold rgb_multilabel_encoding. rewrite rgb_loop_err by lia. reflexivity.
Qed.
Print Assumptions png_encoder_limit.

(** Where each bit is stored: class [k] is bit [k mod 8] of the blue, green or red byte. *)
Theorem png_bit_position : forall s im k y x, binary_stack s ->
  rgb_multilabel_encoding s = Ok im -> inb (s_h s) (s_w s) y x = true -> (k < 24)%nat ->
  b2z (Z.testbit (px 0 (if Nat.ltb k 8 then ch_b im else if Nat.ltb k 16 then ch_g im else ch_r im) y x)
         (Z.of_nat (k mod 8))) = at3 s k y x.
Proof.
  intros s im k y x B E I L. unfold at3. rewrite <- nth_column, <- (png_bit_column s im k y x E B I L).
  unfold png_bit.
  do 24 (destruct k as [|k]; [reflexivity|]). lia.
Qed.
Print Assumptions png_bit_position.

(** The decoder has no such limit: asked for more than 24 classes it silently returns 24. *)
Theorem png_decoder_silently_truncates : forall im n, 24 <= n -> length (chans (decode_png im n)) = 24%nat.
Proof.
  intros im n H. unfold decode_png. cbn [chans]. rewrite slice_rev_png by lia.
  rewrite !map_length, zseq_length. lia.
Qed.
Print Assumptions png_decoder_silently_truncates.

Definition three : stack := mkStack 1 2 [tab 1 2 (fun _ x => b2z (x =? 0)); tab 1 2 (fun _ x => b2z (x =? 1)); tab 1 2 (fun _ _ => 1)].
Example png_round_trip_applies : exists im, rgb_multilabel_encoding three = Ok im /\ decode_png im 3 = three /\
  px 0 (ch_b im) 0 0 = 5 /\ px 0 (ch_b im) 0 1 = 6.
Proof. eexists. split; [reflexivity|]. split; [reflexivity|]. split; reflexivity. Qed.

(** ** C26: 32-bit encoding *)
(** [view_int32] is the signed reinterpretation with which the file is written. *)
Theorem tif_decode_encode : forall s n, wf_stack s -> binary_stack s -> 0 <= n -> (length (chans s) <= 32)%nat ->
  decode_tif (imap view_int32 (default_multilabel_encoding s)) n = Ok (resized (Z.to_nat n) s) /\
  decode_tif (default_multilabel_encoding s) n = Ok (resized (Z.to_nat n) s).
Proof. intros. apply decode_tif_spec; assumption. Qed.
Print Assumptions tif_decode_encode.

Theorem tif_round_trip : forall s, wf_stack s -> binary_stack s -> (length (chans s) <= 32)%nat ->
  decode_tif (imap view_int32 (default_multilabel_encoding s)) (Z.of_nat (length (chans s))) = Ok s.
Proof.
  intros s W B L. destruct (tif_decode_encode s (Z.of_nat (length (chans s))) W B ltac:(lia) L) as [-> _].
  rewrite Nat2Z.id, resized_same. reflexivity.
Qed.
Print Assumptions tif_round_trip.

(** The in-memory code of a pixel is the binary number of its classes (any number of classes
    up to 64, or unbounded for object arrays). *)
Theorem default_encoding_bits : forall s k y x, binary_stack s -> inb (s_h s) (s_w s) y x = true ->
  b2z (Z.testbit (px 0 (default_multilabel_encoding s) y x) (Z.of_nat k)) = at3 s k y x.
Proof.
  intros s k y x B I. rewrite default_encoding_px by assumption. rewrite enc_testbit by (apply column01; exact B).
  unfold at3. rewrite <- nth_column. apply z01.
  destruct (Nat.lt_ge_cases k (length (column s y x))) as [L'|L'].
  - pose proof (column01 s y x B) as F. unfold bits01 in F. rewrite Forall_forall in F. apply F, nth_In, L'.
  - left. apply nth_overflow; exact L'.
Qed.
Print Assumptions default_encoding_bits.
Theorem default_encoding_injective : forall s t, wf_stack s -> wf_stack t -> binary_stack s -> binary_stack t ->
  s_h s = s_h t -> s_w s = s_w t -> length (chans s) = length (chans t) ->
  default_multilabel_encoding s = default_multilabel_encoding t -> s = t.
Proof.
  intros s t Ws Wt Bs Bt Hh Hw L E. apply stack_ext; auto. intros k y x Hk I.
  assert (A : at3 s k y x = at3 t k y x).
  { rewrite <- !default_encoding_bits; rewrite <- ?Hh, <- ?Hw; auto. rewrite E. reflexivity. }
  unfold at3 in A. rewrite !(nth_indep _ (tab 0 0 _) (tab (s_h s) (s_w s) (fun _ _ => 0))) by lia.
  rewrite <- Hh, <- Hw in A. exact A.
Qed.
Print Assumptions default_encoding_injective.

(** From class 33 on the file loses information: every channel >= 32 decodes to zero. *)
Theorem tif_loses_channels_above_32 : forall s n r k y x, wf_stack s -> binary_stack s -> 0 <= n ->
  decode_tif (default_multilabel_encoding s) n = Ok r -> (32 <= k)%nat -> at3 r k y x = 0.
Proof.
  intros s n r k y x W B Hn E Hk. destruct (decode_tif_default s n W B Hn) as (r' & E' & Wr & Hh & Hw & L & P).
  rewrite E in E'. injection E' as <-. unfold at3.
  destruct (Nat.lt_ge_cases k (length (chans r))) as [Lk|Lk].
  - destruct (inb (s_h r) (s_w r) y x) eqn:I.
    + rewrite (nth_indep _ _ (tab 0 0 (fun _ _ => 0))) by exact Lk. rewrite P.
      * replace (Nat.ltb k 32) with false by lia. reflexivity.
      * lia.
      * rewrite <- Hh, <- Hw; exact I.
    + destruct (Wr (nth k (chans r) (tab (s_h r) (s_w r) (fun _ _ => 0)))) as (W1 & W2 & W3); [apply nth_In; exact Lk|].
      apply px_out; [exact W1|]. rewrite W2, W3. exact I.
  - rewrite nth_overflow by exact Lk. rewrite px_tab. destruct (inb _ _ _ _); reflexivity.
Qed.
Print Assumptions tif_loses_channels_above_32.

Definition one_of_33 : stack := mkStack 1 1 (map (fun k => tab 1 1 (fun _ _ => b2z (Nat.eqb k 32))) (seq 0 33)).
Definition none_of_33 : stack := mkStack 1 1 (map (fun k => tab 1 1 (fun _ _ => 0)) (seq 0 33)).
Theorem tif_round_trip_unbounded_refuted :
  wf_stack one_of_33 /\ binary_stack one_of_33 /\ one_of_33 <> none_of_33 /\
  decode_tif (default_multilabel_encoding one_of_33) 33 = Ok none_of_33.
Proof.
  split; [|split; [|split]].
  - intros e He. apply in_map_iff in He. destruct He as (k & <- & _). split; [apply wf_tab|split; reflexivity].
  - intros e He y x. apply in_map_iff in He. destruct He as (k & <- & _). rewrite px_tab.
    destruct (inb _ _ _ _); [destruct (Nat.eqb k 32)|]; auto.
  - discriminate.
  - reflexivity.
Qed.
Print Assumptions tif_round_trip_unbounded_refuted.
Example tif_round_trip_applies : decode_tif (imap view_int32 (default_multilabel_encoding (mkStack 1 1 (repeat (tab 1 1 (fun _ _ => 1)) 32)))) 32
  = Ok (mkStack 1 1 (repeat (tab 1 1 (fun _ _ => 1)) 32)).
Proof. reflexivity. Qed.

(** ** C27: label conversion *)
(** Every pixel is looked up once in the original mask; the last entry of the table wins only
    if ids are repeated, which a dict excludes. *)
Theorem mask_conversion : forall mask d y x, NoDup (map fst d) -> (forall l t, In (l, t) d -> 0 <= t <= 255) ->
  inb (ht mask) (wd mask) y x = true ->
  (forall t, In (px 0 mask y x, t) d -> px 0 (mask_label2trainId mask d) y x = t) /\
  (~ In (px 0 mask y x) (map fst d) -> px 0 (mask_label2trainId mask d) y x = 255).
Proof.
  intros mask d y x N R I. destruct (mask_label2trainId_px mask d y x N I) as [P1 P2]. split; [|exact P2].
  intros t Ht. rewrite (P1 t Ht). apply Z.mod_small. specialize (R _ _ Ht). lia.
Qed.
Print Assumptions mask_conversion.
Theorem mask_conversion_shape : forall mask d, wf (mask_label2trainId mask d) /\
  ht (mask_label2trainId mask d) = ht mask /\ wd (mask_label2trainId mask d) = wd mask.
Proof. exact mask_label2trainId_shape. Qed.
Print Assumptions mask_conversion_shape.
(** The order of the table entries does not matter. *)
Theorem mask_conversion_order_irrelevant : forall mask d d', NoDup (map fst d) -> Permutation d d' ->
  mask_label2trainId mask d = mask_label2trainId mask d'.
Proof.
  intros mask d d' N P.
  assert (N' : NoDup (map fst d')) by (eapply Permutation_NoDup; [apply Permutation_map; exact P|exact N]).
  destruct (mask_label2trainId_shape mask d) as (W1 & H1 & V1).
  destruct (mask_label2trainId_shape mask d') as (W2 & H2 & V2).
  apply img_ext with (d := 0); auto; [split; congruence|].
  intros y x I. rewrite H1, V1 in I.
  destruct (mask_label2trainId_px mask d y x N I) as [A1 A2].
  destruct (mask_label2trainId_px mask d' y x N' I) as [B1 B2].
  destruct (in_dec Z.eq_dec (px 0 mask y x) (map fst d)) as [Hin|Hout].
  - apply in_map_iff in Hin. destruct Hin as ([l t] & El & Hin). simpl in El. subst l.
    rewrite (A1 t Hin). symmetry. apply B1. apply (Permutation_in _ P). exact Hin.
  - rewrite (A2 Hout). symmetry. apply B2. intros C. apply Hout.
    apply (Permutation_in _ (Permutation_map fst (Permutation_sym P))). exact C.
Qed.
Print Assumptions mask_conversion_order_irrelevant.
(** Values outside 0..255 would wrap (8-bit output). *)
Theorem mask_conversion_wraps : forall mask d y x t, NoDup (map fst d) -> inb (ht mask) (wd mask) y x = true ->
  In (px 0 mask y x, t) d -> px 0 (mask_label2trainId mask d) y x = t mod 256.
Proof. intros mask d y x t N I. apply (mask_label2trainId_px mask d y x N I). Qed.
Print Assumptions mask_conversion_wraps.

Fixpoint nodupb (l : list Z) : bool :=
  match l with [] => true | a :: l => negb (existsb (Z.eqb a) l) && nodupb l end.
Lemma nodupb_ok l : nodupb l = true -> NoDup l.
Proof.
  induction l as [|a l IH]; intros H; [constructor|]. simpl in H. apply andb_prop in H. destruct H as [H1 H2].
  constructor; [|apply IH; exact H2]. intros C. apply negb_true_iff in H1.
  assert (E : existsb (Z.eqb a) l = true) by (apply existsb_exists; exists a; split; [exact C|apply Z.eqb_refl]). congruence.
Qed.
(** The shipped tables number their labels without gaps or clashes. *)
Theorem shipped_tables_are_numberings : numbering CITYSCAPES_label2trainId /\ numbering SBD_label2trainId /\
  length CITYSCAPES_label2trainId = 19%nat /\ length SBD_label2trainId = 20%nat /\
  incl (map fst CITYSCAPES_label2trainId) CITYSCAPES_labelIds /\ incl (map fst SBD_label2trainId) SBD_labelIds /\
  incl CITYSCAPES_inst_labelIds (map fst CITYSCAPES_label2trainId) /\ map fst SBD_label2trainId = SBD_inst_labelIds.
Proof.
  assert (F : forall d : dict, forallb (fun p => (0 <=? fst p) && (0 <=? snd p) && (snd p <? Z.of_nat (length d))) d = true ->
    forall l t, In (l, t) d -> 0 <= l /\ 0 <= t < Z.of_nat (length d)).
  { intros d H l t Hin. rewrite forallb_forall in H. specialize (H _ Hin). cbn [fst snd] in H. lia. }
  assert (J : forall a b : list Z, forallb (fun x => existsb (Z.eqb x) b) a = true -> incl a b).
  { intros a b H x Hx. rewrite forallb_forall in H. specialize (H x Hx). apply existsb_exists in H.
    destruct H as (z & Hz & E). replace x with z by lia. exact Hz. }
  assert (N : forall d, nodupb (map fst d) = true ->
    nodupb (map snd d) = true ->
    forallb (fun p => (0 <=? fst p) && (0 <=? snd p) && (snd p <? Z.of_nat (length d))) d = true -> numbering d).
  { intros d H1 H2 H3. split; [apply nodupb_ok; exact H1|]. split; [apply nodupb_ok; exact H2|]. apply F; exact H3. }
  split; [apply N; vm_compute; reflexivity|]. split; [apply N; vm_compute; reflexivity|].
  split; [reflexivity|]. split; [reflexivity|]. split; [apply J; vm_compute; reflexivity|].
  split; [apply J; vm_compute; reflexivity|]. split; [apply J; vm_compute; reflexivity|]. reflexivity.
Qed.
Print Assumptions shipped_tables_are_numberings.

(** Every labelled pixel keeps its own class, so two pixels agree after conversion iff they
    agreed before or are both unknown. *)
Theorem shipped_conversion_loses_no_label : forall d, d = CITYSCAPES_label2trainId \/ d = SBD_label2trainId ->
  forall mask y x y' x', inb (ht mask) (wd mask) y x = true -> inb (ht mask) (wd mask) y' x' = true ->
  (px 0 (mask_label2trainId mask d) y x = px 0 (mask_label2trainId mask d) y' x' <->
   (px 0 mask y x = px 0 mask y' x' \/ (~ In (px 0 mask y x) (map fst d) /\ ~ In (px 0 mask y' x') (map fst d)))).
Proof.
  intros d Hd mask y x y' x' I I'.
  assert (N : numbering d /\ (length d <= 255)%nat).
  { destruct shipped_tables_are_numberings as (A & B & LA & LB & _). destruct Hd as [-> | ->]; [rewrite LA|rewrite LB]; split; auto; lia. }
  destruct N as [(N1 & N2 & R) L].
  assert (R' : forall l t, In (l, t) d -> 0 <= t <= 255) by (intros l t H; specialize (R l t H); lia).
  destruct (mask_conversion mask d y x N1 R' I) as [A1 A2].
  destruct (mask_conversion mask d y' x' N1 R' I') as [B1 B2].
  assert (IN : forall v, In v (map fst d) -> exists t, In (v, t) d /\ t <> 255).
  { intros v Hv. apply in_map_iff in Hv. destruct Hv as ([l t] & E & Hin). simpl in E; subst l.
    exists t. split; [exact Hin|]. specialize (R v t Hin). lia. }
  assert (FUN : forall t l l', In (l, t) d -> In (l', t) d -> l = l').
  { clear - N2. induction d as [|[a b] d IH]; intros t l l' []; simpl in *; inversion N2; subst.
    - injection H as -> ->. intros [E|H]; [congruence|]. exfalso. apply H2. apply in_map_iff. exists (l', t); auto.
    - intros [E|H']; [|eapply IH; eauto]. injection E as -> ->. exfalso. apply H2. apply in_map_iff. exists (l, t); auto. }
  destruct (in_dec Z.eq_dec (px 0 mask y x) (map fst d)) as [H|H];
  destruct (in_dec Z.eq_dec (px 0 mask y' x') (map fst d)) as [H'|H'].
  - destruct (IN _ H) as (t & Ht & _). destruct (IN _ H') as (t' & Ht' & _). rewrite (A1 t Ht), (B1 t' Ht').
    split; [intros ->; left; eapply FUN; eauto|]. intros [E|[C _]]; [|contradiction].
    rewrite E in Ht. rewrite <- (A1 t), <- (B1 t'); try assumption; [|rewrite E; exact Ht].
    destruct (B1 t' Ht'). rewrite (A1 t) by (rewrite E; exact Ht). symmetry. apply B1; exact Ht.
  - destruct (IN _ H) as (t & Ht & Nt). rewrite (A1 t Ht), (B2 H'). split; [intros; contradiction|].
    intros [E|[C _]]; [congruence|contradiction].
  - destruct (IN _ H') as (t & Ht & Nt). rewrite (A2 H), (B1 t Ht). split; [intros C; exfalso; auto|].
    intros [E|[_ C]]; [congruence|contradiction].
  - rewrite (A2 H), (B2 H'). split; auto.
Qed.
Print Assumptions shipped_conversion_loses_no_label.

(** Channel conversion: output channel [t] is the input channel of the label numbered [t]. *)
Theorem edge_conversion : forall s d, numbering d -> (forall l t, In (l, t) d -> l < Z.of_nat (length (chans s))) ->
  exists r, edge_label2trainId s d = Ok r /\ length (chans r) = length d /\ s_h r = s_h s /\ s_w r = s_w s /\
  forall l t y x, In (l, t) d -> at3 r (Z.to_nat t) y x = at3 s (Z.to_nat l) y x.
Proof.
  intros s d (N1 & N2 & R) L. unfold edge_label2trainId.
  destruct (l2t_loop_ok s d (length d)) with (acc := repeat (tab (s_h s) (s_w s) (fun _ _ => 0)) (length d))
    as (out & E & Lo & P1 & _).
  - intros l t H. specialize (R l t H). specialize (L l t H). lia.
  - exact N2.
  - apply repeat_length.
  - rewrite E. cbn [bind]. eexists. split; [reflexivity|]. cbn [chans s_h s_w]. split; [exact Lo|].
    split; [reflexivity|]. split; [reflexivity|]. intros l t y x H. unfold at3. cbn [chans s_h s_w].
    rewrite (P1 l t H). reflexivity.
Qed.
Print Assumptions edge_conversion.
(** An id that is not a channel of the stack is an IndexError (unless it is a valid negative
    index). *)
Theorem edge_conversion_rejects : forall s l t d, Z.of_nat (length (chans s)) <= l ->
  edge_label2trainId s ((l, t) :: d) = Err IndexError.
Proof.
  intros s l t d H. unfold edge_label2trainId. cbn [l2t_loop]. unfold pyidx at 1.
  replace ((0 <=? l) && (l <? Z.of_nat (length (chans s)))) with false by lia.
  replace ((l <? 0) && (- Z.of_nat (length (chans s)) <=? l)) with false by lia. reflexivity.
Qed.
Print Assumptions edge_conversion_rejects.

(** Converting the stack and converting the mask commute: channel [t] of the converted one-hot
    stack is the set of pixels whose converted label is [t]. *)
Theorem onehot_commutes_with_conversion : forall mask labels d s r l t y x, numbering d -> (length d <= 255)%nat ->
  mask2onehot mask labels = Ok s -> (forall l t, In (l, t) d -> nth (Z.to_nat l) labels (-1) = l) ->
  edge_label2trainId s d = Ok r -> In (l, t) d -> inb (ht mask) (wd mask) y x = true ->
  at3 r (Z.to_nat t) y x = b2z (px 0 (mask_label2trainId mask d) y x =? t).
Proof.
  intros mask labels d s r l t y x N L Es Hl Er Hin I.
  destruct N as (N1 & N2 & R).
  assert (Ss : s = mkStack (ht mask) (wd mask) (map (fun l => tab (ht mask) (wd mask) (fun y x => b2z (px 0 mask y x =? l))) labels)).
  { unfold mask2onehot in Es. destruct (Nat.eqb _ _); [discriminate|]. destruct (Nat.ltb _ _); [discriminate|].
    injection Es as <-. reflexivity. }
  assert (Hlen : forall l t, In (l, t) d -> l < Z.of_nat (length labels)).
  { intros l0 t0 H0. destruct (Z.lt_ge_cases l0 (Z.of_nat (length labels))) as [|C]; [assumption|].
    specialize (Hl l0 t0 H0). rewrite nth_overflow in Hl by lia. specialize (R l0 t0 H0). lia. }
  destruct (edge_conversion s d (conj N1 (conj N2 R))) as (r' & E' & _ & _ & _ & P).
  { intros l0 t0 H0. rewrite Ss. cbn [chans]. rewrite map_length. eauto. }
  rewrite Er in E'. injection E' as <-. rewrite (P l t y x Hin). unfold at3. rewrite Ss. cbn [chans s_h s_w].
  set (f := fun l => tab (ht mask) (wd mask) (fun y x => b2z (px 0 mask y x =? l))).
  rewrite (nth_indep _ _ (f (-1))) by (rewrite map_length; specialize (Hlen l t Hin); specialize (R l t Hin); lia).
  rewrite (map_nth f). rewrite (Hl l t Hin). unfold f. rewrite px_tab, I. f_equal.
  assert (R' : forall l t, In (l, t) d -> 0 <= t <= 255) by (intros l0 t0 H; specialize (R l0 t0 H); lia).
  destruct (mask_conversion mask d y x N1 R' I) as [A1 A2].
  destruct (Z.eqb_spec (px 0 mask y x) l) as [E|E].
  - rewrite (A1 t) by (rewrite E; exact Hin). symmetry; apply Z.eqb_refl.
  - symmetry. apply Z.eqb_neq. intros C.
    destruct (in_dec Z.eq_dec (px 0 mask y x) (map fst d)) as [H|H].
    + apply in_map_iff in H. destruct H as ([l' t'] & El & H). simpl in El. subst l'.
      rewrite (A1 t' H) in C. subst t'. apply E.
      clear - N2 H Hin. induction d as [|[a b] d IH]; [destruct H|]. simpl in *. inversion N2; subst.
      destruct H as [H|H], Hin as [Hi|Hi]; try congruence.
      * injection H as -> ->. exfalso. apply H2. apply in_map_iff. exists (l, t); auto.
      * injection Hi as -> ->. exfalso. apply H2. apply in_map_iff. exists (px 0 mask y x, t); auto.
      * auto.
    + rewrite (A2 H) in C. specialize (R l t Hin). lia.
Qed.
Print Assumptions onehot_commutes_with_conversion.

(** One-hot: exactly the pixels of each label, when the image is tall enough... *)
Theorem mask2onehot_spec : forall mask labels, labels <> [] -> (length labels <= ht mask)%nat ->
  exists s, mask2onehot mask labels = Ok s /\ length (chans s) = length labels /\ s_h s = ht mask /\ s_w s = wd mask /\
  forall k y x, (k < length labels)%nat -> inb (ht mask) (wd mask) y x = true ->
    at3 s k y x = b2z (px 0 mask y x =? nth k labels 0).
Proof.
  intros mask labels Hne H. unfold mask2onehot.
  replace (Nat.eqb (length labels) 0) with false by (destruct labels; [contradiction|reflexivity]).
  replace (Nat.ltb (ht mask) (length labels)) with false by lia.
  eexists; split; [reflexivity|]. cbn [chans s_h s_w]. split; [apply map_length|]. split; [reflexivity|]. split; [reflexivity|].
  intros k y x Hk I. unfold at3. cbn [chans s_h s_w].
  set (f := fun l => tab (ht mask) (wd mask) (fun y x => b2z (px 0 mask y x =? l))).
  rewrite (nth_indep _ _ (f 0)) by (rewrite map_length; exact Hk). rewrite (map_nth f).
  unfold f. rewrite px_tab, I. reflexivity.
Qed.
Print Assumptions mask2onehot_spec.
(** ... and every image with fewer rows than labels is rejected, whatever it contains: the
    guard compares the number of labels with the image height. *)
Theorem mask2onehot_rejects_small_images : forall mask labels, labels <> [] -> (ht mask < length labels)%nat ->
  mask2onehot mask labels = Err AssertionError.
Proof.
  intros mask labels Hne H. unfold mask2onehot.
  replace (Nat.eqb (length labels) 0) with false by (destruct labels; [contradiction|reflexivity]).
  replace (Nat.ltb (ht mask) (length labels)) with true by lia. reflexivity.
Qed.
Print Assumptions mask2onehot_rejects_small_images.
Theorem mask2onehot_total_refuted : exists mask labels, wf mask /\ NoDup labels /\ labels <> [] /\
  (forall y x, inb (ht mask) (wd mask) y x = true -> In (px 0 mask y x) labels) /\ mask2onehot mask labels = Err AssertionError.
Proof.
  exists (tab 1 2 (fun _ x => x)), [0; 1]. split; [apply wf_tab|]. split; [|split; [discriminate|split; [|reflexivity]]].
  - constructor; [intros [C|[]]; discriminate|]. constructor; [intros []|constructor].
  - intros y x I. rewrite px_tab. cbn [ht wd tab] in I. rewrite I. apply inb_spec in I. simpl. lia.
Qed.
Print Assumptions mask2onehot_total_refuted.

(** Collapsing the classes: 1 exactly where some class is set, and exactly where the encoded
    value is not zero. *)
Theorem multilabel2binary_spec : forall s y x, wf_stack s -> binary_stack s -> inb (s_h s) (s_w s) y x = true ->
  (px 0 (edge_multilabel2binary s) y x = 1 <-> exists k, at3 s k y x = 1) /\
  (px 0 (edge_multilabel2binary s) y x = 0 \/ px 0 (edge_multilabel2binary s) y x = 1) /\
  (px 0 (edge_multilabel2binary s) y x = 1 <-> px 0 (default_multilabel_encoding s) y x <> 0).
Proof.
  intros s y x W B I. unfold edge_multilabel2binary. rewrite px_tab, I.
  rewrite default_encoding_px by assumption. fold (column s y x).
  assert (X : forall l, bits01 l -> (0 < zsum l <-> exists k, nth k l 0 = 1) /\ (0 < zsum l <-> enc l <> 0)).
  { clear. induction 1 as [|b l Hb Hl (IH1 & IH2)].
    - split; [split; [simpl; lia|intros (k & Hk); destruct k; discriminate]|simpl; lia].
    - assert (Z0 : 0 <= zsum l).
      { clear - Hl. induction Hl as [|b l Hb _ IH]; [simpl; lia|]. change (zsum (b :: l)) with (b + zsum l). lia. }
      pose proof (enc_bound l Hl). change (zsum (b :: l)) with (b + zsum l). cbn [enc]. split.
      + destruct Hb as [->| ->].
        * rewrite Z.add_0_l, IH1. split; [intros (k & Hk); exists (S k); exact Hk|].
          intros ([|k] & Hk); [discriminate|exists k; exact Hk].
        * split; [intros _; exists 0%nat; reflexivity|lia].
      + destruct Hb as [->| ->]; lia. }
  destruct (X (column s y x) (column01 s y x B)) as [X1 X2].
  assert (C : b2z (0 <? zsum (column s y x)) = 1 <-> 0 < zsum (column s y x)) by (destruct (Z.ltb_spec 0 (zsum (column s y x))); simpl; lia).
  split; [rewrite C, X1; split; intros (k & Hk); exists k; [unfold at3; rewrite <- nth_column|unfold at3 in Hk; rewrite <- nth_column in Hk]; exact Hk|].
  split; [destruct (0 <? _); simpl; auto|]. rewrite C, X2. reflexivity.
Qed.
Print Assumptions multilabel2binary_spec.

Example label_conversion_applies :
  let mask := tab 1 3 (fun _ x => if x =? 0 then 7 else if x =? 1 then 33 else 4) in
  rows (mask_label2trainId mask CITYSCAPES_label2trainId) = [[0; 18; 255]].
Proof. reflexivity. Qed.

(** ** C31: instance ids *)
Theorem instance_id_value : forall c k, 0 <= c -> 0 <= k < 1000 -> pack_id c k = 1000 * c + k.
Proof. intros c k H1 H2. rewrite pack_id_small by assumption. lia. Qed.
Print Assumptions instance_id_value.
Theorem instance_id_reversible : forall c k c' k', 0 <= c -> 0 <= c' -> 0 <= k < 1000 -> 0 <= k' < 1000 ->
  pack_id c k = pack_id c' k' -> c = c' /\ k = k'.
Proof. intros c k c' k' H1 H2 H3 H4. rewrite !pack_id_small by assumption. lia. Qed.
Print Assumptions instance_id_reversible.
(** The full claim is false: instance 1000 of category 1 has the id of instance 0 of
    category 11; and this happens for every category. *)
Theorem instance_id_reversible_refuted : pack_id 1 1000 = pack_id 11 0.
Proof. reflexivity. Qed.
Print Assumptions instance_id_reversible_refuted.
Theorem instance_ids_collide_from_1000 : forall c k, 0 <= c -> 1000 <= k < 10000 ->
  pack_id c k = pack_id (10 * c + k / 1000) (k mod 1000).
Proof.
  intros c k Hc Hk. assert (0 <= k / 1000) by (apply Z.div_pos; lia). pose proof (Z.mod_pos_bound k 1000 ltac:(lia)).
  rewrite (pack_id_small (10 * c + k / 1000)) by lia. rewrite pack_id_value by lia.
  rewrite (digits_length 3 k) by (simpl; lia). simpl Nat.max. change (10 ^ Z.of_nat 4) with 10000.
  pose proof (Z.div_mod k 1000). lia.
Qed.
Print Assumptions instance_ids_collide_from_1000.

(** The converted instance map: a pixel of instance [i] (numbered from 1) of a present
    category gets the id of its category and its rank within the category; every other pixel
    gets 0. *)
Theorem convert_inst_seg_spec : forall seg inst_cats present y x, inb (ht seg) (wd seg) y x = true ->
  let v := px 0 seg y x in
  let i := Z.to_nat (v - 1) in
  let c := nth i inst_cats 0 in
  (1 <= v <= Z.of_nat (length inst_cats) -> In c present ->
     px 0 (convert_inst_seg seg inst_cats present) y x = pack_id c (rank c inst_cats i)) /\
  (~ (1 <= v <= Z.of_nat (length inst_cats) /\ In c present) ->
     px 0 (convert_inst_seg seg inst_cats present) y x = 0).
Proof.
  intros seg ic pc y x I v i c. destruct (convert_inst_px seg ic pc y x I) as [P1 P2]. split.
  - intros H1 H2. apply P1; auto.
  - exact P2.
Qed.
Print Assumptions convert_inst_seg_spec.

Lemma rank_bound c l i : 0 <= rank c l i <= Z.of_nat i.
Proof.
  unfold rank. assert (F : forall l : list Z, (length (filter (Z.eqb c) l) <= length l)%nat).
  { clear. induction l as [|a l IH]; simpl; [lia|]. destruct (c =? a); simpl; lia. }
  specialize (F (firstn i l)). rewrite firstn_length in F. lia.
Qed.
Lemma rank_inj c l : forall i j, (i < length l)%nat -> (j < length l)%nat -> nth i l (c + 1) = c -> nth j l (c + 1) = c ->
  rank c l i = rank c l j -> i = j.
Proof.
  induction l as [|a l IH]; intros i j Hi Hj Ni Nj E; [simpl in Hi; lia|].
  destruct i as [|i], j as [|j]; [reflexivity| | |]; unfold rank in E; cbn [firstn filter length nth] in *.
  - subst a. rewrite Z.eqb_refl in E. simpl in E. lia.
  - subst a. rewrite Z.eqb_refl in E. simpl in E. lia.
  - f_equal. apply IH; auto; try lia. unfold rank. destruct (c =? a); simpl in E; lia.
Qed.
(** Different instances of present categories keep different ids (up to 1000 instances, ids
    not negative), so instance boundaries are preserved. *)
Theorem convert_inst_seg_separates : forall seg inst_cats present y x y' x',
  inb (ht seg) (wd seg) y x = true -> inb (ht seg) (wd seg) y' x' = true ->
  (length inst_cats <= 1000)%nat -> (forall c, In c inst_cats -> 0 < c) -> incl inst_cats present ->
  (forall y x, inb (ht seg) (wd seg) y x = true -> 0 <= px 0 seg y x <= Z.of_nat (length inst_cats)) ->
  (px 0 (convert_inst_seg seg inst_cats present) y x = px 0 (convert_inst_seg seg inst_cats present) y' x' <->
   px 0 seg y x = px 0 seg y' x').
Proof.
  intros seg ic pc y x y' x' I I' L P S V. pose proof (V y x I) as V1. pose proof (V y' x' I') as V2.
  destruct (convert_inst_px seg ic pc y x I) as [A1 A2]. destruct (convert_inst_px seg ic pc y' x' I') as [B1 B2].
  set (v := px 0 seg y x) in *. set (v' := px 0 seg y' x') in *.
  set (f := px 0 (convert_inst_seg seg ic pc) y x) in *. set (f' := px 0 (convert_inst_seg seg ic pc) y' x') in *.
  assert (K : forall u, 1 <= u <= Z.of_nat (length ic) -> In (nth (Z.to_nat (u - 1)) ic 0) ic)
    by (intros u Hu; apply nth_In; lia).
  destruct (Z.eq_dec v 0) as [E|E]; destruct (Z.eq_dec v' 0) as [E'|E'].
  - rewrite A2, B2 by lia. lia.
  - rewrite A2 by lia. rewrite (B1 (Z.to_nat (v' - 1))) by (auto; try lia; apply S, K; lia).
    rewrite instance_id_value; pose proof (P _ (K v' ltac:(lia))); [|lia|pose proof (rank_bound (nth (Z.to_nat (v' - 1)) ic 0) ic (Z.to_nat (v' - 1))); lia].
    pose proof (rank_bound (nth (Z.to_nat (v' - 1)) ic 0) ic (Z.to_nat (v' - 1))). lia.
  - rewrite B2 by lia. rewrite (A1 (Z.to_nat (v - 1))) by (auto; try lia; apply S, K; lia).
    rewrite instance_id_value; pose proof (P _ (K v ltac:(lia))); [|lia|pose proof (rank_bound (nth (Z.to_nat (v - 1)) ic 0) ic (Z.to_nat (v - 1))); lia].
    pose proof (rank_bound (nth (Z.to_nat (v - 1)) ic 0) ic (Z.to_nat (v - 1))). lia.
  - rewrite (A1 (Z.to_nat (v - 1))) by (auto; try lia; apply S, K; lia).
    rewrite (B1 (Z.to_nat (v' - 1))) by (auto; try lia; apply S, K; lia).
    split; [|intros ->; reflexivity]. intros Eq.
    set (c := nth (Z.to_nat (v - 1)) ic 0) in *. set (c' := nth (Z.to_nat (v' - 1)) ic 0) in *.
    pose proof (P _ (K v ltac:(lia))) as C1. pose proof (P _ (K v' ltac:(lia))) as C2. fold c in C1. fold c' in C2.
    pose proof (rank_bound c ic (Z.to_nat (v - 1))). pose proof (rank_bound c' ic (Z.to_nat (v' - 1))).
    apply instance_id_reversible in Eq; try lia. destruct Eq as [Ec Er]. rewrite <- Ec in Er.
    apply rank_inj in Er; try lia.
    + rewrite (nth_indep ic (c + 1) 0) by lia. reflexivity.
    + rewrite (nth_indep ic (c + 1) 0) by lia. fold c'. congruence.
Qed.
Print Assumptions convert_inst_seg_separates.
Example convert_inst_applies :
  rows (convert_inst_seg (tab 1 4 (fun _ x => x)) [5; 12; 5] [5; 12]) = [[0; 5000; 12000; 5001]].
Proof. reflexivity. Qed.

(** ** C16: the ignored border *)
(** For every border width >= 0 (also when the border is wider than the image) a pixel keeps its
    value iff it is at least [b] pixels away from each of the four sides. *)
Theorem ignore_border : forall seg b id y x, 0 <= b -> inb (ht seg) (wd seg) y x = true ->
  (b <= y /\ b <= x /\ y + b < Z.of_nat (ht seg) /\ x + b < Z.of_nat (wd seg) ->
     px 0 (add_ignore_pixel seg b id) y x = px 0 seg y x) /\
  (~ (b <= y /\ b <= x /\ y + b < Z.of_nat (ht seg) /\ x + b < Z.of_nat (wd seg)) ->
     px 0 (add_ignore_pixel seg b id) y x = id).
Proof.
  intros seg b id y x Hb I. rewrite add_ignore_px by assumption.
  split; intros H; destruct (_ && _) eqn:E; try reflexivity; exfalso; lia.
Qed.
Print Assumptions ignore_border.
Theorem ignore_border_shape : forall seg b id, wf (add_ignore_pixel seg b id) /\
  ht (add_ignore_pixel seg b id) = ht seg /\ wd (add_ignore_pixel seg b id) = wd seg.
Proof. intros. split; [apply wf_tab|split; reflexivity]. Qed.
Print Assumptions ignore_border_shape.
Theorem ignore_border_zero_width : forall seg id, wf seg -> add_ignore_pixel seg 0 id = seg.
Proof.
  intros seg id W. apply img_ext with (d := 0); [apply wf_tab|exact W|split; reflexivity|].
  intros y x I. cbn [add_ignore_pixel ht wd tab] in I. pose proof I as I2. apply inb_spec in I2.
  apply (ignore_border seg 0 id y x); [lia|exact I|lia].
Qed.
Print Assumptions ignore_border_zero_width.
Theorem ignore_border_idempotent : forall seg b id, 0 <= b -> 
  add_ignore_pixel (add_ignore_pixel seg b id) b id = add_ignore_pixel seg b id.
Proof.
  intros seg b id Hb. apply img_ext with (d := 0); [apply wf_tab|apply wf_tab|split; reflexivity|].
  intros y x I. change (inb (ht seg) (wd seg) y x = true) in I.
  rewrite add_ignore_px; [|exact Hb|exact I]. rewrite (add_ignore_px seg b id y x Hb I). cbn [add_ignore_pixel ht wd tab].
  destruct (_ && _); reflexivity.
Qed.
Print Assumptions ignore_border_idempotent.
(** An image not larger than twice the border is erased completely. *)
Theorem ignore_border_erases_small_images : forall seg b id y x, 0 <= b -> inb (ht seg) (wd seg) y x = true ->
  Z.of_nat (ht seg) <= 2 * b \/ Z.of_nat (wd seg) <= 2 * b -> px 0 (add_ignore_pixel seg b id) y x = id.
Proof. intros seg b id y x Hb I H. apply ignore_border; [exact Hb|exact I|lia]. Qed.
Print Assumptions ignore_border_erases_small_images.
(** A negative border is not "no border": the first slice then covers everything except the
    last |b| rows. *)
Theorem negative_border_erases : forall seg b id y x, b < 0 -> inb (ht seg) (wd seg) y x = true ->
  y < Z.of_nat (ht seg) + b \/ x < Z.of_nat (wd seg) + b -> px 0 (add_ignore_pixel seg b id) y x = id.
Proof.
  intros seg b id y x Hb I H. unfold add_ignore_pixel. rewrite px_tab, I. apply inb_spec in I.
  assert (S : forall n z, 0 <= z < n -> z < n + b -> in_slice n 0 b z = true).
  { intros n z H1 H2. unfold in_slice, slice_bound. change (0 <? 0) with false. cbv iota.
    replace (b <? 0) with true by lia. lia. }
  destruct H as [H|H]; [rewrite (S _ y (proj1 I) H)|rewrite (S _ x (proj2 I) H)]; rewrite ?orb_true_r; reflexivity.
Qed.
Print Assumptions negative_border_erases.
Example ignore_border_applies : rows (add_ignore_pixel (tab 4 5 (fun y x => 10 * y + x + 1)) 1 0) =
  [[0;0;0;0;0];[0;12;13;14;0];[0;22;23;24;0];[0;0;0;0;0]].
Proof. reflexivity. Qed.
