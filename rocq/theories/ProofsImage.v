From Verif Require Export ModelImage.
From Coq Require Import ZifyBool ZifyNat FinFun.

Lemma zseq_length n : length (zseq n) = n.
Proof. unfold zseq; rewrite map_length, seq_length; reflexivity. Qed.

Lemma nth_zseq n k d : (k < n)%nat -> nth k (zseq n) d = Z.of_nat k.
Proof.
  intros H; unfold zseq. rewrite nth_indep with (d' := Z.of_nat 0%nat).
  - rewrite map_nth, seq_nth; [f_equal; lia | exact H].
  - rewrite map_length, seq_length; exact H.
Qed.

Lemma in_zseq n z : In z (zseq n) <-> 0 <= z < Z.of_nat n.
Proof.
  unfold zseq; rewrite in_map_iff; split.
  - intros (k & <- & Hk); apply in_seq in Hk; lia.
  - intros H; exists (Z.to_nat z); split; [lia | apply in_seq; lia].
Qed.

Lemma NoDup_zseq n : NoDup (zseq n).
Proof.
  unfold zseq; apply Injective_map_NoDup; [|apply seq_NoDup].
  intros a b; lia.
Qed.

Lemma inb_spec h w y x :
  inb h w y x = true <-> 0 <= y < Z.of_nat h /\ 0 <= x < Z.of_nat w.
Proof. unfold inb; lia. Qed.

Lemma wf_tab {A} h w (f : Z -> Z -> A) : wf (tab h w f).
Proof.
  split; simpl; [rewrite map_length, zseq_length; reflexivity|].
  apply Forall_forall; intros r Hr; apply in_map_iff in Hr.
  destruct Hr as (y & <- & _); rewrite map_length, zseq_length; reflexivity.
Qed.

Lemma wf_imap {A B} (f : A -> B) im : wf im -> wf (imap f im).
Proof.
  intros [H1 H2]; split; simpl; [rewrite map_length; exact H1|].
  apply Forall_forall; intros r Hr; apply in_map_iff in Hr.
  destruct Hr as (r0 & <- & Hr0); rewrite map_length.
  rewrite Forall_forall in H2; apply H2; exact Hr0.
Qed.

Lemma px_tab {A} (d : A) h w f y x :
  px d (tab h w f) y x = if inb h w y x then f y x else d.
Proof.
  unfold px, tab; simpl rows.
  destruct (inb h w y x) eqn:E.
  - apply inb_spec in E. replace ((0 <=? y) && (0 <=? x)) with true by lia.
    rewrite nth_indep with (d' := map (fun x => f 0 x) (zseq w))
      by (rewrite map_length, zseq_length; lia).
    rewrite (map_nth (fun y => map (fun x => f y x) (zseq w))).
    rewrite nth_zseq by lia.
    rewrite nth_indep with (d' := f (Z.of_nat (Z.to_nat y)) 0)
      by (rewrite map_length, zseq_length; lia).
    rewrite (map_nth (fun x => f (Z.of_nat (Z.to_nat y)) x)).
    rewrite nth_zseq by lia. f_equal; lia.
  - destruct ((0 <=? y) && (0 <=? x)) eqn:E0; [|reflexivity].
    destruct (Z.ltb_spec y (Z.of_nat h)) as [Hy|Hy].
    + rewrite nth_indep with (d' := map (fun x => f 0 x) (zseq w))
        by (rewrite map_length, zseq_length; lia).
      rewrite (map_nth (fun y => map (fun x => f y x) (zseq w))).
      apply nth_overflow. rewrite map_length, zseq_length.
      unfold inb in E; lia.
    + rewrite nth_overflow with (n := Z.to_nat y)
        by (rewrite map_length, zseq_length; lia).
      destruct (Z.to_nat x); reflexivity.
Qed.

Lemma px_out {A} (d : A) im y x : wf im -> inb (ht im) (wd im) y x = false ->
  px d im y x = d.
Proof.
  intros [H1 H2] E; unfold px.
  destruct ((0 <=? y) && (0 <=? x)) eqn:E0; [|reflexivity].
  destruct (Z.ltb_spec y (Z.of_nat (ht im))) as [Hy|Hy].
  - apply nth_overflow.
    assert (Hin : In (nth (Z.to_nat y) (rows im) []) (rows im))
      by (apply nth_In; lia).
    rewrite Forall_forall in H2; specialize (H2 _ Hin); simpl in H2.
    unfold inb in E; lia.
  - rewrite nth_overflow with (n := Z.to_nat y) by lia.
    destruct (Z.to_nat x); reflexivity.
Qed.

Lemma px_dflt {A} (d d' : A) im y x : wf im -> inb (ht im) (wd im) y x = true ->
  px d im y x = px d' im y x.
Proof.
  intros [H1 H2] E; apply inb_spec in E; unfold px.
  replace ((0 <=? y) && (0 <=? x)) with true by lia.
  apply nth_indep.
  assert (Hin : In (nth (Z.to_nat y) (rows im) []) (rows im))
    by (apply nth_In; lia).
  rewrite Forall_forall in H2; specialize (H2 _ Hin); simpl in H2. lia.
Qed.

Lemma nth_ext_eq {A} (d : A) l1 l2 : length l1 = length l2 ->
  (forall k, (k < length l1)%nat -> nth k l1 d = nth k l2 d) -> l1 = l2.
Proof. intros; apply nth_ext with (d := d) (d' := d); assumption. Qed.

Lemma img_ext {A} (d : A) (a b : image A) : wf a -> wf b -> same_shape a b ->
  (forall y x, inb (ht a) (wd a) y x = true -> px d a y x = px d b y x) -> a = b.
Proof.
  intros [Ha1 Ha2] [Hb1 Hb2] [Hh Hw] H.
  destruct a as [h w ra], b as [h' w' rb]; simpl in *; subst h' w'.
  f_equal; [exact Hh|]. apply nth_ext_eq with (d := []); [lia|].
  intros k Hk. rewrite Forall_forall in Ha2, Hb2.
  assert (La : length (nth k ra []) = w) by (apply Ha2, nth_In; lia).
  assert (Lb : length (nth k rb []) = w) by (apply Hb2, nth_In; lia).
  apply nth_ext_eq with (d := d); [lia|].
  intros j Hj.
  specialize (H (Z.of_nat k) (Z.of_nat j)).
  unfold px in H; simpl in H.
  replace ((0 <=? Z.of_nat k) && (0 <=? Z.of_nat j)) with true in H by lia.
  rewrite !Nat2Z.id in H. apply H. apply inb_spec; lia.
Qed.

Lemma tab_ext {A} h w (f g : Z -> Z -> A) :
  (forall y x, inb h w y x = true -> f y x = g y x) -> tab h w f = tab h w g.
Proof.
  intros H; unfold tab; f_equal.
  apply map_ext_in; intros y Hy; apply map_ext_in; intros x Hx.
  apply in_zseq in Hy; apply in_zseq in Hx. apply H, inb_spec; lia.
Qed.

Lemma tab_px {A} (d : A) (im : image A) : wf im ->
  tab (ht im) (wd im) (px d im) = im.
Proof.
  intros H; apply img_ext with (d := d); [apply wf_tab|exact H|split; reflexivity|].
  intros y x E; simpl in E; rewrite px_tab, E; reflexivity.
Qed.

Lemma px_imap {A B} (f : A -> B) (d : A) im y x :
  px (f d) (imap f im) y x = f (px d im y x).
Proof.
  unfold px, imap; simpl rows. destruct ((0 <=? y) && (0 <=? x)); [|reflexivity].
  change (@nil B) with (map f []).
  rewrite map_nth, map_nth; reflexivity.
Qed.

(** ** Coordinates and counting *)

Lemma in_coords h w y x : In (y, x) (coords h w) <-> inb h w y x = true.
Proof.
  unfold coords; rewrite in_flat_map, inb_spec; split.
  - intros (y0 & Hy & Hx); apply in_map_iff in Hx; destruct Hx as (x0 & E & Hx0).
    injection E as -> ->. apply in_zseq in Hy; apply in_zseq in Hx0; lia.
  - intros [Hy Hx]; exists y; split; [apply in_zseq; lia|].
    apply in_map_iff; exists x; split; [reflexivity | apply in_zseq; lia].
Qed.

Lemma NoDup_app_intro {A} (l1 l2 : list A) : NoDup l1 -> NoDup l2 ->
  (forall a, In a l1 -> In a l2 -> False) -> NoDup (l1 ++ l2).
Proof.
  induction l1 as [|a l1 IH]; simpl; intros H1 H2 H; [exact H2|].
  inversion H1 as [|? ? Hn H1']; subst. constructor.
  - rewrite in_app_iff; intros [C|C]; [contradiction | apply (H a); auto].
  - apply IH; auto. intros b Hb1 Hb2; apply (H b); auto.
Qed.

Lemma NoDup_coords h w : NoDup (coords h w).
Proof.
  unfold coords. generalize (NoDup_zseq h). generalize (zseq h) as ys.
  induction ys as [|y ys IH]; simpl; intros Hnd; [constructor|].
  inversion Hnd as [|? ? Hn Hnd']; subst.
  apply NoDup_app_intro; [|apply IH; exact Hnd'|].
  - apply Injective_map_NoDup; [intros a b E; injection E; auto|apply NoDup_zseq].
  - intros [a b] H1 H2. apply in_map_iff in H1; destruct H1 as (x & E & _).
    injection E as -> ->. apply in_flat_map in H2. destruct H2 as (y0 & Hy0 & Hx).
    apply in_map_iff in Hx; destruct Hx as (x0 & E & _). injection E as -> ->.
    contradiction.
Qed.

Lemma length_coords h w : length (coords h w) = (h * w)%nat.
Proof.
  unfold coords. rewrite <- (zseq_length h) at 2. generalize (zseq h) as ys.
  induction ys as [|y ys IH]; simpl; [reflexivity|].
  rewrite app_length, map_length, zseq_length, IH; reflexivity.
Qed.

Lemma map_nth_seq {A} (d : A) (l : list A) :
  map (fun k => nth k l d) (seq 0 (length l)) = l.
Proof.
  apply nth_ext_eq with (d := d); [rewrite map_length, seq_length; reflexivity|].
  intros k Hk; rewrite map_length, seq_length in Hk.
  rewrite nth_indep with (d' := nth 0 l d) by (rewrite map_length, seq_length; exact Hk).
  rewrite (map_nth (fun k => nth k l d)), seq_nth by exact Hk; reflexivity.
Qed.

Lemma concat_map_flat {A B} (f : A -> list B) l : concat (map f l) = flat_map f l.
Proof. induction l as [|a l IH]; simpl; [reflexivity|rewrite IH; reflexivity]. Qed.

(** The flattened data are the pixels in raster order. *)
Lemma concat_rows_px {A} (d : A) im : wf im ->
  concat (rows im) = map (fun p => px d im (fst p) (snd p)) (coords (ht im) (wd im)).
Proof.
  intros H. rewrite <- (tab_px d im H) at 1. unfold tab; simpl rows.
  unfold coords. rewrite concat_map_flat.
  generalize (zseq (ht im)) as ys.
  induction ys as [|y ys IH]; simpl; [reflexivity|].
  rewrite map_app, map_map, IH; reflexivity.
Qed.

Definition fg_list (im : image bool) : list (Z * Z) :=
  filter (fun p => px false im (fst p) (snd p)) (coords (ht im) (wd im)).

Lemma filter_map_length {A B} (f : A -> B) (P : B -> bool) l :
  length (filter P (map f l)) = length (filter (fun a => P (f a)) l).
Proof.
  induction l as [|a l IH]; simpl; [reflexivity|].
  destruct (P (f a)); simpl; rewrite IH; reflexivity.
Qed.

Lemma count_true_fg im : wf im -> count_true im = length (fg_list im).
Proof.
  intros H; unfold count_true, fg_list.
  rewrite (concat_rows_px false im H), filter_map_length; reflexivity.
Qed.

Lemma in_fg_list im y x : wf im -> In (y, x) (fg_list im) <-> px false im y x = true.
Proof.
  intros H; unfold fg_list; rewrite filter_In, in_coords; simpl; split; [tauto|].
  intros E; split; [|exact E].
  destruct (inb (ht im) (wd im) y x) eqn:E0; [reflexivity|].
  rewrite px_out in E by assumption; discriminate.
Qed.

Lemma NoDup_fg_list im : NoDup (fg_list im).
Proof. apply NoDup_filter, NoDup_coords. Qed.

Lemma filter_le_length {A} (P Q : A -> bool) l :
  (forall a, In a l -> P a = true -> Q a = true) ->
  (length (filter P l) <= length (filter Q l))%nat.
Proof.
  induction l as [|a l IH]; simpl; intros H; [lia|].
  assert (IH' : (length (filter P l) <= length (filter Q l))%nat)
    by (apply IH; intros b Hb; apply H; auto).
  destruct (P a) eqn:EP; [rewrite (H a) by auto; simpl; lia|].
  destruct (Q a); simpl; lia.
Qed.

Lemma filter_eq_length {A} (P Q : A -> bool) l :
  (forall a, In a l -> P a = true -> Q a = true) ->
  length (filter P l) = length (filter Q l) ->
  forall a, In a l -> P a = Q a.
Proof.
  induction l as [|b l IH]; simpl; intros H E a Ha; [contradiction|].
  assert (Hle : (length (filter P l) <= length (filter Q l))%nat)
    by (apply filter_le_length; intros c Hc; apply H; auto).
  destruct (P b) eqn:EP.
  - rewrite (H b) in E by auto. simpl in E.
    destruct Ha as [->|Ha]; [rewrite EP, (H a); auto|].
    apply IH; auto.
  - destruct (Q b) eqn:EQ; simpl in E; [lia|].
    destruct Ha as [->|Ha]; [congruence|]. apply IH; auto.
Qed.

(** A subset with the same number of pixels is the whole set. *)
Lemma count_true_le a b : wf a -> wf b -> same_shape a b ->
  (forall y x, px false a y x = true -> px false b y x = true) ->
  (count_true a <= count_true b)%nat.
Proof.
  intros Ha Hb [Hh Hw] H. rewrite !count_true_fg by assumption. unfold fg_list.
  rewrite Hh, Hw. apply filter_le_length. intros [y x] _; apply H.
Qed.

Lemma count_true_eq a b : wf a -> wf b -> same_shape a b ->
  (forall y x, px false a y x = true -> px false b y x = true) ->
  count_true a = count_true b -> a = b.
Proof.
  intros Ha Hb [Hh Hw] H E. rewrite !count_true_fg in E by assumption.
  unfold fg_list in E. rewrite Hh, Hw in E.
  apply img_ext with (d := false); auto; [split; assumption|].
  intros y x Hi.
  apply (filter_eq_length (fun p => px false a (fst p) (snd p))
           (fun p => px false b (fst p) (snd p)) (coords (ht b) (wd b)))
    with (a := (y, x)).
  - intros [y0 x0] _; apply H.
  - exact E.
  - apply in_coords. rewrite <- Hh, <- Hw; exact Hi.
Qed.

Lemma any_true_spec im : wf im ->
  any_true im = true <-> exists y x, px false im y x = true.
Proof.
  intros H; unfold any_true. rewrite (concat_rows_px false im H), existsb_exists.
  split.
  - intros (b & Hb & E). apply in_map_iff in Hb. destruct Hb as ([y x] & Eb & _).
    exists y, x; simpl in Eb; congruence.
  - intros (y & x & E). exists true; split; [|reflexivity].
    apply in_map_iff; exists (y, x); split; [exact E|].
    apply in_coords. destruct (inb (ht im) (wd im) y x) eqn:E0; [reflexivity|].
    rewrite px_out in E by assumption; discriminate.
Qed.
