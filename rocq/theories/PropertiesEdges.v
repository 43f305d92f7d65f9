(** Theorems for C28, C29, C30, C32. *)
From Verif Require Import ModelEdges SpecEdges ProofsEdges ProofsEdges2 ProofsEdgesReal PropertiesLabels PropertiesThin.
From Coq Require Import ZifyBool ZifyNat Psatz Permutation.
From Coq Require Reals.
Local Open Scope Z_scope.

(** ** C28: the boundary is the distance band *)
(** Pixel-set characterisation. *)
Theorem boundary_pixels : forall m ign r y x, binary m -> ignore_for m ign -> inb (ht m) (wd m) y x = true ->
  (px 0 (mask2bdry m ign r false) y x = 1 <-> boundary_spec m ign r y x) /\
  (px 0 (mask2bdry m ign r false) y x = 0 <-> ~ boundary_spec m ign r y x).
Proof.
  intros m ign r y x B G I. pose proof (bdry_spec m ign r y x B G I) as H. cbn [mask2bdry]. split; [exact H|].
  destruct (bdry_01 m ign r y x) as [E|E]; rewrite E in *; split; intros; try lia; try tauto.
  intros C. apply H in C. lia.
Qed.
Print Assumptions boundary_pixels.

(** The same with real Euclidean distances: the sum of the distance to the mask and the distance
    to the outside is positive and at most the radius. *)
Theorem boundary_is_distance_band : forall m ign r y x, binary m -> ignore_for m ign -> inb (ht m) (wd m) y x = true ->
  (px 0 (mask2bdry m ign r false) y x = 1 <->
   exists dm dout, distance_to (member m) y x dm /\ distance_to (outside m ign) y x dout /\
     (Rdefinitions.Rlt (Rdefinitions.IZR 0) (Rdefinitions.Rplus dm dout) /\
      Rdefinitions.Rle (Rdefinitions.Rplus dm dout) (Rdefinitions.IZR r))).
Proof. exact bdry_real. Qed.
Print Assumptions boundary_is_distance_band.

Theorem boundary_shape : forall m ign r b, wf (mask2bdry m ign r b) /\
  ht (mask2bdry m ign r b) = ht m /\ wd (mask2bdry m ign r b) = wd m /\ binary (mask2bdry m ign r b).
Proof.
  intros. destruct (mask2bdry_shape m ign r b) as (A & B & C). split; [exact A|]. split; [exact B|]. split; [exact C|].
  intros y x. apply mask2bdry_01.
Qed.
Print Assumptions boundary_shape.

Theorem boundary_monotone_in_radius : forall m ign r r' y x, binary m -> ignore_for m ign -> r <= r' ->
  inb (ht m) (wd m) y x = true ->
  px 0 (mask2bdry m ign r false) y x = 1 -> px 0 (mask2bdry m ign r' false) y x = 1.
Proof.
  intros m ign r r' y x B G Hr I H. apply boundary_pixels in H; auto. apply boundary_pixels; auto.
  destruct H as (R0 & H). assert (r * r <= r' * r') by nia. split; [lia|].
  destruct H as [(Hm & y' & x' & O & D)|[(O & y' & x' & Hm & D)|(Hm & Hi & y1 & x1 & y2 & x2 & A1 & A2 & S)]].
  - left. split; [exact Hm|]. exists y', x'. split; [exact O|lia].
  - right; left. split; [exact O|]. exists y', x'. split; [exact Hm|lia].
  - right; right. split; [exact Hm|]. split; [exact Hi|]. exists y1, x1, y2, x2. split; [exact A1|]. split; [exact A2|].
    apply (sum_within_mono r r' (sqd y x y1 x1) (sqd y x y2 x2)); auto;
      (split; [apply sqd_nonneg|lia]).
Qed.
Print Assumptions boundary_monotone_in_radius.

(** Radius 0 (and any negative radius) marks nothing; radius >= 1 marks every pixel with a
    4-neighbour on the other side (no ignored pixels). *)
Theorem boundary_radius_zero : forall m ign r y x, binary m -> ignore_for m ign -> r <= 0 ->
  px 0 (mask2bdry m ign r false) y x = 0.
Proof.
  intros m ign r y x B G Hr. destruct (inb (ht m) (wd m) y x) eqn:I.
  2:{ destruct (mask2bdry_shape m ign r false) as (W & Hh & Hw). apply px_out; [exact W|]. rewrite Hh, Hw; exact I. }
  apply boundary_pixels; auto. intros (R0 & H). assert (r = 0) by lia. subst r.
  assert (E : forall y' x', sqd y x y' x' <= 0 * 0 -> y = y' /\ x = x').
  { intros y' x' D. pose proof (sqd_nonneg y x y' x'). apply sqd_zero. lia. }
  destruct H as [(Hm & y' & x' & (O1 & O2 & O3) & D)|[((O1 & O2 & O3) & y' & x' & Hm & D)|(Hm & Hi & y1 & x1 & y2 & x2 & A1 & A2 & S)]].
  - apply E in D. destruct D; subst. contradiction.
  - apply E in D. destruct D; subst. contradiction.
  - apply sum_within_spec in S. pose proof (sqd_nonneg y x y1 x1). pose proof (sqd_nonneg y x y2 x2).
    destruct (E y1 x1 ltac:(lia)); subst. contradiction.
Qed.
Print Assumptions boundary_radius_zero.
Theorem boundary_contains_contour : forall m r y x y' x', binary m -> wf m -> 1 <= r ->
  inb (ht m) (wd m) y x = true -> inb (ht m) (wd m) y' x' = true ->
  Z.abs (y - y') + Z.abs (x - x') = 1 -> px 0 m y x <> px 0 m y' x' ->
  px 0 (mask2bdry m (zeros (ht m) (wd m)) r false) y x = 1.
Proof.
  intros m r y x y' x' B W Hr I I' N D.
  assert (G : ignore_for m (zeros (ht m) (wd m))).
  { split; [exact W|]. split; [apply wf_tab|]. split; [reflexivity|]. split; [reflexivity|]. intros; rewrite px_zeros; lia. }
  apply boundary_pixels; auto. split; [lia|].
  assert (S : sqd y x y' x' <= r * r).
  { assert (sqd y x y' x' = 1) by (unfold sqd; assert (A : (y - y' = 0 /\ (x - x' = 1 \/ x - x' = -1)) \/ (x - x' = 0 /\ (y - y' = 1 \/ y - y' = -1))) by lia;
      destruct A as [[-> [-> | ->]]|[-> [-> | ->]]]; reflexivity). nia. }
  destruct (B y x) as [E|E], (B y' x') as [E'|E']; rewrite E, E' in D; try lia.
  - right; left. split; [split; [exact I|split; [exact E|apply px_zeros]]|]. exists y', x'. split; [unfold member; lia|exact S].
  - left. split; [unfold member; lia|]. exists y', x'. split; [split; [exact I'|split; [exact E'|apply px_zeros]]|exact S].
Qed.
Print Assumptions boundary_contains_contour.

(** Every edge pixel is within the radius of the mask and of the outside. *)
Theorem boundary_is_near_both_sides : forall m ign r y x, binary m -> ignore_for m ign -> inb (ht m) (wd m) y x = true ->
  px 0 (mask2bdry m ign r false) y x = 1 ->
  (exists y' x', member m y' x' /\ sqd y x y' x' <= r * r) /\
  (exists y' x', outside m ign y' x' /\ sqd y x y' x' <= r * r).
Proof.
  intros m ign r y x B G I H. apply boundary_pixels in H; auto. destruct H as (R0 & H). assert (0 <= r * r) by nia.
  destruct H as [(Hm & y' & x' & O & D)|[(O & y' & x' & Hm & D)|(Hm & Hi & y1 & x1 & y2 & x2 & A1 & A2 & S)]].
  - split; [exists y, x; rewrite sqd_self; auto|exists y', x'; auto].
  - split; [exists y', x'; auto|exists y, x; rewrite sqd_self; auto].
  - apply sum_within_spec in S. pose proof (sqd_nonneg y x y1 x1). pose proof (sqd_nonneg y x y2 x2).
    split; [exists y1, x1|exists y2, x2]; (split; [assumption|lia]).
Qed.
Print Assumptions boundary_is_near_both_sides.

(** Locality: only pixels within the radius matter. *)
Theorem boundary_is_local : forall m m' ign ign' r y x, binary m -> binary m' -> ignore_for m ign -> ignore_for m' ign' ->
  ht m = ht m' -> wd m = wd m' -> inb (ht m) (wd m) y x = true ->
  (forall y' x', sqd y x y' x' <= r * r -> px 0 m y' x' = px 0 m' y' x' /\ px 0 ign y' x' = px 0 ign' y' x') ->
  px 0 (mask2bdry m ign r false) y x = px 0 (mask2bdry m' ign' r false) y x.
Proof.
  assert (H : forall m m' ign ign' r y x, binary m -> binary m' -> ignore_for m ign -> ignore_for m' ign' ->
    ht m = ht m' -> wd m = wd m' -> inb (ht m) (wd m) y x = true ->
    (forall y' x', sqd y x y' x' <= r * r -> px 0 m y' x' = px 0 m' y' x' /\ px 0 ign y' x' = px 0 ign' y' x') ->
    boundary_spec m ign r y x -> boundary_spec m' ign' r y x).
  { intros m m' ign ign' r y x B B' G G' Hh Hw I L (R0 & H). split; [exact R0|].
    assert (R2 : 0 <= r * r) by nia.
    assert (LM : forall y' x', sqd y x y' x' <= r * r -> member m y' x' -> member m' y' x').
    { intros y' x' D M. unfold member in *. rewrite <- (proj1 (L y' x' D)). exact M. }
    assert (LO : forall y' x', sqd y x y' x' <= r * r -> outside m ign y' x' -> outside m' ign' y' x').
    { intros y' x' D (M1 & M2 & M3). destruct (L y' x' D) as [L1 L2]. split; [rewrite <- Hh, <- Hw; exact M1|]. split; congruence. }
    assert (D0 : sqd y x y x <= r * r) by (rewrite sqd_self; exact R2).
    destruct H as [(Hm & y' & x' & O & D)|[(O & y' & x' & Hm & D)|(Hm & Hi & y1 & x1 & y2 & x2 & A1 & A2 & S)]].
    - left. split; [apply LM; assumption|]. exists y', x'. split; [apply LO; assumption|exact D].
    - right; left. split; [apply LO; assumption|]. exists y', x'. split; [apply LM; assumption|exact D].
    - right; right. destruct (L y x D0) as [L1 L2]. split; [unfold member in *; rewrite <- L1; exact Hm|]. split; [rewrite <- L2; exact Hi|].
      pose proof (proj1 (sum_within_spec _ _ _) S) as S'. pose proof (sqd_nonneg y x y1 x1). pose proof (sqd_nonneg y x y2 x2).
      exists y1, x1, y2, x2. split; [apply LM; [lia|assumption]|]. split; [apply LO; [lia|assumption]|exact S]. }
  intros m m' ign ign' r y x B B' G G' Hh Hw I L. 
  assert (I' : inb (ht m') (wd m') y x = true) by (rewrite <- Hh, <- Hw; exact I).
  assert (E : px 0 (mask2bdry m ign r false) y x = 1 <-> px 0 (mask2bdry m' ign' r false) y x = 1).
  { rewrite (proj1 (boundary_pixels m ign r y x B G I)), (proj1 (boundary_pixels m' ign' r y x B' G' I')). split.
    - apply H; auto.
    - apply H; auto. intros y' x' D. destruct (L y' x' D) as [-> ->]. auto. }
  destruct (mask2bdry_01 m ign r false y x) as [A|A], (mask2bdry_01 m' ign' r false y x) as [C|C]; rewrite A, C in *; lia.
Qed.
Print Assumptions boundary_is_local.

(** Without ignored pixels a mask and its complement have the same boundary. *)
Definition complement (m : image Z) : image Z := tab (ht m) (wd m) (fun y x => 1 - px 0 m y x).
Theorem boundary_of_complement : forall m r, binary m -> wf m ->
  mask2bdry (complement m) (zeros (ht m) (wd m)) r false = mask2bdry m (zeros (ht m) (wd m)) r false.
Proof.
  intros m r B W.
  assert (G : ignore_for m (zeros (ht m) (wd m))).
  { split; [exact W|]. split; [apply wf_tab|]. split; [reflexivity|]. split; [reflexivity|]. intros; rewrite px_zeros; lia. }
  assert (G' : ignore_for (complement m) (zeros (ht m) (wd m))).
  { split; [apply wf_tab|]. split; [apply wf_tab|]. split; [reflexivity|]. split; [reflexivity|]. intros; rewrite px_zeros; lia. }
  assert (B' : binary (complement m)).
  { intros y x. unfold complement. rewrite px_tab. destruct (inb _ _ _ _); [|auto]. destruct (B y x) as [-> | ->]; auto. }
  apply img_ext with (d := 0); try apply wf_tab; [split; reflexivity|].
  intros y x I. change (inb (ht m) (wd m) y x = true) in I.
  assert (PC : forall y x, inb (ht m) (wd m) y x = true -> px 0 (complement m) y x = 1 - px 0 m y x).
  { intros y' x' I'. unfold complement. rewrite px_tab, I'. reflexivity. }
  assert (MC : forall y' x', member (complement m) y' x' <-> outside m (zeros (ht m) (wd m)) y' x').
  { intros y' x'. split.
    - intros M. pose proof (member_inb _ _ _ (wf_tab _ _ _) M) as I'. change (inb (ht m) (wd m) y' x' = true) in I'.
      unfold member in M. rewrite PC in M by exact I'. split; [exact I'|]. split; [|apply px_zeros]. destruct (B y' x'); lia.
    - intros (I' & E & _). unfold member. rewrite PC by exact I'. lia. }
  assert (OC : forall y' x', outside (complement m) (zeros (ht m) (wd m)) y' x' <-> member m y' x').
  { intros y' x'. split.
    - intros (I' & E & _). change (inb (ht m) (wd m) y' x' = true) in I'. rewrite PC in E by exact I'. unfold member. lia.
    - intros M. pose proof (member_inb m y' x' W M) as I'. split; [exact I'|]. split; [|apply px_zeros].
      rewrite PC by exact I'. unfold member in M. destruct (B y' x'); lia. }
  assert (E : px 0 (mask2bdry (complement m) (zeros (ht m) (wd m)) r false) y x = 1 <-> px 0 (mask2bdry m (zeros (ht m) (wd m)) r false) y x = 1).
  { rewrite (proj1 (boundary_pixels (complement m) _ r y x B' G' I)), (proj1 (boundary_pixels m _ r y x B G I)).
    unfold boundary_spec. split; (intros (R0 & H); split; [exact R0|]);
    destruct H as [(Hm & y' & x' & O & D)|[(O & y' & x' & Hm & D)|(_ & Hi & _)]]; try (rewrite px_zeros in Hi; contradiction).
    - right; left. split; [apply MC; exact Hm|]. exists y', x'. split; [apply OC; exact O|exact D].
    - left. split; [apply OC; exact O|]. exists y', x'. split; [apply MC; exact Hm|exact D].
    - right; left. split; [apply OC; exact Hm|]. exists y', x'. split; [apply MC; exact O|exact D].
    - left. split; [apply MC; exact O|]. exists y', x'. split; [apply OC; exact Hm|exact D]. }
  destruct (mask2bdry_01 (complement m) (zeros (ht m) (wd m)) r false y x) as [A|A], (mask2bdry_01 m (zeros (ht m) (wd m)) r false y x) as [C|C]; rewrite A, C in *; lia.
Qed.
Print Assumptions boundary_of_complement.

(** A mask that is empty, or that together with the ignored pixels covers the image, has no
    boundary. *)
Theorem boundary_of_constant_mask : forall m ign r y x, binary m -> ignore_for m ign ->
  (forall y x, ~ member m y x) \/ (forall y x, ~ outside m ign y x) -> px 0 (mask2bdry m ign r false) y x = 0.
Proof.
  intros m ign r y x B G H. destruct (inb (ht m) (wd m) y x) eqn:I.
  2:{ destruct (mask2bdry_shape m ign r false) as (W & Hh & Hw). apply px_out; [exact W|]. rewrite Hh, Hw; exact I. }
  destruct (mask2bdry_01 m ign r false y x) as [E|E]; [exact E|]. exfalso.
  destruct (boundary_is_near_both_sides m ign r y x B G I E) as [(y1 & x1 & M & _) (y2 & x2 & O & _)].
  destruct H as [H|H]; [apply (H y1 x1 M)|apply (H y2 x2 O)].
Qed.
Print Assumptions boundary_of_constant_mask.

(** Internal mode. *)
Theorem internal_pixels : forall m ign r y x, binary m -> ignore_for m ign -> inb (ht m) (wd m) y x = true ->
  (px 0 (mask2bdry m ign r true) y x = 1 <-> internal_spec m ign r y x).
Proof. intros. apply internal_ok; assumption. Qed.
Print Assumptions internal_pixels.
(** On the mask, internal edges are the boundary pixels; outside mask and ignored region there are none. *)
Theorem internal_is_boundary_on_mask : forall m ign r y x, binary m -> ignore_for m ign -> inb (ht m) (wd m) y x = true ->
  (member m y x -> px 0 (mask2bdry m ign r true) y x = px 0 (mask2bdry m ign r false) y x) /\
  (outside m ign y x -> px 0 (mask2bdry m ign r true) y x = 0).
Proof.
  intros m ign r y x B G I. split.
  - intros M. assert (E : px 0 (mask2bdry m ign r true) y x = 1 <-> px 0 (mask2bdry m ign r false) y x = 1).
    { rewrite internal_pixels, (proj1 (boundary_pixels m ign r y x B G I)) by assumption. unfold internal_spec, boundary_spec.
      split; intros (R0 & H); (split; [exact R0|]).
      - left. split; [exact M|]. apply H.
      - destruct H as [(_ & H)|[((_ & O & _) & _)|(N & _)]]; [|contradiction|contradiction]. split; [left; exact M|exact H]. }
    destruct (mask2bdry_01 m ign r true y x) as [A|A], (mask2bdry_01 m ign r false y x) as [C|C]; rewrite A, C in *; lia.
  - intros (_ & O1 & O2). destruct (mask2bdry_01 m ign r true y x) as [A|A]; [exact A|]. exfalso.
    apply internal_pixels in A; auto. destruct A as (_ & [M|M] & _); contradiction.
Qed.
Print Assumptions internal_is_boundary_on_mask.
(** "Internal edges lie inside the mask" is false: ignored pixels next to the outside are
    marked too, even far from the mask. *)
Theorem internal_edges_inside_mask_refuted :
  exists m ign y x, binary m /\ ignore_for m ign /\ px 0 m y x = 0 /\ px 0 (mask2bdry m ign 1 true) y x = 1 /\
    forall y' x', member m y' x' -> 9 <= sqd y x y' x'.
Proof.
  exists (tab 1 6 (fun _ x => b2z (x =? 0))), (tab 1 6 (fun _ x => b2z (x =? 5))), 0, 5.
  split; [|split; [|split; [reflexivity|split; [reflexivity|]]]].
  - intros y x. rewrite px_tab. destruct (inb _ _ _ _), (x =? 0); auto.
  - split; [apply wf_tab|]. split; [apply wf_tab|]. split; [reflexivity|]. split; [reflexivity|].
    intros y x. rewrite px_tab. destruct (inb _ _ _ _), (x =? 5); simpl; lia.
  - intros y' x' M. unfold member in M. rewrite px_tab in M. destruct (inb 1 6 y' x') eqn:I; [|contradiction].
    destruct (Z.eqb_spec x' 0) as [->|]; [|simpl in M; contradiction]. unfold sqd.
    pose proof (Z.square_nonneg (0 - y')). lia.
Qed.
Print Assumptions internal_edges_inside_mask_refuted.

Example boundary_applies :
  rows (mask2bdry (tab 1 6 (fun _ x => b2z (x <? 3))) (zeros 1 6) 1 false) = [[0; 0; 1; 1; 0; 0]] /\
  rows (mask2bdry (tab 1 6 (fun _ x => b2z (x <? 3))) (zeros 1 6) 2 false) = [[0; 1; 1; 1; 1; 0]] /\
  rows (mask2bdry (tab 1 6 (fun _ x => b2z (x <? 3))) (tab 1 6 (fun _ x => b2z (x =? 3))) 2 false) = [[0; 0; 1; 1; 1; 0]] /\
  rows (mask2bdry (tab 1 6 (fun _ x => b2z (x <? 3))) (tab 1 6 (fun _ x => b2z (x =? 3))) 1 false) = [[0; 0; 0; 0; 0; 0]].
Proof. repeat split. Qed.

(** ** C29: semantic edges, loop and pool *)
Definition valid_ids (s : stack) (ids : list Z) : Prop := forall i, In i ids -> 0 <= i < Z.of_nat (length (chans s)).

Lemma raw_result f left a i : binary_thin_loop f left a = Some (Raw i) -> a = Raw i.
Proof.
  revert left a; induction f as [|f IH]; intros left a; cbn [binary_thin_loop]; [discriminate|].
  destruct (match left with None => true | Some k => 0 <? k end); [|congruence].
  destruct (Nat.eqb _ 0); [congruence|]. destruct (Nat.eqb _ 0); [discriminate|].
  intros H. apply IH in H. discriminate.
Qed.
Lemma thin_u8_shape e : wf e -> wf (thin_u8 e) /\ ht (thin_u8 e) = ht e /\ wd (thin_u8 e) = wd e.
Proof.
  intros W. unfold thin_u8. destruct (binary_thin None (Raw e)) as [r|]; [|auto]. split; [apply wf_tab|split; reflexivity].
Qed.
Lemma thin_u8_zeros h w : thin_u8 (zeros h w) = zeros h w.
Proof.
  unfold thin_u8. destruct (binary_thin None (Raw (zeros h w))) as [r|] eqn:E; [|reflexivity].
  assert (W : wf_arr (Raw (zeros h w))) by (apply wf_tab).
  destruct (binary_thin_subset_and_shape None (Raw (zeros h w)) r W E) as (Wr & Sr & Sub).
  unfold zeros at 3. apply tab_ext. intros y x I.
  assert (F : px false (as_bool (Raw (zeros h w))) y x = false).
  { cbn [as_bool]. unfold nonzero. change false with ((fun v => negb (v =? 0)) 0) at 1. rewrite px_imap, px_zeros. reflexivity. }
  destruct r as [i|b].
  - unfold binary_thin in E. apply raw_result in E. injection E as <-. rewrite px_zeros. reflexivity.
  - cbn [as_bool] in Sub. destruct (px false b y x) eqn:P; [|reflexivity]. cbn [as_bool] in F. rewrite (Sub y x P) in F. discriminate.
Qed.

Definition finish (thin : bool) (e : image Z) : image Z := if thin then thin_u8 e else e.

(** Class [k] of the result is the (thinned) boundary of class [k]; ignored classes have none.
    Skipping empty classes is not observable. *)
Theorem semantic_edges : forall mask ids radius thin, wf_stack mask -> valid_ids mask ids ->
  exists ign r, ignore_of mask ids = Ok ign /\ loop_mask2edge mask ids radius thin false = Ok r /\
    wf_stack r /\ s_h r = s_h mask /\ s_w r = s_w mask /\ length (chans r) = length (chans mask) /\
    (forall y x, inb (s_h mask) (s_w mask) y x = true -> px 0 ign y x = ignored_count mask ids y x mod 256) /\
    forall k, 0 <= k < Z.of_nat (length (chans mask)) ->
      (In k ids -> channel r k = zeros (s_h mask) (s_w mask)) /\
      (~ In k ids -> channel r k = finish thin (mask2bdry (channel mask k) ign radius false)).
Proof.
  intros mask ids radius thin W V. destruct (ignore_of_ok mask ids V) as (ign & E & Wi & Hi & Vi & P).
  exists ign. unfold loop_mask2edge. rewrite E. cbn [bind]. eexists. split; [reflexivity|]. split; [reflexivity|].
  set (f := fun (_ : Z) m => let e := mask2bdry m ign radius false in if thin then thin_u8 e else e).
  assert (F : forall label m, wf m /\ ht m = s_h mask /\ wd m = s_w mask ->
     wf (f label m) /\ ht (f label m) = s_h mask /\ wd (f label m) = s_w mask).
  { intros label m (Wm & Hm & Vm). unfold f. destruct (mask2bdry_shape m ign radius false) as (A1 & A2 & A3).
    destruct thin; [|split; [exact A1|split; congruence]]. destruct (thin_u8_shape _ A1) as (B1 & B2 & B3).
    split; [exact B1|split; congruence]. }
  split; [apply edge_loop_wf; assumption|]. split; [reflexivity|]. split; [reflexivity|]. split; [apply edge_loop_length|].
  split; [exact P|]. intros k Hk. rewrite edge_loop_chan by exact Hk. unfold chan_result, label_edge. split.
  - intros Hin. apply memZ_spec in Hin. rewrite Hin. reflexivity.
  - intros Hout. replace (memZ k ids) with false by (symmetry; apply not_true_iff_false; rewrite memZ_spec; exact Hout).
    fold (channel mask k). destruct (any_nonzero (channel mask k)) eqn:A; [reflexivity|].
    assert (Wk : wf (channel mask k) /\ ht (channel mask k) = s_h mask /\ wd (channel mask k) = s_w mask).
    { apply W. apply nth_In. lia. }
    destruct Wk as (Wk & Hk1 & Hk2). pose proof (proj1 (any_nonzero_spec _ Wk) A) as A0.
    cbn [mask2bdry]. rewrite bdry_empty by exact A0. rewrite Hk1, Hk2. unfold finish. destruct thin; [symmetry; apply thin_u8_zeros|reflexivity].
Qed.
Print Assumptions semantic_edges.

(** Class [k] depends only on the pixels of class [k] and on the ignored classes. *)
Theorem semantic_edges_independent : forall mask mask' ids radius thin k r r', wf_stack mask -> wf_stack mask' ->
  valid_ids mask ids -> length (chans mask) = length (chans mask') -> s_h mask = s_h mask' -> s_w mask = s_w mask' ->
  channel mask k = channel mask' k -> (forall i, In i ids -> channel mask i = channel mask' i) ->
  0 <= k < Z.of_nat (length (chans mask)) ->
  loop_mask2edge mask ids radius thin false = Ok r -> loop_mask2edge mask' ids radius thin false = Ok r' ->
  channel r k = channel r' k.
Proof.
  intros mask mask' ids radius thin k r r' W W' V L Hh Hw Ek Ei Hk Er Er'.
  assert (V' : valid_ids mask' ids) by (intros i Hi; rewrite <- L; apply V; exact Hi).
  destruct (semantic_edges mask ids radius thin W V) as (ign & r0 & E1 & E2 & _ & _ & _ & _ & P1 & Q1).
  destruct (semantic_edges mask' ids radius thin W' V') as (ign' & r0' & E1' & E2' & _ & _ & _ & _ & P2 & Q2).
  rewrite Er in E2; injection E2 as <-. rewrite Er' in E2'; injection E2' as <-.
  assert (EI : ign = ign').
  { clear - E1 E1' Hh Hw Ei L V. unfold ignore_of in *. rewrite <- Hh, <- Hw in E1'.
    revert E1 E1'. generalize (zeros (s_h mask) (s_w mask)). revert Ei V.
    induction ids as [|i ids IH]; intros Ei V z; cbn [make_ignore]; [congruence|].
    rewrite !chan_at_ok by (rewrite <- ?L; apply V; left; reflexivity). cbn [bind].
    rewrite <- (Ei i (or_introl eq_refl)), <- Hh, <- Hw. apply IH; intros j Hj; [apply Ei|apply V]; right; exact Hj. }
  subst ign'. destruct (in_dec Z.eq_dec k ids) as [H|H].
  - rewrite (proj1 (Q1 k Hk) H), (proj1 (Q2 k ltac:(lia)) H), Hh, Hw. reflexivity.
  - rewrite (proj2 (Q1 k Hk) H), (proj2 (Q2 k ltac:(lia)) H), Ek. reflexivity.
Qed.
Print Assumptions semantic_edges_independent.

(** An ignored id that is no channel is an IndexError (both versions). *)
Theorem semantic_edges_bad_ignore : forall mask ids radius thin internal i,
  In i ids -> ~ (- Z.of_nat (length (chans mask)) <= i < Z.of_nat (length (chans mask))) ->
  loop_mask2edge mask ids radius thin internal = Err IndexError.
Proof.
  intros mask ids radius thin internal i Hi Hr. unfold loop_mask2edge.
  assert (E : ignore_of mask ids = Err IndexError); [|rewrite E; reflexivity].
  unfold ignore_of. generalize (zeros (s_h mask) (s_w mask)).
  induction ids as [|j ids IH]; intros z; [destruct Hi|]. cbn [make_ignore].
  assert (C : chan_at mask j = Err IndexError \/ exists m, chan_at mask j = Ok m).
  { unfold chan_at. destruct (pyidx _ j); eauto. }
  destruct C as [->|(m & Em)]; [reflexivity|]. rewrite Em. cbn [bind]. destruct Hi as [->|Hi]; [|apply IH; exact Hi].
  exfalso. unfold chan_at, pyidx in Em.
  replace ((0 <=? i) && (i <? Z.of_nat (length (chans mask)))) with false in Em by lia.
  replace ((i <? 0) && (- Z.of_nat (length (chans mask)) <=? i)) with false in Em by lia. discriminate.
Qed.
Print Assumptions semantic_edges_bad_ignore.

(** The pool computes the same stack, in whatever order its processes perform their writes. *)
Theorem parallel_semantic_edges : forall schedule mask ids nproc radius, wf_stack mask -> 1 <= nproc ->
  (forall w, Permutation w (schedule w)) ->
  mp_mask2edge schedule mask ids nproc radius false = loop_mask2edge mask ids radius false false.
Proof.
  intros schedule mask ids nproc radius W Hn P. unfold mp_mask2edge, loop_mask2edge.
  destruct (ignore_of mask ids) as [ign|]; [|reflexivity]. cbn [bind]. replace (nproc <? 1) with false by lia. f_equal.
  apply pool_equals_loop; [exact W| |apply P].
  intros label m (Wm & Hm & Vm). unfold mp_semantic_label. destruct (mask2bdry_shape m ign radius false) as (A1 & A2 & A3).
  split; [exact A1|split; congruence].
Qed.
Print Assumptions parallel_semantic_edges.
Theorem parallel_edges_refuse_thinning : forall schedule mask inst labels ids nproc radius,
  mp_mask2edge schedule mask ids nproc radius true = Err NotImplementedError /\
  mp_instance_mask2edge schedule mask inst labels ids nproc radius true = Err NotImplementedError.
Proof. split; reflexivity. Qed.
Print Assumptions parallel_edges_refuse_thinning.

(** ** C30: instance-sensitive edges *)
Definition has_id (inst : image Z) (id : Z) : Prop := exists y x, inb (ht inst) (wd inst) y x = true /\ px 0 inst y x = id.

Lemma sorted_head_spec l l0 : sorted_head l = Ok l0 -> In l0 l /\ forall a, In a l -> l0 <= a.
Proof.
  destruct l as [|a l]; [discriminate|]. cbn [sorted_head]. intros H; injection H as <-.
  assert (G : forall l, (In (fold_right Z.min a l) (a :: l)) /\ forall b, In b (a :: l) -> fold_right Z.min a l <= b).
  { clear. induction l as [|c l [I1 I2]]; [simpl; split; [auto|intros b [->|[]]; lia]|]. cbn [fold_right]. split.
    - destruct (Z.min_spec c (fold_right Z.min a l)) as [[_ ->]|[_ ->]]; [right; left; reflexivity|].
      destruct I1 as [I1|I1]; [left; exact I1|right; right; exact I1].
    - intros b [->|[->|Hb]]; [specialize (I2 b (or_introl eq_refl)); lia|lia|specialize (I2 b (or_intror Hb)); lia]. }
  apply G.
Qed.

(** Ids of up to five digits: the edge map of a class that has instances is the union of the
    class boundary and the boundaries of all its instances (ids 1000*label .. 1000*label+999);
    a class below the smallest instance label has only its class boundary. *)
Theorem instance_edges : forall mask inst labels ids radius internal l0 ign, wf_stack mask -> wf inst ->
  ht inst = s_h mask -> wd inst = s_w mask -> valid_ids mask ids ->
  sorted_head labels = Ok l0 -> 0 <= l0 -> ignore_of mask ids = Ok ign ->
  (forall id, has_id inst id -> 0 <= id < 100000) ->
  exists r, loop_instance_mask2edge mask inst labels ids radius false internal = Ok r /\
    wf_stack r /\ length (chans r) = length (chans mask) /\
    forall k y x, 0 <= k < Z.of_nat (length (chans mask)) -> inb (s_h mask) (s_w mask) y x = true ->
      (In k ids -> px 0 (channel r k) y x = 0) /\
      (~ In k ids -> (forall y x, px 0 (channel mask k) y x = 0) -> px 0 (channel r k) y x = 0) /\
      (~ In k ids -> (exists y x, px 0 (channel mask k) y x <> 0) ->
        (px 0 (channel r k) y x = 1 <->
          px 0 (mask2bdry (channel mask k) ign radius internal) y x = 1 \/
          exists id, has_id inst id /\ l0 <= k /\ id / 1000 = k /\
            px 0 (mask2bdry (eq_mask inst id) ign radius internal) y x = 1) /\
        (px 0 (channel r k) y x = 0 \/ px 0 (channel r k) y x = 1)).
Proof.
  intros mask inst labels ids radius internal l0 ign W Wi Hi Vi V S L0 E R.
  unfold loop_instance_mask2edge. rewrite E, S. cbn [bind]. change (10 ^ (5 - 2)) with 1000.
  rewrite build_insts_ok.
  2:{ intros id Hid _. apply split_loop_ok, R. apply in_unique in Hid; [exact Hid|exact Wi]. }
  cbn [bind]. eexists. split; [reflexivity|].
  set (insts := map _ _). set (f := fun label m => inst_edge inst insts ign radius internal label m).
  assert (F : forall label m, wf m /\ ht m = s_h mask /\ wd m = s_w mask ->
     wf (f label m) /\ ht (f label m) = s_h mask /\ wd (f label m) = s_w mask).
  { intros label m (Wm & Hm & Vm). unfold f. destruct (inst_edge_shape inst insts ign radius internal label m) as (A1 & A2 & A3);
      [split; congruence|]. split; [exact A1|split; congruence]. }
  split; [apply edge_loop_wf; assumption|]. split; [apply edge_loop_length|].
  intros k y x Hk I. rewrite edge_loop_chan by exact Hk. unfold chan_result, label_edge. fold (channel mask k).
  assert (Wk : wf (channel mask k) /\ ht (channel mask k) = s_h mask /\ wd (channel mask k) = s_w mask).
  { apply W. apply nth_In. lia. }
  split; [intros Hin; apply memZ_spec in Hin; rewrite Hin; apply px_zeros|].
  assert (NM : ~ In k ids -> memZ k ids = false) by (intros H; apply not_true_iff_false; rewrite memZ_spec; exact H).
  split.
  - intros Hout Emp. rewrite (NM Hout). rewrite (proj2 (any_nonzero_spec _ (proj1 Wk)) Emp). apply px_zeros.
  - intros Hout (y0 & x0 & NZ). rewrite (NM Hout).
    replace (any_nonzero (channel mask k)) with true.
    2:{ symmetry. apply not_false_iff_true. intros C. apply NZ. apply (proj1 (any_nonzero_spec _ (proj1 Wk)) C). }
    destruct Wk as (Wk & Hk1 & Hk2).
    destruct (inst_edge_spec inst insts ign radius internal k (channel mask k)) as [_ P]; [split; congruence|].
    destruct (P y x ltac:(rewrite Hk1, Hk2; exact I)) as [P1 P2]. split; [|exact P1].
    unfold f. rewrite P2. split; (intros [H|H]; [left; exact H|right]).
    + destruct H as (i & Hin & H). unfold insts in Hin. apply in_map_iff in Hin. destruct Hin as (id & Eid & Hid).
      apply filter_In in Hid. destruct Hid as [Hu Hm]. apply in_unique in Hu; [|exact Wi].
      injection Eid as Ek Em. exists id. split; [exact Hu|]. specialize (R id Hu).
      pose proof (Z.mod_pos_bound id 1000 ltac:(lia)). pose proof (Z.div_mod id 1000 ltac:(lia)).
      split; [nia|]. split; [exact Ek|]. rewrite iid_ok in H by lia. replace (k * 1000 + i) with id in H by lia. exact H.
    + destruct H as (id & Hu & Hl & Ek & H). exists (id mod 1000). specialize (R id Hu).
      pose proof (Z.mod_pos_bound id 1000 ltac:(lia)). pose proof (Z.div_mod id 1000 ltac:(lia)). split.
      * unfold insts. apply in_map_iff. exists id. split; [congruence|]. apply filter_In. split; [apply in_unique; [exact Wi|exact Hu]|]. nia.
      * rewrite iid_ok by lia. replace (k * 1000 + id mod 1000) with id by lia. exact H.
Qed.
Print Assumptions instance_edges.

(** Instance edges contain the semantic edges. *)
Theorem instance_edges_extend_semantic : forall mask inst labels ids radius l0 r s k y x, wf_stack mask -> wf inst ->
  ht inst = s_h mask -> wd inst = s_w mask -> valid_ids mask ids ->
  sorted_head labels = Ok l0 -> 0 <= l0 -> (forall id, has_id inst id -> 0 <= id < 100000) ->
  loop_instance_mask2edge mask inst labels ids radius false false = Ok r ->
  loop_mask2edge mask ids radius false false = Ok s ->
  0 <= k < Z.of_nat (length (chans mask)) -> inb (s_h mask) (s_w mask) y x = true ->
  px 0 (channel s k) y x = 1 -> px 0 (channel r k) y x = 1.
Proof.
  intros mask inst labels ids radius l0 r s k y x W Wi Hi Vi V S L0 R Er Es Hk I H.
  destruct (semantic_edges mask ids radius false W V) as (ign & s' & E1 & E2 & _ & _ & _ & _ & _ & Q).
  rewrite Es in E2; injection E2 as <-.
  destruct (instance_edges mask inst labels ids radius false l0 ign W Wi Hi Vi V S L0 E1 R) as (r' & E3 & _ & _ & P).
  rewrite Er in E3; injection E3 as <-. destruct (P k y x Hk I) as (P1 & P2 & P3). destruct (Q k Hk) as [Q1 Q2].
  destruct (in_dec Z.eq_dec k ids) as [Hin|Hout]; [rewrite (Q1 Hin), px_zeros in H; discriminate|].
  rewrite (Q2 Hout) in H. cbn [finish] in H.
  assert (Wk : wf (channel mask k)) by (apply W; apply nth_In; lia).
  destruct (any_nonzero (channel mask k)) eqn:A.
  - apply P3; [exact Hout| |left; exact H].
    destruct (existsb (fun p => negb (px 0 (channel mask k) (fst p) (snd p) =? 0)) (coords (ht (channel mask k)) (wd (channel mask k)))) eqn:X.
    + apply existsb_exists in X. destruct X as ([y0 x0] & _ & N). cbn [fst snd] in N. exists y0, x0. lia.
    + exfalso. unfold any_nonzero in A. rewrite (concat_rows_px 0) in A by exact Wk. apply existsb_exists in A.
      destruct A as (v & Hv & Nv). apply in_map_iff in Hv. destruct Hv as (p & <- & Hp).
      assert (C : existsb (fun p => negb (px 0 (channel mask k) (fst p) (snd p) =? 0)) (coords (ht (channel mask k)) (wd (channel mask k))) = true)
        by (apply existsb_exists; exists p; auto). congruence.
  - exfalso. pose proof (proj1 (any_nonzero_spec _ Wk) A) as A0. cbn [mask2bdry] in H. rewrite bdry_empty in H by exact A0.
    rewrite px_zeros in H. discriminate.
Qed.
Print Assumptions instance_edges_extend_semantic.

(** The pool version agrees whenever all instance ids have exactly five digits... *)
Theorem parallel_instance_edges : forall schedule mask inst labels ids nproc radius l0, wf_stack mask -> wf inst ->
  ht inst = s_h mask -> wd inst = s_w mask -> 1 <= nproc -> (forall w, Permutation w (schedule w)) ->
  sorted_head labels = Ok l0 ->
  (forall id, has_id inst id -> l0 * 1000 <= id -> 10000 <= id < 100000) ->
  mp_instance_mask2edge schedule mask inst labels ids nproc radius false =
  loop_instance_mask2edge mask inst labels ids radius false false.
Proof.
  intros schedule mask inst labels ids nproc radius l0 W Wi Hi Vi Hn P S R.
  unfold mp_instance_mask2edge, loop_instance_mask2edge. destruct (ignore_of mask ids) as [ign|]; [|reflexivity]. cbn [bind].
  rewrite S. cbn [bind]. change (10 ^ (5 - 2)) with 1000.
  destruct (unique inst) as [|u0 us] eqn:Eu.
  - cbn [build_insts bind]. replace (nproc <? 1) with false by lia. f_equal. apply pool_equals_loop; [exact W| |apply P].
    intros label m (Wm & Hm & Vm). destruct (inst_edge_shape inst [] ign radius false label m) as (A1 & A2 & A3);
      [split; congruence|]. split; [exact A1|split; congruence].
  - cbn [bind]. rewrite <- Eu.
    rewrite !build_insts_ok.
    2,3: (intros id Hid Hm; apply in_unique in Hid; [|exact Wi]; specialize (R id Hid Hm)).
    2: apply split_loop_ok; lia.
    2: apply split_mp_ok; lia.
    cbn [bind]. replace (nproc <? 1) with false by lia. f_equal. apply pool_equals_loop; [exact W| |apply P].
    intros label m (Wm & Hm & Vm). cbv zeta. destruct (inst_edge_shape inst (map (fun id => (id / 1000, id mod 1000)) (filter (fun id => negb (id <? l0 * 1000)) (unique inst))) ign radius false label m) as (A1 & A2 & A3);
      [split; congruence|]. split; [exact A1|split; congruence].
Qed.
Print Assumptions parallel_instance_edges.

(** ... but not for four-digit ids (labels 1-9, as in SBD): class 5 with instances 5000 and 5001
    side by side loses the boundary between them. *)
Definition cls5 : stack := mkStack 1 4 (map (fun k => tab 1 4 (fun _ _ => b2z (Nat.eqb k 5))) (seq 0 6)).
Definition inst5 : image Z := tab 1 4 (fun _ x => if x <? 2 then 5000 else 5001).
Theorem parallel_instance_edges_refuted :
  exists r r', loop_instance_mask2edge cls5 inst5 [5] [] 1 false false = Ok r /\
    mp_instance_mask2edge (fun w => w) cls5 inst5 [5] [] 4 1 false = Ok r' /\
    rows (channel r 5) = [[0; 1; 1; 0]] /\ rows (channel r' 5) = [[0; 0; 0; 0]].
Proof. eexists. eexists. split; [vm_compute; reflexivity|]. split; [vm_compute; reflexivity|]. split; reflexivity. Qed.
Print Assumptions parallel_instance_edges_refuted.
(** With label 0 among the instance labels the pool version even raises (int('')). *)
Theorem parallel_instance_edges_crash_refuted :
  (exists r, loop_instance_mask2edge cls5 (tab 1 4 (fun _ x => x)) [0] [] 1 false false = Ok r) /\
  mp_instance_mask2edge (fun w => w) cls5 (tab 1 4 (fun _ x => x)) [0] [] 4 1 false = Err ValueError.
Proof. split; [eexists|]; vm_compute; reflexivity. Qed.
Print Assumptions parallel_instance_edges_crash_refuted.
(** Ids of six digits are split wrongly by the loop version too: instance 240010 of class 24
    gets no boundary. *)
Definition cls24 : stack := mkStack 1 4 (map (fun k => tab 1 4 (fun _ _ => b2z (Nat.eqb k 24))) (seq 0 25)).
Theorem long_instance_ids_refuted :
  exists r, loop_instance_mask2edge cls24 (tab 1 4 (fun _ x => if x <? 2 then 240010 else 240011)) [24] [] 1 false false = Ok r /\
    rows (channel r 24) = [[0; 0; 0; 0]].
Proof. eexists. split; vm_compute; reflexivity. Qed.
Print Assumptions long_instance_ids_refuted.

Example instance_edges_apply : valid_ids cls5 [] /\ sorted_head [5] = Ok 5 /\
  (forall id, has_id inst5 id -> 0 <= id < 100000) /\
  exists r, loop_instance_mask2edge cls5 inst5 [5] [] 1 false false = Ok r /\ rows (channel r 5) = [[0; 1; 1; 0]].
Proof.
  split; [intros i []|]. split; [reflexivity|]. split.
  - intros id (y & x & I & <-). unfold inst5. rewrite px_tab. destruct (inb 1 4 y x); [destruct (x <? 2)|]; lia.
  - eexists. split; [vm_compute; reflexivity|reflexivity].
Qed.

(** ** C32: on-the-fly edges *)
Theorem otf_semantic_edges : forall mask ids radius label, wf_stack mask -> valid_ids mask ids ->
  0 <= label < Z.of_nat (length (chans mask)) ->
  exists r, loop_mask2edge mask ids radius false false = Ok r /\
    one_label_mask2edge label mask ids radius = Ok (channel r label).
Proof.
  intros mask ids radius label W V Hl. destruct (ignore_of_ok mask ids V) as (ign & E & _).
  unfold loop_mask2edge, one_label_mask2edge. rewrite E. cbn [bind]. eexists. split; [reflexivity|].
  replace (negb (label <? Z.of_nat (length (chans mask)))) with false by lia.
  rewrite chan_at_ok by exact Hl. cbn [bind]. rewrite edge_loop_chan by exact Hl. unfold chan_result, label_edge.
  fold (channel mask label).
  assert (Wk : wf (channel mask label) /\ ht (channel mask label) = s_h mask /\ wd (channel mask label) = s_w mask)
    by (apply W, nth_In; lia). destruct Wk as (_ & -> & ->).
  destruct (memZ label ids); [reflexivity|]. destruct (any_nonzero _); reflexivity.
Qed.
Print Assumptions otf_semantic_edges.

(** Instance-sensitive, for five-digit ids. *)
Theorem otf_instance_edges : forall mask inst labels ids radius label l0, wf_stack mask -> wf inst -> valid_ids mask ids ->
  sorted_head labels = Ok l0 ->
  (forall id, has_id inst id -> l0 * 1000 <= id -> 10000 <= id < 100000) ->
  0 <= label < Z.of_nat (length (chans mask)) ->
  exists r, loop_instance_mask2edge mask inst labels ids radius false false = Ok r /\
    one_label_instance_mask2edge label mask inst labels ids radius = Ok (channel r label).
Proof.
  intros mask inst labels ids radius label l0 W Wi V S R Hl. destruct (ignore_of_ok mask ids V) as (ign & E & _).
  unfold loop_instance_mask2edge, one_label_instance_mask2edge. rewrite E, S. cbn [bind]. change (10 ^ (5 - 2)) with 1000.
  replace (negb (label <? Z.of_nat (length (chans mask)))) with false by lia.
  assert (X : exists insts, build_insts split_loop (l0 * 1000) (unique inst) = Ok insts /\
     bind (match unique inst with [] => Ok 0 | _ => Ok l0 end) (fun l0 => build_insts split_mp (l0 * 1000) (unique inst)) = Ok insts).
  { destruct (unique inst) as [|u0 us] eqn:Eu; [exists []; split; reflexivity|]. rewrite <- Eu. cbn [bind].
    eexists. rewrite !build_insts_ok; [split; reflexivity| |].
    - intros id Hid Hm. apply in_unique in Hid; [|exact Wi]. specialize (R id Hid Hm). apply split_mp_ok; lia.
    - intros id Hid Hm. apply in_unique in Hid; [|exact Wi]. specialize (R id Hid Hm). apply split_loop_ok; lia. }
  destruct X as (insts & X1 & X2). rewrite X1. cbn [bind]. eexists. split; [reflexivity|].
  destruct (match unique inst with [] => Ok 0 | _ => Ok l0 end) as [l1|] eqn:El; [|discriminate X2]. cbn [bind] in *. rewrite X2. cbn [bind].
  rewrite chan_at_ok by exact Hl. cbn [bind]. rewrite edge_loop_chan by exact Hl. unfold chan_result, label_edge.
  fold (channel mask label).
  assert (Wk : wf (channel mask label) /\ ht (channel mask label) = s_h mask /\ wd (channel mask label) = s_w mask)
    by (apply W, nth_In; lia). destruct Wk as (_ & -> & ->).
  destruct (memZ label ids); [reflexivity|]. destruct (any_nonzero _); reflexivity.
Qed.
Print Assumptions otf_instance_edges.

Lemma onehot_parts mask labels s : mask2onehot mask labels = Ok s ->
  wf_stack s /\ binary_stack s /\ s_h s = ht mask /\ s_w s = wd mask /\ length (chans s) = length labels.
Proof.
  unfold mask2onehot. destruct (Nat.eqb _ _); [discriminate|]. destruct (Nat.ltb _ _); [discriminate|].
  intros H; injection H as <-. cbn [chans s_h s_w]. split; [|split; [|split; [reflexivity|split; [reflexivity|apply map_length]]]].
  - intros e He. cbn [chans] in He. apply in_map_iff in He. destruct He as (l & <- & _). split; [apply wf_tab|split; reflexivity].
  - intros e He y x. cbn [chans] in He. apply in_map_iff in He. destruct He as (l & <- & _). rewrite px_tab.
    destruct (inb _ _ _ _); [|auto]. destruct (_ =? _); simpl; auto.
Qed.
Lemma cityscapes_in l t : In (l, t) CITYSCAPES_label2trainId -> 0 <= l < 34 /\ 0 <= t < 19.
Proof.
  intros H. assert (F : forallb (fun p => (0 <=? fst p) && (fst p <? 34) && (0 <=? snd p) && (snd p <? 19)) CITYSCAPES_label2trainId = true) by reflexivity.
  rewrite forallb_forall in F. specialize (F _ H). cbn [fst snd] in F. lia.
Qed.
Lemma trainId2label_ok c : 1 <= c <= 19 -> exists label, trainId2label (c - 1) = Ok label /\ In (label, c - 1) CITYSCAPES_label2trainId.
Proof.
  intros H. assert (D : c = 1 \/ c = 2 \/ c = 3 \/ c = 4 \/ c = 5 \/ c = 6 \/ c = 7 \/ c = 8 \/ c = 9 \/ c = 10 \/ c = 11 \/ c = 12
    \/ c = 13 \/ c = 14 \/ c = 15 \/ c = 16 \/ c = 17 \/ c = 18 \/ c = 19) by lia.
  repeat (destruct D as [-> | D]; [eexists; split; [reflexivity|simpl; tauto]|]). subst; eexists; split; [reflexivity|simpl; tauto].
Qed.

Lemma onehot_dims img ids s : mask2onehot img ids = Ok s -> s_h s = ht img /\ s_w s = wd img.
Proof. intros E. unfold mask2onehot in E. repeat match type of E with (if ?b then _ else _) = _ => destruct b; [discriminate E|] | bind ?x _ = _ => destruct x; [cbn [bind] in E|discriminate E] end; try (injection E as <-; split; reflexivity). Qed.
(** The converted stack, before encoding: 19 binary channels, the on-the-fly edges of the categories. *)
Lemma convert_edges_channels : forall img inst radius category, wf img -> (34 <= ht img)%nat -> 1 <= category <= 19 ->
  match inst with
  | None => True
  | Some i => wf i /\ ht i = ht img /\ wd i = wd img /\ (forall id, has_id i id -> 0 <= id < 100000)
  end ->
  exists t, convert_edges inst radius false img = Ok t /\ wf_stack t /\ binary_stack t /\ length (chans t) = 19%nat /\
    s_h t = ht img /\ s_w t = wd img /\ otf_edge category inst radius img = Ok (channel t (category - 1)).
Proof.
  intros img inst radius category Wm Hrows Hc Hinst.
  destruct (mask2onehot_spec img CITYSCAPES_labelIds ltac:(discriminate) Hrows) as (s & Es & Ls & Hs & Ws & _).
  destruct (onehot_parts _ _ _ Es) as (Wst & Bst & _ & _ & _).
  change (length CITYSCAPES_labelIds) with 34%nat in Ls.
  destruct (trainId2label_ok category Hc) as (label & El & Hin). pose proof (cityscapes_in _ _ Hin) as Hl.
  assert (V : valid_ids s [2; 3]) by (intros i [<-|[<-|[]]]; rewrite Ls; lia).
  assert (X : exists r, (match inst with
          | Some i => loop_instance_mask2edge s i CITYSCAPES_inst_labelIds [2; 3] radius false false
          | None => loop_mask2edge s [2; 3] radius false false end) = Ok r /\
          (match inst with
    | Some i => one_label_instance_mask2edge label s i CITYSCAPES_inst_labelIds [2; 3] radius
    | None => one_label_mask2edge label s [2; 3] radius end) = Ok (channel r label) /\ wf_stack r /\ binary_stack r /\
          length (chans r) = 34%nat).
  { destruct (ignore_of_ok s [2; 3] V) as (ign & Ei & _).
    assert (B01 : forall f, (forall label m y x, wf m /\ ht m = s_h s /\ wd m = s_w s -> inb (s_h s) (s_w s) y x = true -> px 0 (f label m) y x = 0 \/ px 0 (f label m) y x = 1) ->
       (forall label m, wf m /\ ht m = s_h s /\ wd m = s_w s -> wf (f label m) /\ ht (f label m) = s_h s /\ wd (f label m) = s_w s) ->
       wf_stack (edge_loop s [2; 3] f) /\ binary_stack (edge_loop s [2; 3] f) /\ length (chans (edge_loop s [2; 3] f)) = 34%nat).
    { intros f F1 F2. assert (We : wf_stack (edge_loop s [2; 3] f)) by (apply edge_loop_wf; assumption).
      split; [exact We|]. split; [|rewrite edge_loop_length; exact Ls].
      intros e He y x. destruct (We e He) as (W1 & W2 & W3).
      destruct (inb (s_h s) (s_w s) y x) eqn:I; [|left; apply px_out; [exact W1|]; rewrite W2, W3; exact I].
      apply In_nth with (d := zeros (s_h s) (s_w s)) in He. destruct He as (k & Hk & <-). rewrite edge_loop_length in Hk.
      pose proof (edge_loop_chan s [2; 3] f (Z.of_nat k) ltac:(lia)) as Ec. unfold channel in Ec. rewrite Nat2Z.id in Ec.
      cbn [edge_loop s_h s_w] in Ec. cbn [edge_loop s_h s_w]. rewrite Ec. unfold chan_result, label_edge.
      destruct (memZ _ _); [left; apply px_zeros|]. destruct (any_nonzero _); [|left; apply px_zeros].
      apply F1; [apply Wst, nth_In; lia|exact I]. }
    destruct inst as [i|].
    - destruct Hinst as (Wi & Hi & Vi & R).
      destruct (otf_instance_edges s i CITYSCAPES_inst_labelIds [2; 3] radius label 24) as (r & E1 & E2); auto.
      + intros id Hid Hm. specialize (R id Hid). lia.
      + lia.
      + exists r. split; [exact E1|]. split; [exact E2|].
        unfold loop_instance_mask2edge in E1. rewrite Ei in E1. cbn [bind] in E1.
        destruct (sorted_head CITYSCAPES_inst_labelIds) as [l0|]; [|discriminate]. cbn [bind] in E1.
        destruct (build_insts _ _ _) as [insts|]; [|discriminate]. cbn [bind] in E1. injection E1 as <-. apply B01.
        * intros lb m y x (M1 & M2 & M3) I. apply (inst_edge_spec i insts ign radius false lb m); [split; congruence|].
          rewrite M2, M3; exact I.
        * intros lb m (M1 & M2 & M3). cbv zeta. destruct (inst_edge_shape i insts ign radius false lb m) as (A1 & A2 & A3); [split; congruence|].
          split; [exact A1|split; congruence].
    - destruct (otf_semantic_edges s [2; 3] radius label Wst V ltac:(lia)) as (r & E1 & E2).
      exists r. split; [exact E1|]. split; [exact E2|]. unfold loop_mask2edge in E1. rewrite Ei in E1. cbn [bind] in E1.
      injection E1 as <-. apply B01.
      + intros lb m y x _ _. exact (mask2bdry_01 m ign radius false y x).
      + intros lb m (M1 & M2 & M3). destruct (mask2bdry_shape m ign radius false) as (A1 & A2 & A3). cbn [mask2bdry] in A1, A2, A3. split; [exact A1|]. split; [rewrite A2; exact M2|rewrite A3; exact M3]. }
  destruct X as (r & Er & Eo & Wr & Br & Lr).
  destruct shipped_tables_are_numberings as (NC & _ & LC & _).
  destruct (edge_conversion r CITYSCAPES_label2trainId NC) as (t & Et & Lt & Ht & Wt & Pt).
  { intros l tt H. pose proof (cityscapes_in _ _ H). lia. }
  assert (Ech : forall k, (k < 19)%nat -> exists l, In (l, Z.of_nat k) CITYSCAPES_label2trainId /\
     nth k (chans t) (zeros (s_h t) (s_w t)) = nth (Z.to_nat l) (chans r) (zeros (s_h r) (s_w r))).
  { intros k Hk. destruct (trainId2label_ok (Z.of_nat k + 1) ltac:(lia)) as (l & _ & Hlin).
    replace (Z.of_nat k + 1 - 1) with (Z.of_nat k) in Hlin by lia. exists l. split; [exact Hlin|].
    pose proof (cityscapes_in _ _ Hlin) as Rl.
    unfold edge_label2trainId in Et.
    destruct (l2t_loop_ok r CITYSCAPES_label2trainId 19) with (acc := repeat (tab (s_h r) (s_w r) (fun _ _ => 0)) 19)
      as (out & E & Lo & P1 & _).
    - intros l' t' H. pose proof (cityscapes_in _ _ H). lia.
    - apply NC.
    - reflexivity.
    - rewrite LC in Et. rewrite E in Et. cbn [bind] in Et. injection Et as <-. cbn [chans s_h s_w].
      specialize (P1 l (Z.of_nat k) Hlin). rewrite Nat2Z.id in P1. exact P1. }
  assert (Wt' : wf_stack t).
  { intros e He. apply In_nth with (d := zeros (s_h t) (s_w t)) in He. destruct He as (k & Hk & <-). rewrite Lt, LC in Hk.
    destruct (Ech k Hk) as (l & Hlin & ->). pose proof (cityscapes_in _ _ Hlin). rewrite Ht, Wt. apply Wr, nth_In; lia. }
  assert (Bt' : binary_stack t).
  { intros e He y x. apply In_nth with (d := zeros (s_h t) (s_w t)) in He. destruct He as (k & Hk & <-). rewrite Lt, LC in Hk.
    destruct (Ech k Hk) as (l & Hlin & ->). pose proof (cityscapes_in _ _ Hlin). apply Br, nth_In; lia. }
  exists t. split; [|split; [exact Wt'|split; [exact Bt'|split; [rewrite Lt; exact LC|]]]].
  - unfold convert_edges. cbn [andb]. rewrite Es. cbn [bind]. rewrite Er. cbn [bind]. exact Et.
  - destruct (onehot_dims img CITYSCAPES_labelIds s Es) as [Dh Dw].
    assert (Dr : s_h r = s_h s /\ s_w r = s_w s).
    { destruct (ignore_of_ok s [2; 3] V) as (ign & Ei & _). destruct inst as [i|].
      - unfold loop_instance_mask2edge in Er. rewrite Ei in Er. cbn [bind] in Er.
        destruct (sorted_head CITYSCAPES_inst_labelIds) as [l0|]; [|discriminate]. cbn [bind] in Er.
        destruct (build_insts _ _ _) as [insts|]; [|discriminate]. cbn [bind] in Er. injection Er as <-. split; reflexivity.
      - unfold loop_mask2edge in Er. rewrite Ei in Er. cbn [bind] in Er. injection Er as <-. split; reflexivity. }
    destruct Dr as [Drh Drw]. split; [congruence|]. split; [congruence|].
    unfold otf_edge. rewrite El. cbn [bind]. rewrite Es. cbn [bind]. rewrite Eo. f_equal. symmetry. unfold channel at 1.
    destruct (Ech (Z.to_nat (category - 1)) ltac:(lia)) as (l & Hlin & ->). unfold channel.
    rewrite Z2Nat.id in Hlin by lia. f_equal. f_equal.
    destruct NC as (_ & N2 & _). clear - Hlin Hin N2.
    induction CITYSCAPES_label2trainId as [|[a b] d IH]; [destruct Hin|]. simpl in *. inversion N2; subst.
    destruct Hlin as [H|H], Hin as [H'|H']; try congruence.
    + injection H as -> ->. exfalso. apply H1. apply in_map_iff. exists (label, category - 1); auto.
    + injection H' as -> ->. exfalso. apply H1. apply in_map_iff. exists (l, category - 1); auto.
    + auto.
Qed.
(** What the evaluator reads from the converted file equals what the on-the-fly evaluator
    computes: for every label image (at least 34 rows) and every category 1..19, decoding the
    stored PNG gives at channel category-1 the on-the-fly edge map. *)
Theorem stored_png_equals_on_the_fly : forall img inst radius category, wf img -> (34 <= ht img)%nat -> 1 <= category <= 19 ->
  match inst with
  | None => True
  | Some i => wf i /\ ht i = ht img /\ wd i = wd img /\ (forall id, has_id i id -> 0 <= id < 100000)
  end ->
  exists png e, convert_png inst radius false img = Ok png /\ otf_edge category inst radius img = Ok e /\
    channel (decode_png png 19) (category - 1) = e.
Proof.
  intros img inst radius category Wm Hrows Hc Hinst.
  destruct (convert_edges_channels img inst radius category Wm Hrows Hc Hinst) as (t & Et & Wt & Bt & Lt & _ & _ & Eo).
  destruct (png_round_trip t Wt Bt ltac:(lia)) as (png & Ep & Dp). rewrite Lt in Dp.
  exists png, (channel t (category - 1)). split; [|split].
  - unfold convert_png. rewrite Et. exact Ep.
  - exact Eo.
  - change 19 with (Z.of_nat 19). rewrite Dp. reflexivity.
Qed.
Print Assumptions stored_png_equals_on_the_fly.

(** The thin variant differs: the file holds thinned edges, the on-the-fly evaluator uses the
    unthinned radius-1 band. *)
Definition road_img : image Z := tab 34 2 (fun y _ => if y <? 17 then 7 else 8).
Theorem stored_thin_equals_on_the_fly_refuted :
  exists png e, convert_png None 1 true road_img = Ok png /\ otf_edge 1 None 1 road_img = Ok e /\
    channel (decode_png png 19) 0 <> e.
Proof.
  eexists. eexists. split; [vm_compute; reflexivity|]. split; [vm_compute; reflexivity|]. vm_compute. discriminate.
Qed.
Print Assumptions stored_thin_equals_on_the_fly_refuted.
