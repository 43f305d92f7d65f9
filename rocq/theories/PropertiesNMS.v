(** C33, C34: non-maximum suppression and triangle smoothing.
    Throughout, [orient], [cosf], [sinf] and [to32] (libm and rounding) are arbitrary functions. *)
From Verif Require Import ProofsNMS2.
From Coq Require Import Lqa Setoid ZifyBool ZifyNat.
Open Scope Z_scope.
Ltac Zify.zify_post_hook ::= Z.to_euclidean_division_equations.

(** ** C34 *)
(** The weights are non-negative, symmetric and add up to 1. *)
Theorem triangle_weights : forall r, 0 <= r ->
  (forall d, - r <= d <= r -> (0 < tri r d)%Q) /\ (forall d, tri r (- d) = tri r d) /\ (sum_around r (tri r) == 1)%Q.
Proof.
  intros r H. split; [|split; [apply tri_sym|apply tri_sum, H]]. intros d D. unfold tri.
  apply Qlt_shift_div_l; [|rewrite Qmult_0_l]; change 0%Q with (inject_Z 0); rewrite <- Zlt_Qlt; nia.
Qed.
Print Assumptions triangle_weights.

(** The code computes exactly the triangle average with mirrored borders and keeps the shape. *)
Theorem conv_tri_is_triangle_smoothing : forall im r, 1 <= r -> (0 < ht im)%nat -> (0 < wd im)%nat ->
  exists out, conv_tri im r 1 = Ok out /\ triangle_smoothed r im out.
Proof.
  intros im r Hr Hh Hw. destruct (conv_tri_value r im Hr Hh Hw) as (out & E & W & S & V). exists out. split; [exact E|]. split; [exact W|]. split; [exact S|].
  intros ref Href y x B. rewrite (V y x B). unfold smooth_value. apply sum_around_ext. intros dy _. apply sum_around_ext. intros dx _.
  rewrite <- (mirror_reflect (Z.of_nat (ht im)) _ _ ltac:(lia) (Href (Z.of_nat (ht im)) (y + dy) ltac:(lia))).
  rewrite <- (mirror_reflect (Z.of_nat (wd im)) _ _ ltac:(lia) (Href (Z.of_nat (wd im)) (x + dx) ltac:(lia))). reflexivity.
Qed.
Print Assumptions conv_tri_is_triangle_smoothing.

(** The specification is not vacuous: every index of the extended axis mirrors exactly one index. *)
Theorem mirror_total_and_unique : forall n i, 0 < n ->
  exists j, 0 <= j < n /\ mirror n i j /\ forall j', mirror n i j' -> j' = j.
Proof.
  intros n i H. exists (mirror_index n i). split; [apply reflect_range, H|]. split; [apply reflect_mirror, H|]. intros j M. apply mirror_reflect; assumption.
Qed.
Print Assumptions mirror_total_and_unique.

Lemma reflect_inb (h w : nat) y x : (0 < h)%nat -> (0 < w)%nat -> inb h w (mirror_index (Z.of_nat h) y) (mirror_index (Z.of_nat w) x) = true.
Proof. intros A B. apply inb_spec. assert (C := reflect_range (Z.of_nat h) y ltac:(lia)). assert (D := reflect_range (Z.of_nat w) x ltac:(lia)). lia. Qed.

(** Smoothing never leaves the range of the image, hence keeps constant images. *)
Theorem smoothing_keeps_range : forall im r out lo hi, 1 <= r -> (0 < ht im)%nat -> (0 < wd im)%nat -> conv_tri im r 1 = Ok out ->
  (forall y x, inb (ht im) (wd im) y x = true -> (lo <= px 0 im y x <= hi)%Q) ->
  forall y x, inb (ht im) (wd im) y x = true -> (lo <= px 0 out y x <= hi)%Q.
Proof.
  intros im r out lo hi Hr Hh Hw E B y x I. destruct (conv_tri_value r im Hr Hh Hw) as (out' & E' & _ & _ & V). rewrite E in E'. injection E' as <-.
  rewrite (V y x I). apply smooth_value_bound; try assumption. intros. apply B, reflect_inb; assumption.
Qed.
Print Assumptions smoothing_keeps_range.

Theorem smoothing_keeps_constants : forall im r c out, 1 <= r -> (0 < ht im)%nat -> (0 < wd im)%nat -> conv_tri im r 1 = Ok out ->
  (forall y x, inb (ht im) (wd im) y x = true -> (px 0 im y x == c)%Q) ->
  forall y x, inb (ht im) (wd im) y x = true -> (px 0 out y x == c)%Q.
Proof.
  intros im r c out Hr Hh Hw E B y x I. destruct (smoothing_keeps_range im r out c c Hr Hh Hw E) with (y := y) (x := x) as [L U]; [|exact I|lra].
  intros y' x' I'. rewrite (B _ _ I'). lra.
Qed.
Print Assumptions smoothing_keeps_constants.

(** Down-sampling by [s] takes the rows and columns [s/2, s/2 + s, ...] of the smoothed image. *)
Lemma slice_count n s i : 0 <= n -> 1 < s -> 0 <= i ->
  (i < Z.of_nat (slice_len n (s / 2 + 1 - 1) (n - (s - (s / 2 + 1)) + 1) s) <-> s / 2 + s * i < Z.min n (n - s + s / 2 + 2)).
Proof.
  intros Hn Hs Hi. unfold slice_len. set (b := fun i => if i <? 0 then Z.max (i + n) 0 else Z.min i n).
  replace (s / 2 + 1 - 1) with (s / 2) by lia. replace (n - (s - (s / 2 + 1)) + 1) with (n - s + s / 2 + 2) by lia.
  set (h := s / 2). assert (Hh : 2 * h <= s < 2 * h + 2) by (unfold h; lia). clearbody h.
  set (hi := n - s + h + 2).
  assert (E : forall a, i < Z.of_nat (Z.to_nat ((a + s - 1) / s)) <-> s * i < a).
  { intros a. 
    split; intros H.
    - assert (A : i + 1 <= (a + s - 1) / s) by lia. assert (D := Z.mul_div_le (a + s - 1) s ltac:(lia)). nia.
    - assert (A : i + 1 <= (a + s - 1) / s) by (apply Z.div_le_lower_bound; nia). lia. }
  rewrite E. unfold b. replace (h <? 0) with false by lia. destruct (Z.ltb_spec hi 0); destruct (Z.min_spec h n) as [[? ->]|[? ->]]; unfold hi in *; nia.
Qed.
Theorem downsampling : forall im r s, 1 <= r -> 1 < s -> (0 < ht im)%nat -> (0 < wd im)%nat ->
  exists full out, conv_tri im r 1 = Ok full /\ conv_tri im r s = Ok out /\ wf out /\
    (forall i, 0 <= i -> (i < Z.of_nat (ht out) <-> s / 2 + s * i < Z.min (Z.of_nat (ht im)) (Z.of_nat (ht im) - s + s / 2 + 2))) /\
    (forall j, 0 <= j -> (j < Z.of_nat (wd out) <-> s / 2 + s * j < Z.min (Z.of_nat (wd im)) (Z.of_nat (wd im) - s + s / 2 + 2))) /\
    (forall i j, inb (ht out) (wd out) i j = true -> px 0%Q out i j = px 0%Q full (s / 2 + s * i) (s / 2 + s * j)).
Proof.
  intros im r s Hr Hs Hh Hw. destruct (conv_tri_value r im Hr Hh Hw) as (full & E & W & [S1 S2] & _). exists full.
  revert E. unfold conv_tri. destruct (Nat.eqb_spec (ht im * wd im) 0); [nia|]. replace (r =? 0) with false by lia. cbn [andb orb].
  destruct (tri_taps_spec r Hr) as (f & -> & _). cbn [bind]. replace (1 <? 1) with false by reflexivity. replace (1 <? s) with true by lia.
  intros E. injection E as E. rewrite E. eexists. split; [reflexivity|]. split; [reflexivity|]. split; [apply wf_tab|].
  unfold downsample. cbn [ht wd tab]. rewrite <- S1, <- S2. split; [|split].
  - intros i Hi. apply slice_count; lia.
  - intros i Hi. apply slice_count; lia.
  - intros i j B. rewrite px_tab, B. replace (s / 2 + 1 - 1) with (s / 2) by lia. reflexivity.
Qed.
Print Assumptions downsampling.

(** Degenerate radii. *)
Theorem smoothing_degenerate : forall im s,
  conv_tri im 0 1 = Ok im /\
  ((0 < ht im)%nat -> (0 < wd im)%nat -> s <> 1 -> conv_tri im 0 s = Err ZeroDivisionError) /\
  ((ht im = 0%nat \/ wd im = 0%nat) -> forall r, conv_tri im r s = Ok im).
Proof.
  intros im s. split; [unfold conv_tri; cbn; rewrite orb_true_r; reflexivity|]. split.
  - intros Hh Hw N. unfold conv_tri. destruct (Nat.eqb_spec (ht im * wd im) 0); [nia|]. replace (s =? 1) with false by lia. reflexivity.
  - intros Z r. unfold conv_tri. destruct (Nat.eqb_spec (ht im * wd im) 0); [reflexivity|nia].
Qed.
Print Assumptions smoothing_degenerate.

(** ** C33 *)
(** What suppression computes: a pixel that is (up to the factor [m]) at least the interpolated
    values at distance 1..r on both sides along its direction is kept, any other becomes 0, and
    both are attenuated linearly near the border. *)
Theorem nms_result : forall cosf sinf edge ori r s m,
  wf edge -> same_shape edge ori -> (2 <= ht edge)%nat -> (2 <= wd edge)%nat ->
  exists out, nms cosf sinf edge ori r s m = Ok out /\ wf out /\ same_shape edge out /\
  let b := border_of (ht edge) (wd edge) s in
  forall y x, inb (ht edge) (wd edge) y x = true ->
    (locally_maximal edge r m (cosf (px 0%Q ori y x)) (sinf (px 0%Q ori y x)) y x ->
       (px 0 out y x == px 0 edge y x * fade (wd edge) b x * fade (ht edge) b y)%Q) /\
    (~ locally_maximal edge r m (cosf (px 0%Q ori y x)) (sinf (px 0%Q ori y x)) y x -> (px 0 out y x == 0)%Q).
Proof.
  intros cosf sinf edge ori r s m W S Hh Hw. destruct (nms_ok cosf sinf edge ori r s m W S Hh Hw) as (kept & out & E & Wo & So & P).
  exists out. split; [exact E|]. split; [exact Wo|]. split; [exact So|]. intros b y x B. destruct (P y x B) as (P1 & P2 & _ & P4). fold b in P4.
  split; intros L; rewrite P4; [rewrite (P1 L); reflexivity|rewrite (P2 L); ring].
Qed.
Print Assumptions nms_result.

Lemma scaled_range (e f g : Q) : (0 <= e -> 0 <= f <= 1 -> 0 <= g <= 1 -> 0 <= e * f * g <= e)%Q.
Proof.
  intros He F G. assert (A : (0 <= e * f)%Q) by (apply Qmult_le_0_compat; lra). assert (B : (0 <= e * (1 - f))%Q) by (apply Qmult_le_0_compat; lra).
  assert (C : (0 <= e * f * g)%Q) by (apply Qmult_le_0_compat; lra). assert (D : (0 <= e * f * (1 - g))%Q) by (apply Qmult_le_0_compat; lra). lra.
Qed.
Theorem nms_only_lowers : forall cosf sinf edge ori r s m out,
  wf edge -> same_shape edge ori -> (2 <= ht edge)%nat -> (2 <= wd edge)%nat -> nms cosf sinf edge ori r s m = Ok out ->
  forall y x, inb (ht edge) (wd edge) y x = true -> (0 <= px 0 edge y x)%Q -> (0 <= px 0 out y x <= px 0 edge y x)%Q.
Proof.
  intros cosf sinf edge ori r s m out W S Hh Hw E y x B N. destruct (nms_ok cosf sinf edge ori r s m W S Hh Hw) as (kept & out' & E' & _ & _ & P).
  rewrite E in E'. injection E' as <-. destruct (P y x B) as (_ & _ & K & V). apply inb_spec in B.
  assert (Fx := fade_range (wd edge) (border_of (ht edge) (wd edge) s) x ltac:(lia)). assert (Fy := fade_range (ht edge) (border_of (ht edge) (wd edge) s) y ltac:(lia)).
  rewrite V. destruct K as [-> | ->]; [apply scaled_range; assumption|]. split; lra.
Qed.
Print Assumptions nms_only_lowers.

(** A pixel at least as strong as every other one is never suppressed (for m >= 1). *)
Theorem nms_keeps_the_maximum : forall cosf sinf edge ori r s m out y x,
  wf edge -> same_shape edge ori -> (2 <= ht edge)%nat -> (2 <= wd edge)%nat -> nms cosf sinf edge ori r s m = Ok out ->
  (1 <= m)%Q -> inb (ht edge) (wd edge) y x = true ->
  (forall y' x', inb (ht edge) (wd edge) y' x' = true -> (0 <= px 0 edge y' x' <= px 0 edge y x)%Q) ->
  let b := border_of (ht edge) (wd edge) s in
  (px 0 out y x == px 0 edge y x * fade (wd edge) b x * fade (ht edge) b y)%Q.
Proof.
  intros cosf sinf edge ori r s m out y x W S Hh Hw E M B Mx b. destruct (nms_ok cosf sinf edge ori r s m W S Hh Hw) as (kept & out' & E' & _ & _ & P).
  rewrite E in E'. injection E' as <-. destruct (P y x B) as (K & _ & _ & V). rewrite V, K; [reflexivity|].
  intros d _ _. assert (Bd := bilinear_bound edge 0 (px 0%Q edge y x) (inject_Z x + inject_Z d * cosf (px 0%Q ori y x)) (inject_Z y + inject_Z d * sinf (px 0%Q ori y x)) Hh Hw Mx).
  assert (N := Mx y x B). assert (X : (0 <= px 0 edge y x * (m - 1))%Q) by (apply Qmult_le_0_compat; lra). lra.
Qed.
Print Assumptions nms_keeps_the_maximum.

(** Away from the border (at least [s] pixels) nothing is attenuated. *)
Theorem nms_interior_unattenuated : forall h w s y x, s <= y -> s <= x -> y <= Z.of_nat h - 1 - s -> x <= Z.of_nat w - 1 - s ->
  fade w (border_of h w s) x = 1%Q /\ fade h (border_of h w s) y = 1%Q.
Proof.
  intros h w s y x A B C D. unfold fade, border_of.
  split; [replace (Z.min x (Z.of_nat w - 1 - x) <? Z.min s (Z.min (Z.of_nat w / 2) (Z.of_nat h / 2))) with false by lia; reflexivity|].
  replace (Z.min y (Z.of_nat h - 1 - y) <? Z.min s (Z.min (Z.of_nat w / 2) (Z.of_nat h / 2))) with false by lia. reflexivity.
Qed.
Print Assumptions nms_interior_unattenuated.

Theorem nms_rejects_shape_mismatch : forall cosf sinf edge ori r s m, ~ same_shape edge ori ->
  nms cosf sinf edge ori r s m = Err ValueError.
Proof.
  intros cosf sinf edge ori r s m H. unfold nms. destruct (Nat.eqb_spec (ht edge) (ht ori)) as [E1|]; [|reflexivity].
  destruct (Nat.eqb_spec (wd edge) (wd ori)) as [E2|]; [|reflexivity]. exfalso. apply H. split; assumption.
Qed.
Print Assumptions nms_rejects_shape_mismatch.

(** A single row or column: the interpolation reads outside the matrix and the process ends. *)
Lemma interp_thin im x y : ht im = 1%nat \/ wd im = 1%nat ->
  interp im (Z.of_nat (ht im)) (Z.of_nat (wd im)) x y = Err Terminate.
Proof.
  assert (T : forall v, trunc (clamp 1 v) = 0).
  { intros v. unfold clamp. destruct (qlt v 0) eqn:E; [reflexivity|]. apply qlt_false in E. destruct (qlt (inject_Z 1 - (1001 # 1000)) v) eqn:E2; [reflexivity|].
    apply qlt_false in E2. change (inject_Z 1) with 1%Q in E2. exfalso. lra. }
  assert (G : forall y x, (exists v, mget im y x = Ok v) \/ mget im y x = Err Terminate).
  { intros y' x'. unfold mget. destruct (inb _ _ _ _); [left; eexists; reflexivity|right; reflexivity]. }
  assert (O : forall y x, Z.of_nat (ht im) <= y \/ Z.of_nat (wd im) <= x -> mget im y x = Err Terminate).
  { intros y' x' H. unfold mget. destruct (inb (ht im) (wd im) y' x') eqn:B; [apply inb_spec in B; lia|reflexivity]. }
  intros [H|H]; unfold interp; rewrite H; change (Z.of_nat 1) with 1; rewrite !T.
  - destruct (G 0 (trunc (clamp (Z.of_nat (wd im)) x))) as [(a & ->)| ->]; [|reflexivity]. cbn [bind].
    destruct (G 0 (trunc (clamp (Z.of_nat (wd im)) x) + 1)) as [(b & ->)| ->]; [|reflexivity]. cbn [bind]. rewrite O by (left; lia). reflexivity.
  - destruct (G (trunc (clamp (Z.of_nat (ht im)) y)) 0) as [(a & ->)| ->]; [|reflexivity]. cbn [bind]. rewrite O by (right; lia). reflexivity.
Qed.
Theorem nms_single_line_terminates : forall cosf sinf edge ori r s m y x,
  wf edge -> same_shape edge ori -> ht edge = 1%nat \/ wd edge = 1%nat -> 1 <= r ->
  inb (ht edge) (wd edge) y x = true -> ~ (px 0 edge y x == 0)%Q ->
  nms cosf sinf edge ori r s m = Err Terminate.
Proof.
  intros cosf sinf edge ori r s m y x W [S1 S2] T Hr B NZ. unfold nms, benms. rewrite <- S1, <- S2, !Nat.eqb_refl. cbn [andb negb].
  assert (K : forall y x, nms_pixel cosf sinf edge ori r m y x = if Qeq_bool (px 0%Q edge y x) 0 then Ok (px 0%Q edge y x) else Err Terminate).
  { intros y' x'. unfold nms_pixel. destruct (Qeq_bool (px 0%Q edge y' x') 0); [reflexivity|].
    destruct (offsets r) as [|d ds] eqn:Eo; [assert (I := proj2 (in_offsets r 1) ltac:(lia)); rewrite Eo in I; destruct I|].
    cbn [survives]. rewrite interp_thin by exact T. reflexivity. }
  assert (R : forall y', mapM (fun x' => nms_pixel cosf sinf edge ori r m y' x') (zseq (wd edge)) = Err Terminate \/ exists l, mapM (fun x' => nms_pixel cosf sinf edge ori r m y' x') (zseq (wd edge)) = Ok l).
  { intros y'. generalize (zseq (wd edge)). intros l. induction l as [|a l IH]; [right; eexists; reflexivity|]. cbn [mapM]. rewrite K.
    destruct (Qeq_bool _ _); [|left; reflexivity]. cbn [bind]. destruct IH as [-> |(l' & ->)]; [left; reflexivity|right; eexists; reflexivity]. }
  unfold tabM. rewrite (mapM_err _ Terminate); [reflexivity| |].
  - intros a _. destruct (R a) as [E|(l & E)]; [right; exact E|left; exists l; exact E].
  - apply inb_spec in B. exists y. split; [apply in_zseq; lia|]. apply mapM_err.
    + intros a _. rewrite K. destruct (Qeq_bool _ _); [left; eexists; reflexivity|right; reflexivity].
    + exists x. split; [apply in_zseq; lia|]. rewrite K. destruct (Qeq_bool (px 0%Q edge y x) 0) eqn:Q; [apply Qeq_bool_iff in Q; contradiction|reflexivity].
Qed.
Print Assumptions nms_single_line_terminates.

(** ** fast_nms *)
Lemma grad2_ok im : (2 <= ht im)%nat -> (2 <= wd im)%nat -> exists a b, grad2 im = Ok (a, b) /\ same_shape im a /\ same_shape im b.
Proof. intros A B. unfold grad2. replace (Nat.ltb (ht im) 2 || Nat.ltb (wd im) 2) with false by (symmetry; apply orb_false_iff; split; apply Nat.ltb_ge; assumption). eexists _, _. split; [reflexivity|]. split; split; reflexivity. Qed.
Lemma orientation_ok orient im : (2 <= ht im)%nat -> (2 <= wd im)%nat -> exists o, orientation orient im = Ok o /\ same_shape im o.
Proof.
  intros A B. unfold orientation. destruct (conv_tri_value 4 im ltac:(lia) ltac:(lia) ltac:(lia)) as (sm & -> & _ & [S1 S2] & _). cbn [bind].
  destruct (grad2_ok sm ltac:(lia) ltac:(lia)) as (ox & oy & -> & [X1 X2] & [Y1 Y2]). cbn [bind].
  destruct (grad2_ok ox ltac:(lia) ltac:(lia)) as (oxx & d & -> & _). cbn [bind].
  destruct (grad2_ok oy ltac:(lia) ltac:(lia)) as (oxy & oyy & -> & _). cbn [bind]. eexists. split; [reflexivity|]. split; reflexivity.
Qed.

(** [fast_nms] on an image of at least 2x2 pixels: the result has the same shape, and each pixel
    is 0 or the triangle-smoothed input attenuated near the border. *)
Theorem fast_nms_result : forall orient cosf sinf to32 p img r s m, as_float p = Ok img ->
  (2 <= ht img)%nat -> (2 <= wd img)%nat ->
  exists smooth out, triangle_smoothed 1 img smooth /\ fast_nms orient cosf sinf to32 p r s m false = Ok out /\
    wf out /\ same_shape img out /\
    let b := border_of (ht img) (wd img) s in
    forall y x, inb (ht img) (wd img) y x = true ->
      (px 0 out y x == 0)%Q \/ (px 0 out y x == px 0 smooth y x * fade (wd img) b x * fade (ht img) b y)%Q.
Proof.
  intros orient cosf sinf to32 p img r s m Ep Hh Hw. destruct (conv_tri_is_triangle_smoothing img 1 ltac:(lia) ltac:(lia) ltac:(lia)) as (sm & E & T).
  exists sm. assert (T' := T). destruct T' as (W & [S1 S2] & _). destruct (orientation_ok orient sm ltac:(lia) ltac:(lia)) as (o & Eo & So).
  destruct (nms_ok cosf sinf sm o r s m W So ltac:(lia) ltac:(lia)) as (kept & out & En & Wo & [O1 O2] & P). exists out. split; [exact T|]. split.
  { unfold fast_nms. rewrite Ep. cbn [bind]. rewrite E. cbn [bind]. rewrite Eo. cbn [bind]. exact En. }
  split; [exact Wo|]. split; [split; congruence|]. intros b y x B. rewrite S1, S2 in B. destruct (P y x B) as (_ & _ & K & V).
  rewrite <- S1, <- S2 in V. destruct K as [K|K]; rewrite K in V; [right; exact V|left; rewrite V; ring].
Qed.
Print Assumptions fast_nms_result.

(** A pixel of the result never exceeds the largest pixel of the 3x3 neighbourhood. *)
Theorem fast_nms_range : forall orient cosf sinf to32 p img r s m out y x hi, as_float p = Ok img ->
  (2 <= ht img)%nat -> (2 <= wd img)%nat -> fast_nms orient cosf sinf to32 p r s m false = Ok out ->
  inb (ht img) (wd img) y x = true ->
  (forall y' x', inb (ht img) (wd img) y' x' = true -> Z.abs (y' - y) <= 1 -> Z.abs (x' - x) <= 1 -> (0 <= px 0 img y' x' <= hi)%Q) ->
  (0 <= px 0 out y x <= hi)%Q.
Proof.
  intros orient cosf sinf to32 p img r s m out y x hi Ep Hh Hw E B Bd.
  destruct (fast_nms_result orient cosf sinf to32 p img r s m Ep Hh Hw) as (sm & out' & T & E' & _ & _ & P). rewrite E in E'. injection E' as <-.
  destruct (conv_tri_value 1 img ltac:(lia) ltac:(lia) ltac:(lia)) as (sm' & Ec & _ & _ & V).
  assert (Sm : (0 <= px 0 sm y x <= hi)%Q).
  { destruct T as (_ & _ & T). specialize (T mirror_index (fun n i H => reflect_mirror n i H) y x B). rewrite T. fold (smooth_value 1 img y x).
    apply smooth_value_bound; try lia. intros dy dx Hy Hx. assert (I := reflect_inb (ht img) (wd img) (y + dy) (x + dx) ltac:(lia) ltac:(lia)).
    apply inb_spec in B. assert (N : forall n i d, 0 < n -> 0 <= i < n -> - (1) <= d <= 1 -> Z.abs (mirror_index n (i + d) - i) <= 1).
    { clear. intros n i d Hn Hi Hd. assert (i + d = -1 \/ i + d = n \/ 0 <= i + d < n) as [A|[A|A]] by lia.
      - rewrite A. change (-1) with (-1 - 0). rewrite reflect_low, reflect_id by lia. lia.
      - rewrite A. replace n with (2 * n - 1 - (n - 1)) at 2 by lia. rewrite reflect_high, reflect_id by lia. lia.
      - rewrite reflect_id by lia. lia. }
    apply Bd; [exact I|apply N; lia|apply N; lia]. }
  apply inb_spec in B. destruct (P y x) as [Z|Z]; [apply inb_spec; lia| |]; rewrite Z; [lra|].
  assert (Fx := fade_range (wd img) (border_of (ht img) (wd img) s) x ltac:(lia)). assert (Fy := fade_range (ht img) (border_of (ht img) (wd img) s) y ltac:(lia)).
  assert (R := scaled_range _ _ _ (proj1 Sm) Fx Fy). lra.
Qed.
Print Assumptions fast_nms_range.

(** Images too small for a gradient are rejected before any interpolation, whatever the options, so
    [fast_nms] never ends the process. *)
Theorem fast_nms_small_images : forall orient cosf sinf to32 p img r s m half, as_float p = Ok img -> wf img ->
  (ht img < 2)%nat \/ (wd img < 2)%nat -> fast_nms orient cosf sinf to32 p r s m half = Err ValueError.
Proof.
  intros orient cosf sinf to32 p img r s m half Ep W Sm. unfold fast_nms. rewrite Ep. cbn [bind].
  assert (C : exists e, conv_tri img 1 1 = Ok e /\ same_shape img e).
  { destruct (Nat.eq_dec (ht img * wd img) 0) as [Z|Z]; [exists img; split; [apply smoothing_degenerate; nia|split; reflexivity]|].
    destruct (conv_tri_value 1 img ltac:(lia) ltac:(nia) ltac:(nia)) as (e & E & _ & S & _). exists e. split; assumption. }
  destruct C as (e & -> & [S1 S2]). cbn [bind]. set (e' := if half then imap to32 e else e). assert (S1' : ht e' = ht img) by (unfold e'; destruct half; cbn; congruence).
  assert (S2' : wd e' = wd img) by (unfold e'; destruct half; cbn; congruence). unfold orientation.
  assert (C : exists c, conv_tri e' 4 1 = Ok c /\ same_shape e' c).
  { destruct (Nat.eq_dec (ht e' * wd e') 0) as [Z|Z]; [exists e'; split; [apply smoothing_degenerate; nia|split; reflexivity]|].
    destruct (conv_tri_value 4 e' ltac:(lia) ltac:(nia) ltac:(nia)) as (c & E & _ & S & _). exists c. split; assumption. }
  destruct C as (c & -> & [C1 C2]). cbn [bind]. unfold grad2 at 1.
  replace (Nat.ltb (ht c) 2 || Nat.ltb (wd c) 2) with true; [reflexivity|]. symmetry. apply orb_true_iff. destruct Sm; [left|right]; apply Nat.ltb_lt; congruence.
Qed.
Print Assumptions fast_nms_small_images.

Theorem fast_nms_rejects_other_dtypes : forall orient cosf sinf to32 r s m half,
  fast_nms orient cosf sinf to32 OtherDtype r s m half = Err AssertionError.
Proof. reflexivity. Qed.
Print Assumptions fast_nms_rejects_other_dtypes.

(** [return_as_uint8]: the nearest of the 256 levels to the clipped value. *)
Lemma round_even_near q : (Qabs (inject_Z (round_even q) - q) <= 1 # 2)%Q.
Proof.
  unfold round_even. assert (A := Qfloor_le q). assert (B := Qlt_floor q). rewrite inject_Z_plus in B. change (inject_Z 1) with 1%Q in B.
  apply Qabs_Qle_condition. destruct (qlt _ (1 # 2)) eqn:E1; [apply qlt_spec in E1; lra|apply qlt_false in E1].
  assert (C : (inject_Z (Qfloor q + 1) == inject_Z (Qfloor q) + 1)%Q) by (rewrite inject_Z_plus; reflexivity).
  destruct (qlt (1 # 2) _) eqn:E2; [apply qlt_spec in E2; rewrite C; lra|apply qlt_false in E2].
  destruct (Z.even _); rewrite ?C; lra.
Qed.
Theorem uint8_output : forall out y x, inb (ht out) (wd out) y x = true -> wf out ->
  let v := px 0 (to_uint8 out) y x in let c := Qmax 0 (Qmin (px 0%Q out y x) 1%Q) in
  0 <= v <= 255 /\ (Qabs (inject_Z v - c * 255) <= 1 # 2)%Q.
Proof.
  intros out y x B W v c. assert (E : v = round_even (clip01 (px 0%Q out y x) * 255)%Q).
  { unfold v, to_uint8. rewrite (px_dflt 0 (round_even (clip01 0 * 255)%Q)) by (try apply wf_imap; assumption). exact (px_imap (fun v => round_even (clip01 v * 255)%Q) 0%Q out y x). }
  assert (C : (clip01 (px 0%Q out y x) == c)%Q /\ (0 <= c <= 1)%Q).
  { unfold clip01, c. destruct (qlt (px 0%Q out y x) 0) eqn:E1; [apply qlt_spec in E1; rewrite Q.min_l, Q.max_l by lra; lra|apply qlt_false in E1].
    destruct (qlt 1 (px 0%Q out y x)) eqn:E2; [apply qlt_spec in E2; rewrite Q.min_r, Q.max_r by lra; lra|apply qlt_false in E2; rewrite Q.min_l, Q.max_r by lra; lra]. }
  destruct C as [C1 C2]. assert (N := round_even_near (clip01 (px 0%Q out y x) * 255)%Q). rewrite <- E in N. clearbody v. rewrite C1 in N. split; [|exact N].
  apply Qabs_Qle_condition in N. split.
  - destruct (Z_le_gt_dec 0 v) as [L|G]; [exact L|exfalso]. assert (X : (inject_Z v <= inject_Z (-1))%Q) by (rewrite <- Zle_Qle; lia). change (inject_Z (-1)) with (-1)%Q in X. lra.
  - destruct (Z_le_gt_dec v 255) as [L|G]; [exact L|exfalso]. assert (X : (inject_Z 256 <= inject_Z v)%Q) by (rewrite <- Zle_Qle; lia). change (inject_Z 256) with 256%Q in X. lra.
Qed.
Print Assumptions uint8_output.

(** Non-trivial instances: a 3x3 image, direction along the rows, and a single row. *)
Definition ex_edge : image Q := mkImage 3 3 [[0; 1 # 2; 0]; [0; 1; 3 # 4]; [0; 1 # 2; 0]]%Q.
Definition ex_ori : image Q := mkImage 3 3 [[0; 0; 0]; [0; 0; 0]; [0; 0; 0]]%Q.
Example ex_nms : option_map (fun im => map (map Qred) (rows im))
    (match nms (fun _ => 1%Q) (fun _ => 0%Q) ex_edge ex_ori 1 0 (101 # 100) with Ok o => Some o | Err _ => None end)
  = Some [[0; 1 # 2; 0]; [0; 1; 0]; [0; 1 # 2; 0]]%Q.
Proof. vm_compute. reflexivity. Qed.
Example ex_nms_hyp : wf ex_edge /\ same_shape ex_edge ex_ori /\ (2 <= ht ex_edge)%nat /\ (2 <= wd ex_edge)%nat.
Proof. split; [split; [reflexivity|repeat constructor]|]. split; [split; reflexivity|]. cbn. lia. Qed.
Example ex_nms_row : nms (fun _ => 1%Q) (fun _ => 0%Q) (mkImage 1 2 [[0; 1]]%Q) (mkImage 1 2 [[0; 0]]%Q) 1 5 (101 # 100) = Err Terminate.
Proof. vm_compute. reflexivity. Qed.
Example ex_conv : match conv_tri ex_edge 1 1 with Ok o => map (map Qred) (rows o) | Err _ => [] end
  = [[5 # 32; 23 # 64; 19 # 64]; [3 # 16; 15 # 32; 15 # 32]; [5 # 32; 23 # 64; 19 # 64]]%Q.
Proof. vm_compute. reflexivity. Qed.
