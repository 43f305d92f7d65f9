(** C33: suppression of an image, end to end, with the orientation that is used. *)
From Verif Require Import ModelNMS SpecNMS ProofsImage ProofsNMS ProofsNMS2 PropertiesNMS.
From Coq Require Import Lia Lqa ZifyBool ZifyNat.
Open Scope Z_scope.
Open Scope list_scope.

Lemma px_imap_in {A B} (f : A -> B) (d : A) (d' : B) im y x : wf im -> inb (ht im) (wd im) y x = true ->
  px d' (imap f im) y x = f (px d im y x).
Proof.
  intros W I. rewrite <- (px_imap f d im y x). apply px_dflt; [apply wf_imap; exact W|exact I].
Qed.
Lemma grad1_slope (n : nat) g g' i : (2 <= n)%nat -> 0 <= i < Z.of_nat n -> (forall k, 0 <= k < Z.of_nat n -> (g k == g' k)%Q) ->
  (grad1 (Z.of_nat n) g i == slope n g' i)%Q.
Proof.
  intros Hn Hi E. unfold grad1, slope. destruct (Z.eqb_spec i 0) as [->|N0].
  - replace (Z.min (0 + 1) (Z.of_nat n - 1)) with 1 by lia. replace (Z.max (0 - 1) 0) with 0 by lia. rewrite !E by lia.
    change (inject_Z (1 - 0)) with 1%Q. field.
  - destruct (Z.eqb_spec i (Z.of_nat n - 1)) as [->|N1].
    + replace (Z.min (Z.of_nat n - 1 + 1) (Z.of_nat n - 1)) with (Z.of_nat n - 1) by lia.
      replace (Z.max (Z.of_nat n - 1 - 1) 0) with (Z.of_nat n - 2) by lia. rewrite !E by lia.
      replace (Z.of_nat n - 1 - (Z.of_nat n - 2)) with 1 by lia. change (inject_Z 1) with 1%Q. field.
    + replace (Z.min (i + 1) (Z.of_nat n - 1)) with (i + 1) by lia. replace (Z.max (i - 1) 0) with (i - 1) by lia. rewrite !E by lia.
      replace (i + 1 - (i - 1)) with 2 by lia. change (inject_Z 2) with 2%Q. reflexivity.
Qed.
Definition agrees (im : image Q) (f : Z -> Z -> Q) : Prop := forall y x, inb (ht im) (wd im) y x = true -> (px 0 im y x == f y x)%Q.
Lemma grad2_spec im f : (2 <= ht im)%nat -> (2 <= wd im)%nat -> agrees im f ->
  exists ox oy, grad2 im = Ok (ox, oy) /\ same_shape im ox /\ same_shape im oy /\ agrees ox (along_x (wd im) f) /\ agrees oy (along_y (ht im) f).
Proof.
  intros Hh Hw A. unfold grad2. destruct (Nat.ltb_spec (ht im) 2); [lia|]. destruct (Nat.ltb_spec (wd im) 2); [lia|]. cbn [orb].
  eexists _, _. split; [reflexivity|]. split; [split; reflexivity|]. split; [split; reflexivity|]. split; intros y x B; cbn [ht wd tab] in B; rewrite px_tab, B.
  - unfold along_x. apply inb_spec in B. apply grad1_slope; [exact Hw|lia|]. intros k Hk. apply A, inb_spec. lia.
  - unfold along_y. apply inb_spec in B. apply grad1_slope; [exact Hh|lia|]. intros k Hk. apply A, inb_spec. lia.
Qed.
Lemma sgn_signum v w : (v == w)%Q -> (sgn v == signum w)%Q.
Proof.
  intros E. unfold sgn, signum. destruct (qlt v 0) eqn:A; [apply qlt_spec in A|apply qlt_false in A].
  - assert (B : (w < 0)%Q) by lra. rewrite (proj1 (Qlt_alt w 0) B). reflexivity.
  - destruct (qlt 0 v) eqn:B; [apply qlt_spec in B|apply qlt_false in B].
    + assert (C : (0 < w)%Q) by lra. rewrite (proj1 (Qgt_alt w 0) C). reflexivity.
    + assert (C : (w == 0)%Q) by lra. rewrite (proj1 (Qeq_alt w 0) C). reflexivity.
Qed.
Lemma orientation_value orient edge : (2 <= ht edge)%nat -> (2 <= wd edge)%nat ->
  exists blurred ori, triangle_smoothed 4 edge blurred /\ orientation orient edge = Ok ori /\ same_shape edge ori /\
    forall y x, inb (ht edge) (wd edge) y x = true ->
      exists v, (v == tangent (ht edge) (wd edge) (px 0 blurred) y x)%Q /\ px 0%Q ori y x = orient v.
Proof.
  intros Hh Hw. destruct (conv_tri_is_triangle_smoothing edge 4 ltac:(lia) ltac:(lia) ltac:(lia)) as (bl & E & T).
  exists bl. assert (T' := T). destruct T' as (_ & [S1 S2] & _).
  destruct (grad2_spec bl (px 0%Q bl) ltac:(lia) ltac:(lia)) as (ox & oy & E1 & [X1 X2] & [Y1 Y2] & Ax & Ay); [intros y x _; reflexivity|].
  destruct (grad2_spec ox _ ltac:(lia) ltac:(lia) Ax) as (oxx & z & E2 & [XX1 XX2] & _ & Axx & _).
  destruct (grad2_spec oy _ ltac:(lia) ltac:(lia) Ay) as (oxy & oyy & E3 & [XY1 XY2] & [YY1 YY2] & Axy & Ayy).
  eexists. split; [exact T|]. unfold orientation. rewrite E. cbn [bind]. rewrite E1. cbn [bind]. rewrite E2. cbn [bind]. rewrite E3. cbn [bind].
  split; [reflexivity|]. split; [split; reflexivity|]. intros y x B. rewrite px_tab, B. cbv zeta. eexists. split; [|reflexivity].
  unfold tangent. rewrite S1, S2. rewrite <- X2 in Axx. rewrite <- Y2 in Axy. rewrite <- Y1 in Ayy. rewrite S1, S2 in B.
  assert (Vxx := Axx y x ltac:(rewrite <- XX1, <- XX2, <- X1, <- X2; exact B)).
  assert (Vxy := Axy y x ltac:(rewrite <- XY1, <- XY2, <- Y1, <- Y2; exact B)).
  assert (Vyy := Ayy y x ltac:(rewrite <- YY1, <- YY2, <- Y1, <- Y2; exact B)).
  set (a := along_x (wd bl) (along_x (wd bl) (px 0%Q bl)) y x) in *.
  set (b := along_x (wd bl) (along_y (ht bl) (px 0%Q bl)) y x) in *.
  set (c := along_y (ht bl) (along_y (ht bl) (px 0%Q bl)) y x) in *.
  rewrite (sgn_signum (- px 0 oxy y x)%Q (- b)%Q) by (rewrite Vxy; reflexivity). rewrite Vyy.
  assert (D : ((if Qeq_bool (px 0 oxx y x) 0 then 1 # 100000 else px 0 oxx y x) == if Qeq_bool a 0 then 1 # 100000 else a)%Q).
  { rewrite (Qeqb_comp _ _ Vxx 0%Q 0%Q (Qeq_refl 0)). destruct (Qeq_bool a 0); [reflexivity|exact Vxx]. }
  rewrite D. reflexivity.
Qed.

(** What [fast_nms] computes: the triangle-smoothed input (rounded to single precision if asked),
    kept where it is a local maximum along the orientation derived from the second derivatives
    of its radius-4 smoothing, 0 elsewhere, attenuated near the border. *)
Theorem fast_nms_exact : forall orient cosf sinf to32 p img r s m (half : bool), as_float p = Ok img ->
  (2 <= ht img)%nat -> (2 <= wd img)%nat ->
  exists smooth blurred out,
    let edge := if half then imap to32 smooth else smooth in
    triangle_smoothed 1 img smooth /\ triangle_smoothed 4 edge blurred /\
    fast_nms orient cosf sinf to32 p r s m half = Ok out /\ wf out /\ same_shape img out /\
    let b := border_of (ht img) (wd img) s in
    forall y x, inb (ht img) (wd img) y x = true -> exists v,
      (v == tangent (ht img) (wd img) (px 0 blurred) y x)%Q /\
      (locally_maximal edge r m (cosf (orient v)) (sinf (orient v)) y x ->
        (px 0 out y x == px 0 edge y x * fade (wd img) b x * fade (ht img) b y)%Q) /\
      (~ locally_maximal edge r m (cosf (orient v)) (sinf (orient v)) y x -> (px 0 out y x == 0)%Q).
Proof.
  intros orient cosf sinf to32 p img r s m half Ep Hh Hw.
  destruct (conv_tri_is_triangle_smoothing img 1 ltac:(lia) ltac:(lia) ltac:(lia)) as (sm & E & T).
  set (edge := if half then imap to32 sm else sm). assert (T' := T). destruct T' as (W & [S1 S2] & _).
  assert (We : wf edge) by (unfold edge; destruct half; [apply wf_imap|]; exact W).
  assert (E1 : ht edge = ht img) by (unfold edge; destruct half; cbn; congruence).
  assert (E2 : wd edge = wd img) by (unfold edge; destruct half; cbn; congruence).
  destruct (orientation_value orient edge ltac:(lia) ltac:(lia)) as (bl & ori & Tb & Eo & So & Vo).
  destruct (nms_result cosf sinf edge ori r s m We So ltac:(lia) ltac:(lia)) as (out & En & Wo & [O1 O2] & P).
  exists sm, bl, out. fold edge. split; [exact T|]. split; [exact Tb|]. split.
  { unfold fast_nms. rewrite Ep. cbn [bind]. rewrite E. cbn [bind]. fold edge. rewrite Eo. cbn [bind]. exact En. }
  split; [exact Wo|]. split; [split; congruence|]. intros b y x B. rewrite <- E1, <- E2 in B.
  destruct (Vo y x B) as (v & Ev & Ep'). exists v. rewrite E1, E2 in Ev. split; [exact Ev|]. rewrite <- Ep'.
  cbv zeta in P. rewrite E1, E2 in P. rewrite E1, E2 in B. exact (P y x B).
Qed.
Print Assumptions fast_nms_exact.

(** Accepted inputs: bytes are divided by 255, floating point arrays are taken as they are. *)
Theorem fast_nms_input : (forall im, wf im -> exists img, as_float (U8 im) = Ok img /\ wf img /\ same_shape im img /\
    forall y x, (px 0 img y x == inject_Z (px 0%Z im y x) / 255)%Q) /\ (forall im, as_float (F64 im) = Ok im).
Proof.
  split; [|reflexivity]. intros im W. eexists. split; [reflexivity|]. split; [apply wf_imap; exact W|]. split; [split; reflexivity|]. intros y x.
  destruct (inb (ht im) (wd im) y x) eqn:B.
  - rewrite (px_imap_in (fun v => inject_Z v / inject_Z 255)%Q 0 0%Q im y x W B). reflexivity.
  - rewrite !px_out; [reflexivity|exact W|exact B|apply wf_imap; exact W|exact B].
Qed.
Print Assumptions fast_nms_input.

(** [return_as_uint8] rounds halves to the even level. *)
Theorem uint8_output_ties : forall out y x k, inb (ht out) (wd out) y x = true -> wf out -> 0 <= k < 255 ->
  (px 0 out y x * 255 == inject_Z k + (1 # 2))%Q -> px 0 (to_uint8 out) y x = if Z.even k then k else k + 1.
Proof.
  intros out y x k B W Hk E. unfold to_uint8. rewrite (px_imap_in (fun v => round_even (clip01 v * 255)%Q) 0%Q 0 out y x W B).
  set (q := px 0%Q out y x) in *.
  assert (K1 : (0 <= inject_Z k)%Q) by (change 0%Q with (inject_Z 0); rewrite <- Zle_Qle; lia).
  assert (K2 : (inject_Z k <= 254)%Q) by (change 254%Q with (inject_Z 254); rewrite <- Zle_Qle; lia).
  assert (C : clip01 q = q).
  { unfold clip01. destruct (qlt q 0) eqn:A; [apply qlt_spec in A; lra|]. destruct (qlt 1 q) eqn:A2; [apply qlt_spec in A2; lra|reflexivity]. }
  rewrite C. unfold round_even. assert (F : Qfloor (q * 255) = k).
  { rewrite (Qfloor_comp _ _ E). unfold Qfloor, Qplus, inject_Z. cbn [Qnum Qden]. replace (k * 2 + 1 * 1) with (1 + k * 2) by ring.
    rewrite Pos2Z.inj_mul. change (Z.pos 1 * Z.pos 2) with 2. rewrite Z.div_add by lia. reflexivity. }
  rewrite F. destruct (qlt (q * 255 - inject_Z k) (1 # 2)) eqn:A; [apply qlt_spec in A; lra|]. destruct (qlt (1 # 2) (q * 255 - inject_Z k)) eqn:A2; [apply qlt_spec in A2; lra|reflexivity].
Qed.
Print Assumptions uint8_output_ties.
Example ex_tie : map (fun x => px 0 (to_uint8 (mkImage 1 2 [[1 # 510; 3 # 510]]%Q)) 0 x) [0; 1] = [0; 2].
Proof. vm_compute. reflexivity. Qed.
Example ex_fast_nms_hyp : exists im, as_float (U8 (mkImage 2 2 [[0; 255]; [128; 7]])) = Ok im /\ (2 <= ht im)%nat /\ (2 <= wd im)%nat.
Proof. eexists. split; [reflexivity|]. split; cbn; lia. Qed.
