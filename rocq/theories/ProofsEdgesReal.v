(** The integer test [sum_within] is the comparison of real Euclidean distances. *)
From Verif Require Import ModelEdges SpecEdges ProofsEdges.
From Coq Require Import Reals Lra Psatz.
Open Scope R_scope.

Lemma sum_within_real r a b : (0 <= a)%Z -> (0 <= b)%Z ->
  (sum_within r a b = true <-> sqrt (IZR a) + sqrt (IZR b) <= IZR r).
Proof.
  intros Ha Hb. rewrite sum_within_spec. apply IZR_le in Ha. apply IZR_le in Hb.
  set (A := sqrt (IZR a)). set (B := sqrt (IZR b)).
  assert (EA : A * A = IZR a) by (apply sqrt_sqrt; exact Ha).
  assert (EB : B * B = IZR b) by (apply sqrt_sqrt; exact Hb).
  assert (PA : 0 <= A) by apply sqrt_pos. assert (PB : 0 <= B) by apply sqrt_pos.
  split.
  - intros (H1 & H2 & H3). apply IZR_le in H1, H2, H3.
    rewrite !mult_IZR, !minus_IZR, !mult_IZR in H3. rewrite plus_IZR, mult_IZR in H2.
    rewrite <- EA, <- EB in H2, H3. set (R := IZR r) in *.
    assert (S : (2 * (A * B)) * (2 * (A * B)) <= (R * R - A * A - B * B) * (R * R - A * A - B * B)) by nra.
    assert (D : 0 <= R * R - A * A - B * B) by lra.
    assert (P : 0 <= A * B) by (apply Rmult_le_pos; assumption).
    assert (L : 2 * (A * B) <= R * R - A * A - B * B).
    { apply Rnot_lt_le. intros C. nra. }
    assert (Q : (A + B) * (A + B) <= R * R) by nra.
    apply Rnot_lt_le. intros C. nra.
  - intros H. assert (HR : 0 <= IZR r) by lra.
    assert (Q : (A + B) * (A + B) <= IZR r * IZR r) by nra.
    assert (P : 0 <= A * B) by (apply Rmult_le_pos; assumption).
    split; [apply le_IZR; exact HR|]. split.
    + apply le_IZR. rewrite plus_IZR, mult_IZR, <- EA, <- EB. nra.
    + apply le_IZR. rewrite !mult_IZR, !minus_IZR, !mult_IZR, <- EA, <- EB. set (R := IZR r) in *.
      assert (L : 2 * (A * B) <= R * R - A * A - B * B) by nra. nra.
Qed.

(** [d] is the Euclidean distance of (y, x) to the pixel set [S]. *)
Definition distance_to (S : Z -> Z -> Prop) (y x : Z) (d : R) : Prop :=
  (exists y' x', S y' x' /\ d = sqrt (IZR (sqd y x y' x'))) /\
  (forall y' x', S y' x' -> d <= sqrt (IZR (sqd y x y' x'))).

Lemma edt2_distance im (S : Z -> Z -> Prop) y x : (forall y x, zero_px im y x <-> S y x) ->
  (forall d, edt2 im y x = Some d -> distance_to S y x (sqrt (IZR d)) /\ (0 <= d)%Z) /\
  (forall d, distance_to S y x d -> exists n, edt2 im y x = Some n /\ d = sqrt (IZR n) /\ (0 <= n)%Z).
Proof.
  intros HS.
  assert (M : forall d, edt2 im y x = Some d -> distance_to S y x (sqrt (IZR d)) /\ (0 <= d)%Z).
  { intros d E. apply edt2_some in E. destruct E as [(y' & x' & Z' & ->) M]. split; [split|].
    - exists y', x'. split; [apply HS; exact Z'|reflexivity].
    - intros y2 x2 H2. apply sqrt_le_1_alt. apply IZR_le. apply M. apply HS; exact H2.
    - apply sqd_nonneg. }
  split; [exact M|]. intros d D. destruct (edt2 im y x) as [n|] eqn:E.
  - exists n. destruct (M n eq_refl) as [Dn Hn]. split; [reflexivity|]. split; [|exact Hn].
    destruct D as [(y1 & x1 & S1 & E1) D2]. destruct Dn as [(y2 & x2 & S2 & E2) D3].
    specialize (D2 y2 x2 S2). specialize (D3 y1 x1 S1). lra.
  - exfalso. destruct D as [(y1 & x1 & S1 & _) _]. apply (edt2_none im y x E y1 x1). apply HS; exact S1.
Qed.

Lemma bdry_real m ign r y x : binary m -> ignore_for m ign -> inb (ht m) (wd m) y x = true ->
  (px 0%Z (bdry m ign r) y x = 1%Z <->
   exists dm dout, distance_to (member m) y x dm /\ distance_to (outside m ign) y x dout /\
     0 < dm + dout <= IZR r).
Proof.
  intros B G I. pose proof G as (W & _). unfold bdry. rewrite px_tab, I, b2z_1, band_true.
  destruct (edt2_distance (outer_mask m) (member m) y x (fun y x => member_zero_outer m y x W B)) as [O1 O2].
  destruct (edt2_distance (inner_mask m ign) (outside m ign) y x (fun y x => zero_inner m ign y x B G)) as [I1 I2].
  split.
  - intros (a & b & Ea & Eb & S & NZ). destruct (O1 a Ea) as [Da Pa]. destruct (I1 b Eb) as [Db Pb].
    exists (sqrt (IZR a)), (sqrt (IZR b)). split; [exact Da|]. split; [exact Db|].
    apply sum_within_real in S; auto. split; [|exact S].
    pose proof (sqrt_pos (IZR a)). pose proof (sqrt_pos (IZR b)).
    destruct NZ as [N|N].
    + assert (0 < sqrt (IZR a)) by (apply sqrt_lt_R0, IZR_lt; lia). lra.
    + assert (0 < sqrt (IZR b)) by (apply sqrt_lt_R0, IZR_lt; lia). lra.
  - intros (dm & dout & Dm & Do & Hp & Hr). destruct (O2 dm Dm) as (a & Ea & -> & Pa). destruct (I2 dout Do) as (b & Eb & -> & Pb).
    exists a, b. split; [exact Ea|]. split; [exact Eb|]. split; [apply sum_within_real; auto|].
    destruct (Z.eq_dec a 0) as [->|]; [|left; assumption]. destruct (Z.eq_dec b 0) as [->|]; [|right; assumption].
    rewrite sqrt_0 in Hp. lra.
Qed.
