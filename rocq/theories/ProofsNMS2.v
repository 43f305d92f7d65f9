(** Proofs about the suppression step. *)
From Verif Require Export ProofsNMS.
From Coq Require Import Lqa Setoid ZifyBool ZifyNat.
Open Scope Z_scope.

(** ** interpolation *)
Lemma top_le (n : nat) : (2 <= n)%nat -> (999 # 1000 <= inject_Z (Z.of_nat n) - (1001 # 1000))%Q.
Proof. intros H. assert (A : (inject_Z 2 <= inject_Z (Z.of_nat n))%Q) by (rewrite <- Zle_Qle; lia). change (inject_Z 2) with 2%Q in A. lra. Qed.
Lemma clamp_inside (n : nat) v : (2 <= n)%nat ->
  (clamp (Z.of_nat n) v == inside n v)%Q /\ (0 <= clamp (Z.of_nat n) v <= inject_Z (Z.of_nat n) - (1001 # 1000))%Q.
Proof.
  intros H. assert (T := top_le n H). unfold clamp, inside. set (t := (inject_Z (Z.of_nat n) - (1001 # 1000))%Q) in *.
  destruct (qlt v 0) eqn:E1; [apply qlt_spec in E1|apply qlt_false in E1; destruct (qlt t v) eqn:E2; [apply qlt_spec in E2|apply qlt_false in E2]].
  - rewrite Q.min_l, Q.max_l by lra. lra.
  - rewrite Q.min_r, Q.max_r by lra. lra.
  - rewrite Q.min_l, Q.max_r by lra. lra.
Qed.
Lemma trunc_floor v : (0 <= v)%Q -> trunc v = Qfloor v.
Proof. intros H. unfold trunc. destruct (qlt v 0) eqn:E; [apply qlt_spec in E; lra|reflexivity]. Qed.
Lemma floor_range (n : nat) v : (0 <= v)%Q -> (v <= inject_Z (Z.of_nat n) - (1001 # 1000))%Q -> 0 <= Qfloor v <= Z.of_nat n - 2.
Proof.
  intros A B. split.
  - change 0 with (Qfloor 0). apply Qfloor_resp_le. exact A.
  - assert (F := Qfloor_le v). destruct (Z_le_gt_dec (Qfloor v) (Z.of_nat n - 2)) as [L|G]; [exact L|exfalso].
    assert (X : (inject_Z (Z.of_nat n - 1) <= inject_Z (Qfloor v))%Q) by (rewrite <- Zle_Qle; lia).
    unfold Z.sub in X. rewrite inject_Z_plus in X. change (inject_Z (- (1))) with (-1)%Q in X. lra.
Qed.
Lemma mget_ok im y x : inb (ht im) (wd im) y x = true -> mget im y x = Ok (px 0%Q im y x).
Proof. intros H. unfold mget. rewrite H. reflexivity. Qed.

Lemma inside_range (n : nat) v : (2 <= n)%nat -> 0 <= Qfloor (inside n v) <= Z.of_nat n - 2 /\
  (0 <= inside n v - inject_Z (Qfloor (inside n v)) <= 1)%Q.
Proof.
  intros H. destruct (clamp_inside n v H) as [E [A B]]. rewrite E in A, B. split; [apply floor_range; assumption|].
  assert (F := Qfloor_le (inside n v)). assert (G := Qlt_floor (inside n v)). rewrite inject_Z_plus in G. change (inject_Z 1) with 1%Q in G. lra.
Qed.

Lemma interp_ok im x y : (2 <= ht im)%nat -> (2 <= wd im)%nat ->
  exists v, interp im (Z.of_nat (ht im)) (Z.of_nat (wd im)) x y = Ok v /\ (v == bilinear im x y)%Q.
Proof.
  intros Hh Hw. unfold interp, bilinear. destruct (clamp_inside (wd im) x Hw) as [Ex [Ax Bx]], (clamp_inside (ht im) y Hh) as [Ey [Ay By]].
  set (cx := clamp (Z.of_nat (wd im)) x) in *. set (cy := clamp (Z.of_nat (ht im)) y) in *.
  rewrite !trunc_floor by assumption. assert (Fx := floor_range _ _ Ax Bx). assert (Fy := floor_range _ _ Ay By).
  rewrite !mget_ok by (apply inb_spec; lia). cbn [bind]. eexists. split; [reflexivity|].
  rewrite <- (Qfloor_comp _ _ Ex), <- (Qfloor_comp _ _ Ey). rewrite <- Ex, <- Ey. ring.
Qed.

(** Interpolated values lie between bounds of the pixel values. *)
Lemma convex2 (t a b lo hi : Q) : (0 <= t <= 1 -> lo <= a <= hi -> lo <= b <= hi -> lo <= (1 - t) * a + t * b <= hi)%Q.
Proof.
  intros T A B. assert (P1 : (0 <= (1 - t) * (a - lo))%Q) by (apply Qmult_le_0_compat; lra). assert (P2 : (0 <= t * (b - lo))%Q) by (apply Qmult_le_0_compat; lra).
  assert (P3 : (0 <= (1 - t) * (hi - a))%Q) by (apply Qmult_le_0_compat; lra). assert (P4 : (0 <= t * (hi - b))%Q) by (apply Qmult_le_0_compat; lra). lra.
Qed.
Lemma bilinear_bound im lo hi x y : (2 <= ht im)%nat -> (2 <= wd im)%nat ->
  (forall y x, inb (ht im) (wd im) y x = true -> (lo <= px 0 im y x <= hi)%Q) -> (lo <= bilinear im x y <= hi)%Q.
Proof.
  intros Hh Hw B. unfold bilinear. destruct (inside_range (wd im) x Hw) as [Fx Gx], (inside_range (ht im) y Hh) as [Fy Gy].
  apply convex2; [exact Gy| |]; (apply convex2; [exact Gx| |]); apply B, inb_spec; lia.
Qed.

(** ** the suppression loop *)
Lemma in_offsets r d : In d (offsets r) <-> - r <= d <= r /\ d <> 0.
Proof.
  unfold offsets. rewrite filter_In, in_map_iff. split.
  - intros [(k & <- & I) N]. apply in_zseq in I. lia.
  - intros [A N]. split; [exists (d + r); split; [lia|apply in_zseq; lia]|lia].
Qed.
Lemma survives_spec im e x y co si ds : (2 <= ht im)%nat -> (2 <= wd im)%nat ->
  exists k, survives im (Z.of_nat (ht im)) (Z.of_nat (wd im)) e x y co si ds = Ok k /\
    (k = true <-> forall d, In d ds -> (bilinear im (inject_Z x + inject_Z d * co) (inject_Z y + inject_Z d * si) <= e)%Q).
Proof.
  intros Hh Hw. induction ds as [|d ds IH]; cbn [survives].
  - exists true. split; [reflexivity|]. split; [intros _ d []|reflexivity].
  - destruct (interp_ok im (inject_Z x + inject_Z d * co)%Q (inject_Z y + inject_Z d * si)%Q Hh Hw) as (v & -> & Ev). cbn [bind].
    destruct (qlt e v) eqn:L.
    + exists false. split; [reflexivity|]. split; [discriminate|]. intros H. apply qlt_spec in L. specialize (H d (or_introl eq_refl)). rewrite <- Ev in H. lra.
    + apply qlt_false in L. destruct IH as (k & -> & K). exists k. split; [reflexivity|]. rewrite K. split.
      * intros H d' [<-|I]; [rewrite <- Ev; exact L|apply H, I].
      * intros H d' I. apply H. right. exact I.
Qed.
Lemma nms_pixel_spec cosf sinf edge ori r m y x : (2 <= ht edge)%nat -> (2 <= wd edge)%nat ->
  exists v, nms_pixel cosf sinf edge ori r m y x = Ok v /\
    (locally_maximal edge r m (cosf (px 0%Q ori y x)) (sinf (px 0%Q ori y x)) y x -> v = px 0%Q edge y x) /\
    (~ locally_maximal edge r m (cosf (px 0%Q ori y x)) (sinf (px 0%Q ori y x)) y x -> (v == 0)%Q) /\ (v = px 0%Q edge y x \/ v = 0%Q).
Proof.
  intros Hh Hw. unfold nms_pixel. destruct (Qeq_bool (px 0%Q edge y x) 0) eqn:Z.
  - apply Qeq_bool_iff in Z. eexists. split; [reflexivity|]. split; [reflexivity|]. split; [intros _; exact Z|left; reflexivity].
  - destruct (survives_spec edge (px 0 edge y x * m)%Q x y (cosf (px 0%Q ori y x)) (sinf (px 0%Q ori y x)) (offsets r) Hh Hw) as (k & -> & K). cbn [bind].
    assert (K' : k = true <-> locally_maximal edge r m (cosf (px 0%Q ori y x)) (sinf (px 0%Q ori y x)) y x).
    { rewrite K. unfold locally_maximal. split; [intros H d A N; apply H, in_offsets; split; assumption|intros H d I; apply in_offsets in I; apply H; apply I]. }
    destruct k; eexists; (split; [reflexivity|]); (split; [|split]); [reflexivity|intros N; exfalso; apply N, K'; reflexivity|left; reflexivity| |reflexivity|right; reflexivity].
    intros L. apply K' in L. discriminate L.
Qed.

(** ** arrays of results *)
Lemma mapM_ok {A B} (f : A -> res B) g l : (forall a, In a l -> f a = Ok (g a)) -> mapM f l = Ok (map g l).
Proof. induction l as [|a l IH]; intros H; cbn [mapM map]; [reflexivity|]. rewrite (H a) by (left; reflexivity). cbn [bind]. rewrite IH by (intros; apply H; right; assumption). reflexivity. Qed.
Lemma mapM_err {A B} (f : A -> res B) e l : (forall a, In a l -> (exists b, f a = Ok b) \/ f a = Err e) ->
  (exists a, In a l /\ f a = Err e) -> mapM f l = Err e.
Proof.
  induction l as [|a l IH]; intros H (x & I & E); [destruct I|]. cbn [mapM].
  destruct (H a (or_introl eq_refl)) as [(b & Eb)|Eb]; rewrite Eb; [|reflexivity]. cbn [bind].
  destruct I as [->|I]; [congruence|].
  rewrite IH; [reflexivity|intros; apply H; right; assumption|exists x; split; assumption].
Qed.
Lemma tabM_ok {A} h w (f : Z -> Z -> res A) g : (forall y x, inb h w y x = true -> f y x = Ok (g y x)) -> tabM h w f = Ok (tab h w g).
Proof.
  intros H. unfold tabM. rewrite (mapM_ok _ (fun y => map (fun x => g y x) (zseq w))); [reflexivity|].
  intros y Iy. apply mapM_ok. intros x Ix. apply in_zseq in Iy, Ix. apply H, inb_spec. lia.
Qed.
Lemma tabM_choice {A} h w (f : Z -> Z -> res A) (P : Z -> Z -> A -> Prop) (d : A) :
  (forall y x, inb h w y x = true -> exists v, f y x = Ok v /\ P y x v) ->
  exists im, tabM h w f = Ok im /\ wf im /\ ht im = h /\ wd im = w /\ forall y x, inb h w y x = true -> P y x (px d im y x).
Proof.
  intros H. set (g := fun y x => match f y x with Ok v => v | Err _ => d end).
  exists (tab h w g). split; [|split; [apply wf_tab|split; [reflexivity|split; [reflexivity|]]]].
  - apply tabM_ok. intros y x B. destruct (H y x B) as (v & E & _). unfold g. rewrite E. reflexivity.
  - intros y x B. rewrite px_tab, B. destruct (H y x B) as (v & E & K). unfold g. rewrite E. exact K.
Qed.

(** ** the border *)
Definition at_px (y x : Z) (w : Z * Z * Q) : bool := (y =? fst (fst w)) && (x =? snd (fst w)).
Definition qprod (l : list Q) : Q := fold_right Qmult 1%Q l.
Definition factor (y x : Z) (ws : list (Z * Z * Q)) : Q := qprod (map (fun w => if at_px y x w then snd w else 1%Q) ws).

Lemma qprod_app a b : (qprod (a ++ b) == qprod a * qprod b)%Q.
Proof. unfold qprod. induction a as [|x a IH]; cbn [app fold_right]; [ring|]. rewrite IH. ring. Qed.
Lemma factor_app y x a b : (factor y x (a ++ b) == factor y x a * factor y x b)%Q.
Proof. unfold factor. rewrite map_app. apply qprod_app. Qed.

Lemma scale_all_ok h w ws : forall out, ht out = h -> wd out = w -> wf out ->
  (forall y x q, In (y, x, q) ws -> inb h w y x = true) ->
  exists out', scale_all out ws = Ok out' /\ wf out' /\ ht out' = h /\ wd out' = w /\
    forall y x, (px 0 out' y x == px 0 out y x * factor y x ws)%Q.
Proof.
  induction ws as [|[[y0 x0] q] ws IH]; intros out Hh Hw W B; cbn [scale_all].
  - exists out. split; [reflexivity|]. split; [exact W|]. split; [exact Hh|]. split; [exact Hw|]. intros y x. unfold factor. cbn. ring.
  - assert (B0 := B y0 x0 q (or_introl eq_refl)). unfold scale_at. rewrite Hh, Hw, B0. cbn [bind].
    edestruct IH as (out' & E & W' & Hh' & Hw' & P); [| | | |exists out'; split; [exact E|split; [exact W'|split; [exact Hh'|split; [exact Hw'|]]]]]; try reflexivity; [apply wf_tab|intros; eapply B; right; eassumption|].
    intros y x. rewrite P, px_tab. unfold factor at 2. cbn [map qprod fold_right]. fold (qprod (map (fun w => if at_px y x w then snd w else 1%Q) ws)). fold (factor y x ws).
    unfold at_px at 1. cbn [fst snd]. destruct (inb h w y x) eqn:I.
    + destruct ((y =? y0) && (x =? x0)); ring.
    + rewrite (px_out 0%Q out y x) by (rewrite ?Hh, ?Hw; assumption). ring.
Qed.

(** One factor of a product over a range is not 1. *)
Lemma qprod_ones {A} (f : A -> Q) l : (forall a, In a l -> (f a == 1)%Q) -> (qprod (map f l) == 1)%Q.
Proof. unfold qprod. induction l as [|x l IH]; intros H; cbn [map fold_right]; [reflexivity|]. rewrite (H x), IH; [ring|intros; apply H; right; assumption|left; reflexivity]. Qed.
Lemma qprod_single (f : Z -> Q) n k : 0 <= k < Z.of_nat n -> (forall i, 0 <= i < Z.of_nat n -> i <> k -> (f i == 1)%Q) -> (qprod (map f (zseq n)) == f k)%Q.
Proof.
  intros Hk H. induction n as [|n IH]; [lia|]. rewrite zseq_S, map_app, qprod_app. unfold qprod at 2. cbn [map fold_right].
  destruct (Z.eq_dec k (Z.of_nat n)) as [->|N].
  - rewrite qprod_ones; [ring|]. intros i I. apply in_zseq in I. apply H; lia.
  - rewrite IH; [rewrite (H (Z.of_nat n)) by lia; ring|lia|intros; apply H; lia].
Qed.
Lemma factor_flat_map {A} y x (F : A -> list (Z * Z * Q)) l : (factor y x (flat_map F l) == qprod (map (fun a => factor y x (F a)) l))%Q.
Proof. induction l as [|a l IH]; [reflexivity|]. cbn [flat_map map]. rewrite factor_app, IH. reflexivity. Qed.
Lemma factor_pair y x w1 w2 : (factor y x [w1; w2] == (if at_px y x w1 then snd w1 else 1) * (if at_px y x w2 then snd w2 else 1))%Q.
Proof. unfold factor, qprod. cbn [map fold_right]. ring. Qed.

Lemma fade_cases n s k : fade n s k = (if Z.min k (Z.of_nat n - 1 - k) <? s then ratio (Z.min k (Z.of_nat n - 1 - k)) s else 1%Q).
Proof. reflexivity. Qed.

(** The loop over columns multiplies by the fade along the columns (and similarly for rows). *)
Lemma factor_columns h w s y x : 2 * s <= Z.of_nat w -> inb h w y x = true ->
  (factor y x (flat_map (fun x0 => flat_map (fun y0 => [(y0, x0, ratio x0 s); (y0, Z.of_nat w - 1 - x0, ratio x0 s)]%Z) (zseq h)) (zseq (Z.to_nat s)))
   == fade w s x)%Q.
Proof.
  intros Hs B. apply inb_spec in B. rewrite factor_flat_map.
  assert (C : forall x0, (factor y x (flat_map (fun y0 => [(y0, x0, ratio x0 s); (y0, Z.of_nat w - 1 - x0, ratio x0 s)]%Z) (zseq h)) ==
     (if (x =? x0)%Z then ratio x0 s else 1) * (if (x =? Z.of_nat w - 1 - x0)%Z then ratio x0 s else 1))%Q).
  { intros x0. rewrite factor_flat_map. rewrite (qprod_single _ h y); [|lia|].
    - rewrite factor_pair. unfold at_px. cbn [fst snd]. rewrite Z.eqb_refl. reflexivity.
    - intros i Hi N. rewrite factor_pair. unfold at_px. cbn [fst snd]. replace (y =? i) with false by lia. reflexivity. }
  rewrite fade_cases. destruct (Z.ltb_spec (Z.min x (Z.of_nat w - 1 - x)) s) as [L|L].
  - set (b := Z.min x (Z.of_nat w - 1 - x)) in *. rewrite (qprod_single _ _ b); [|lia|].
    + rewrite C. destruct (Z.eqb_spec x b) as [E1|E1], (Z.eqb_spec x (Z.of_nat w - 1 - b)) as [E2|E2]; try lia; ring.
    + intros i Hi N. rewrite C. replace (x =? i) with false by lia. replace (x =? Z.of_nat w - 1 - i) with false by lia. ring.
  - apply qprod_ones. intros i I. apply in_zseq in I. rewrite C. replace (x =? i) with false by lia. replace (x =? Z.of_nat w - 1 - i) with false by lia. ring.
Qed.
Lemma factor_rows h w s y x : 2 * s <= Z.of_nat h -> inb h w y x = true ->
  (factor y x (flat_map (fun x0 => flat_map (fun y0 => [(y0, x0, ratio y0 s); (Z.of_nat h - 1 - y0, x0, ratio y0 s)]%Z) (zseq (Z.to_nat s))) (zseq w))
   == fade h s y)%Q.
Proof.
  intros Hs B. apply inb_spec in B. rewrite factor_flat_map.
  rewrite (qprod_single _ _ x); [|lia|].
  2:{ intros i Hi N. rewrite factor_flat_map. apply qprod_ones. intros a _. rewrite factor_pair. unfold at_px. cbn [fst snd]. replace (x =? i) with false by lia. rewrite !andb_false_r. ring. }
  rewrite factor_flat_map.
  assert (C : forall y0, (factor y x [(y0, x, ratio y0 s); (Z.of_nat h - 1 - y0, x, ratio y0 s)]%Z ==
     (if (y =? y0)%Z then ratio y0 s else 1) * (if (y =? Z.of_nat h - 1 - y0)%Z then ratio y0 s else 1))%Q).
  { intros y0. rewrite factor_pair. unfold at_px. cbn [fst snd]. rewrite Z.eqb_refl, !andb_true_r. reflexivity. }
  rewrite fade_cases. destruct (Z.ltb_spec (Z.min y (Z.of_nat h - 1 - y)) s) as [L|L].
  - set (b := Z.min y (Z.of_nat h - 1 - y)) in *. rewrite (qprod_single _ _ b); [|lia|].
    + rewrite C. destruct (Z.eqb_spec y b) as [E1|E1], (Z.eqb_spec y (Z.of_nat h - 1 - b)) as [E2|E2]; try lia; ring.
    + intros i Hi N. rewrite C. replace (y =? i) with false by lia. replace (y =? Z.of_nat h - 1 - i) with false by lia. ring.
  - apply qprod_ones. intros i I. apply in_zseq in I. rewrite C. replace (y =? i) with false by lia. replace (y =? Z.of_nat h - 1 - i) with false by lia. ring.
Qed.

Lemma border_s h w s : (let s1 := if Z.of_nat w / 2 <? s then Z.of_nat w / 2 else s in if Z.of_nat h / 2 <? s1 then Z.of_nat h / 2 else s1) = border_of h w s.
Proof. unfold border_of. cbn zeta. destruct (Z.ltb_spec (Z.of_nat w / 2) s); [destruct (Z.ltb_spec (Z.of_nat h / 2) (Z.of_nat w / 2))|destruct (Z.ltb_spec (Z.of_nat h / 2) s)]; lia. Qed.
Lemma border_half h w s : 2 * border_of h w s <= Z.of_nat h /\ 2 * border_of h w s <= Z.of_nat w.
Proof.
  unfold border_of. assert (A := Z.mul_div_le (Z.of_nat h) 2 ltac:(lia)). assert (B := Z.mul_div_le (Z.of_nat w) 2 ltac:(lia)). lia.
Qed.
Lemma border_factor h w s y x : inb h w y x = true ->
  (factor y x (border_writes h w s) == fade w (border_of h w s) x * fade h (border_of h w s) y)%Q.
Proof.
  intros B. unfold border_writes. rewrite border_s. destruct (border_half h w s) as [A1 A2].
  rewrite factor_app, (factor_columns h w), (factor_rows h w) by assumption. reflexivity.
Qed.
Lemma border_in_bounds h w s y x q : In (y, x, q) (border_writes h w s) -> inb h w y x = true.
Proof.
  unfold border_writes. rewrite border_s. destruct (border_half h w s) as [A1 A2]. intros I. apply in_app_iff in I. rewrite inb_spec.
  destruct I as [I|I]; apply in_flat_map in I; destruct I as (a & Ia & I); apply in_flat_map in I; destruct I as (b & Ib & I);
    apply in_zseq in Ia; apply in_zseq in Ib; destruct I as [E|[E|[]]]; injection E as <- <- <-; lia.
Qed.

Lemma fade_range n s k : 0 <= k < Z.of_nat n -> (0 <= fade n s k <= 1)%Q.
Proof.
  intros H. rewrite fade_cases. destruct (Z.ltb_spec (Z.min k (Z.of_nat n - 1 - k)) s) as [L|L]; [|lra].
  unfold ratio. set (b := Z.min k (Z.of_nat n - 1 - k)) in *. assert (B : 0 <= b) by lia.
  assert (S0 : (0 < inject_Z s)%Q) by (change 0%Q with (inject_Z 0); rewrite <- Zlt_Qlt; lia).
  split; [apply Qle_shift_div_l; [exact S0|]; rewrite Qmult_0_l; change 0%Q with (inject_Z 0); rewrite <- Zle_Qle; lia|].
  apply Qle_shift_div_r; [exact S0|]. rewrite Qmult_1_l, <- Zle_Qle. lia.
Qed.

Lemma nms_ok cosf sinf edge ori r s m : wf edge -> same_shape edge ori -> (2 <= ht edge)%nat -> (2 <= wd edge)%nat ->
  exists kept out, nms cosf sinf edge ori r s m = Ok out /\ wf out /\ same_shape edge out /\
  (forall y x, inb (ht edge) (wd edge) y x = true ->
     (locally_maximal edge r m (cosf (px 0%Q ori y x)) (sinf (px 0%Q ori y x)) y x -> kept y x = px 0%Q edge y x) /\
     (~ locally_maximal edge r m (cosf (px 0%Q ori y x)) (sinf (px 0%Q ori y x)) y x -> (kept y x == 0)%Q) /\
     (kept y x = px 0%Q edge y x \/ kept y x = 0%Q) /\
     (px 0 out y x == kept y x * fade (wd edge) (border_of (ht edge) (wd edge) s) x * fade (ht edge) (border_of (ht edge) (wd edge) s) y)%Q).
Proof.
  intros W [Sh Sw] Hh Hw. unfold nms, benms. rewrite <- Sh, <- Sw, !Nat.eqb_refl. cbn [andb negb].
  destruct (tabM_choice (ht edge) (wd edge) (nms_pixel cosf sinf edge ori r m)
    (fun y x v => (locally_maximal edge r m (cosf (px 0%Q ori y x)) (sinf (px 0%Q ori y x)) y x -> v = px 0%Q edge y x) /\
      (~ locally_maximal edge r m (cosf (px 0%Q ori y x)) (sinf (px 0%Q ori y x)) y x -> (v == 0)%Q) /\ (v = px 0%Q edge y x \/ v = 0%Q)) 0%Q) as (im & E & Wi & H1 & H2 & P).
  { intros y x _. apply nms_pixel_spec; assumption. }
  rewrite E. cbn [bind]. destruct (scale_all_ok (ht edge) (wd edge) (border_writes (ht edge) (wd edge) s) im H1 H2 Wi) as (out & E' & Wo & Ho1 & Ho2 & F).
  { intros y x q I. exact (border_in_bounds _ _ _ _ _ _ I). }
  exists (fun y x => px 0%Q im y x), out. split; [exact E'|]. split; [exact Wo|]. split; [split; symmetry; assumption|].
  intros y x B. destruct (P y x B) as (P1 & P2 & P3). split; [exact P1|]. split; [exact P2|]. split; [exact P3|].
  rewrite F, border_factor by exact B. ring.
Qed.
