(** Proofs about the evaluation in doubles. *)
From Verif Require Import ProofsEval2 SpecEvalF ModelEvalF ProofsFloat ProofsCSA64 ProofsMatchF ProofsMatchF2 ProofsMatchF3 SpecMatchF PropertiesMatchF PropertiesMatchF2 PropertiesThreshF.
From Coq Require Import Lia Lra Psatz Qreals ZifyBool ZifyNat.
Open Scope Z_scope.
Open Scope list_scope.

(** ** Computations that do not fail *)
Section Safe.
Variable small : Prop.
Lemma safe_ret {A} (a : A) s (post : A -> Prop) : raw_values s -> post a -> evaluates small (fun _ _ => ret a) s post.
Proof.
  intros V H. split.
  - intros fuel pfuel. exists (Some (a, s)). split; [reflexivity|]. intros ? ? E. injection E as <- <-. split; assumption.
  - intros _. exists 0%nat, 0%nat, a, s. reflexivity.
Qed.
Lemma safe_then {A B} (m : nat -> nat -> run A) (f : nat -> nat -> A -> run B) s (P1 : A -> Prop) (P2 : B -> Prop) :
  evaluates small m s P1 -> (forall a s', raw_values s' -> P1 a -> evaluates small (fun F P => f F P a) s' P2) ->
  evaluates small (fun F P => then_ (m F P) (f F P)) s P2.
Proof.
  intros [S T] K. split.
  - intros fuel pfuel. destruct (S fuel pfuel) as (r & E & H). unfold then_. rewrite E. cbn [bind]. destruct r as [[b sb]|].
    + destruct (H _ _ eq_refl) as [V Q]. exact (proj1 (K b sb V Q) fuel pfuel).
    + exists None. split; [reflexivity|]. intros ? ? E0. discriminate.
  - intros Sm. destruct (T Sm) as (F1 & P1' & a & s1 & E1). destruct (S F1 P1') as (r & E & H). rewrite E1 in E by apply le_n. injection E as <-. destruct (H _ _ eq_refl) as [V Q].
    destruct (proj2 (K a s1 V Q) Sm) as (F2 & P2' & b & s2 & E2). exists (max F1 F2), (max P1' P2'), b, s2. intros fuel pfuel Hf Hp. unfold then_. rewrite E1 by lia. cbn [bind]. apply E2; lia.
Qed.
Lemma safe_weaken {A} (m : nat -> nat -> run A) s (P1 P2 : A -> Prop) : evaluates small m s P1 -> (forall a, P1 a -> P2 a) -> evaluates small m s P2.
Proof.
  intros [S T] K. split; [|exact T]. intros fuel pfuel. destruct (S fuel pfuel) as (r & E & H). exists r. split; [exact E|].
  intros a s' Er. destruct (H a s' Er) as [V Q]. split; [exact V|apply K, Q].
Qed.
Lemma safe_ext {A} (m m' : nat -> nat -> run A) s post : (forall F P, m F P s = m' F P s) -> evaluates small m s post -> evaluates small m' s post.
Proof.
  intros E [S T]. split; [intros fuel pfuel; rewrite <- E; apply S|]. intros Sm. destruct (T Sm) as (F & P & a & s' & E1). exists F, P, a, s'. intros fuel pfuel Hf Hp. rewrite <- E. apply E1; assumption.
Qed.
Lemma safe_forM {A A' B} (f : nat -> nat -> A' -> run B) (X : A -> A' -> Prop) (R : A -> B -> Prop) l l' : Forall2 X l l' -> forall s, raw_values s ->
  (forall a a' s', X a a' -> raw_values s' -> evaluates small (fun F P => f F P a') s' (R a)) ->
  evaluates small (fun F P => forM (f F P) l') s (fun bs => Forall2 R l bs).
Proof.
  induction 1 as [|a a' l l' Xa Xl IH]; intros s V H.
  - apply safe_ret; [exact V|constructor].
  - cbn [forM]. apply (safe_then (fun F P => f F P a') _ s (R a)); [apply H; [exact Xa|exact V]|].
    intros b s' V' Rb. apply (safe_then (fun F P => forM (f F P) l') _ s' (fun bs => Forall2 R l bs)).
    + apply IH; [exact V'|]. intros a1 a1' s'' I. apply H. exact I.
    + intros bs s'' V'' Rbs. apply safe_ret; [exact V''|constructor; assumption].
Qed.
End Safe.

(** ** The random stream *)
Lemma tl_raw s : raw_values s -> raw_values (s_tl s). Proof. intros V n. apply V. Qed.
Lemma i32_raw a b s x s' : i32 a b s = (x, s') -> raw_values s -> raw_values s'. Proof. intros E V. injection E as _ <-. apply tl_raw, V. Qed.
Lemma large_raw left : forall i k j s l s', large_loop left i k j s = (l, s') -> raw_values s -> raw_values s'.
Proof.
  induction left as [|left IH]; intros i k j s l s' E V; [injection E as _ <-; exact V|]. cbn [large_loop] in E. destruct (_ <? _).
  - destruct (large_loop left (i + 1) k (j + 1) (s_tl s)) as [l1 s1] eqn:E1. injection E as _ <-. exact (IH _ _ _ _ _ _ E1 (tl_raw _ V)).
  - exact (IH _ _ _ _ _ _ E (tl_raw _ V)).
Qed.
Lemma split_raw todo : forall i n leftN leftK s x s', split_k todo i n leftN leftK s = (x, s') -> raw_values s -> raw_values s'.
Proof.
  induction todo as [|todo IH]; intros i n leftN leftK s x s' E V; [injection E as _ <-; exact V|]. cbn [split_k i32] in E. exact (IH _ _ _ _ _ _ _ E (tl_raw _ V)).
Qed.
Lemma small_raw fuel : forall k n s l s', kofn_small fuel k n s = Ok (l, s') -> raw_values s -> raw_values s'.
Proof.
  induction fuel as [|fuel IH]; intros k n s l s' E V; [discriminate|]. cbn [kofn_small] in E. destruct (negb _); [discriminate|]. destruct (k =? 1).
  - unfold i32 in E. injection E as _ <-. apply tl_raw, V.
  - destruct (split_k (Z.to_nat k) 0 n (n / 2) 0 s) as [lk s1] eqn:E1. assert (V1 := split_raw _ _ _ _ _ _ _ _ E1 V).
    destruct (if 0 <? lk then kofn_small fuel lk (n / 2) s1 else Ok ([], s1)) as [[l2 s2]|] eqn:E2; [|discriminate]. cbn [bind] in E.
    assert (V2 : raw_values s2) by (destruct (0 <? lk); [exact (IH _ _ _ _ _ E2 V1)|injection E2 as _ <-; exact V1]).
    destruct (if 0 <? k - lk then kofn_small fuel (k - lk) (n - n / 2) s2 else Ok ([], s2)) as [[l3 s3]|] eqn:E3; [|discriminate]. cbn [bind] in E. injection E as _ <-.
    destruct (0 <? k - lk); [exact (IH _ _ _ _ _ E3 V2)|injection E3 as _ <-; exact V2].
Qed.
Lemma kofn_raw k n s l s' : kofn k n s = Ok (l, s') -> raw_values s -> raw_values s'.
Proof.
  unfold kofn. intros E V. destruct (negb _); [discriminate|]. destruct (k =? 0); [injection E as _ <-; exact V|]. destruct (k ^ k <? _); [exact (small_raw _ _ _ _ _ _ E V)|].
  unfold kofn_large in E. destruct (negb _); [discriminate|]. destruct (large_loop _ _ _ _ _) as [l1 s1] eqn:E1. destruct (_ =? k); [|discriminate]. injection E as _ <-. exact (large_raw _ _ _ _ _ _ _ E1 V).
Qed.
Lemma loop_raw (f : nat -> stream -> res (list garc * stream)) : (forall i s l s', f i s = Ok (l, s') -> raw_values s -> raw_values s') ->
  forall is s l s', ModelMatch.sample_loop is f s = Ok (l, s') -> raw_values s -> raw_values s'.
Proof.
  intros Hf. induction is as [|i is IH]; intros s l s' E V; [injection E as _ <-; exact V|]. cbn [ModelMatch.sample_loop] in E.
  destruct (f i s) as [[l1 s1]|] eqn:E1; [|discriminate]. cbn [bind] in E. destruct (ModelMatch.sample_loop is f s1) as [[l2 s2]|] eqn:E2; [|discriminate]. cbn [bind] in E. injection E as _ <-.
  exact (IH _ _ _ E2 (Hf _ _ _ _ E1 V)).
Qed.
Lemma fbuild_raw h w b1 b2 md oc s g s' : fbuild_graph h w b1 b2 md oc s = Ok (g, s') -> raw_values s -> raw_values s'.
Proof.
  unfold fbuild_graph, check. intros E V. destruct (_ && _); [|discriminate].
  assert (H : forall k n (X : list Z -> stream -> res (list garc * stream)), (forall l s l' s', X l s = Ok (l', s') -> s' = s) -> forall s l s', bind (kofn k n s) (fun '(l, s) => X l s) = Ok (l, s') -> raw_values s -> raw_values s').
  { intros k n X HX s0 l s1 E0 V0. destruct (kofn k n s0) as [[l0 s2]|] eqn:Ek; [|discriminate]. cbn [bind] in E0. rewrite (HX _ _ _ _ E0). exact (kofn_raw _ _ _ _ _ Ek V0). }
  destruct (ModelMatch.sample_loop _ (foutliers1 _ _ _ _ _ _) s) as [[o1 s1]|] eqn:E1; [|discriminate]. cbn [bind] in E.
  assert (V1 : raw_values s1).
  { refine (loop_raw _ _ _ _ _ _ E1 V). intros i s0 l s0'. unfold foutliers1. apply H. intros l0 s2 l' s3. cbv zeta. unfold check. destruct (forallb _ _); [|discriminate]. intros X. injection X as _ <-. reflexivity. }
  destruct (ModelMatch.sample_loop _ (foutliers2 _ _ _ _ _ _) s1) as [[o2 s2]|] eqn:E2; [|discriminate]. cbn [bind] in E.
  assert (V2 : raw_values s2).
  { refine (loop_raw _ _ _ _ _ _ E2 V1). intros i s0 l s0'. unfold foutliers2. apply H. intros l0 s3 l' s4. cbv zeta. unfold check. destruct (forallb _ _); [|discriminate]. intros X. injection X as _ <-. reflexivity. }
  destruct (ModelMatch.sample_loop _ (foutliers3 _ _ _ _ _ _) s2) as [[o3 s3]|] eqn:E3; [|discriminate]. cbn [bind] in E.
  assert (V3 : raw_values s3).
  { refine (loop_raw _ _ _ _ _ _ E3 V2). intros i s0 l s0'. unfold foutliers3. apply H. intros l0 s4 l' s5. cbv beta zeta. unfold check. intros X. clear - X. destruct (forallb _ _); [|discriminate X]. injection X as _ <-. reflexivity. }
  cbv zeta in E. destruct (_ && _); [|discriminate]. injection E as _ <-. exact V3.
Qed.
Lemma fcorrespond_raw img0 img1 D O fuel pfuel s out oc s' : fcorrespond_pixels img0 img1 D O fuel pfuel s = Ok (Some (out, oc, s')) -> raw_values s -> raw_values s'.
Proof.
  unfold fcorrespond_pixels. intros E V. destruct (negb _); [discriminate|]. destruct (Rleb D 0); [discriminate|]. destruct (Rleb O 1); [discriminate|]. cbv zeta in E.
  destruct (fmatch_edge_maps _ _ _ _ _ _ _ _ _) as [[[o s1]|]|] eqn:Em; try discriminate. cbn [bind] in E. injection E as _ _ <-. unfold fmatch_edge_maps, check in Em. destruct (_ && _); [|discriminate].
  destruct (Z.eqb _ 0); [injection Em as _ <-; exact V|]. destruct (fbuild_graph _ _ _ _ _ _ s) as [[g s2]|] eqn:Eg; [|discriminate]. cbn [bind] in Em.
  destruct (csa_solve64 _ _ _ _) as [[l|]|]; try discriminate. cbn [bind] in Em. destruct (_ && _); [|discriminate]. injection Em as _ <-. exact (fbuild_raw _ _ _ _ _ _ _ _ _ Eg V).
Qed.

(** ** The tolerance *)
Section Tol.
Variables (k N : positive) (h w : nat).
Hypothesis Us : usable k N h w.
Let x := (IZR (Zpos k) / IZR (Zpos N))%R.
Let D := rnd x.
Lemma tol_x : (bpow radix2 (-64) <= x <= 1)%R.
Proof using k N h w Us.
  destruct Us as (_ & _ & _ & _ & [K1 K2] & _). unfold x. assert (Np : (0 < IZR (Zpos N))%R) by (apply IZR_lt; lia). assert (k1 : (1 <= IZR (Zpos k))%R) by (apply IZR_le; lia). split.
  - apply Rle_trans with (/ IZR (Zpos N))%R; [|unfold Rdiv; rewrite <- (Rmult_1_l (/ _)) at 1; apply Rmult_le_compat_r; [apply Rlt_le, Rinv_0_lt_compat, Np|exact k1]].
    change (bpow radix2 (-64)) with (/ IZR (2 ^ 64))%R. apply Rinv_le_contravar; [exact Np|apply IZR_le; exact K2].
  - apply (Rmult_le_reg_r (IZR (Zpos N))); [exact Np|]. unfold Rdiv. rewrite Rmult_assoc, Rinv_l, Rmult_1_r, Rmult_1_l by lra. apply IZR_le. exact K1.
Qed.
Lemma tol_D : (bpow radix2 (-64) <= D <= 1)%R.
Proof using k N h w Us. assert (X := tol_x). unfold D. split; [apply rnd_ge_fmt; [apply fmt_bpow; lia|apply X]|apply rnd_le_1, X]. Qed.
Lemma tol_sane b : ht b = h -> wd b = w -> sane b D 100.
Proof using k N h w Us.
  intros Eh Ew. assert (X := tol_D). destruct Us as (A & B & C & C' & _). unfold sane. rewrite Eh, Ew. split; [lia|]. split; [lia|]. split; [split|].
  - apply Rle_trans with (bpow radix2 (-64)); [apply bpow_le; lia|apply X].
  - lra.
  - apply Rle_trans with (1 + bpow radix2 1)%R; [apply Rplus_le_compat_l, bpow_le; lia|simpl; lra].
Qed.
Lemma tol_count b : wf b -> ht b = h -> wd b = w -> Z.of_nat (count_true b) <= 2 ^ 28.
Proof using k N h w Us.
  intros W Eh Ew. destruct Us as (A & B & C & C' & _). assert (L := count_true_le b (tab (ht b) (wd b) (fun _ _ => true)) W (wf_tab _ _ _) (conj eq_refl eq_refl)).
  assert (F : (count_true (tab (ht b) (wd b) (fun _ _ => true)) <= ht b * wd b)%nat).
  { clear. unfold count_true, tab. cbn [rows]. apply Nat.le_trans with (List.length (List.concat (map (fun y => map (fun _ : Z => true) (zseq (wd b))) (zseq (ht b))))).
    - generalize (List.concat (map (fun _ : Z => map (fun _ : Z => true) (zseq (wd b))) (zseq (ht b)))). induction l as [|c l IH]; [apply le_n|]. cbn [filter]. destruct c; cbn [List.length]; lia.
    - assert (E : forall l : list Z, List.length (List.concat (map (fun _ : Z => map (fun _ : Z => true) (zseq (wd b))) l)) = (List.length l * wd b)%nat).
      { induction l as [|c l IH]; [reflexivity|]. cbn [map List.concat List.length]. rewrite app_length, IH, map_length. unfold zseq. rewrite map_length, seq_length. lia. }
      rewrite E. unfold zseq. rewrite map_length, seq_length. apply le_n. }
  assert (G : (count_true b <= ht b * wd b)%nat).
  { eapply Nat.le_trans; [apply L|exact F]. intros y z H. rewrite px_tab. destruct (inb _ _ y z) eqn:I; [reflexivity|]. rewrite px_out in H by assumption. discriminate. }
  rewrite Eh, Ew in G. clear - G A B C C'. nia.
Qed.
Lemma tol_few b K : ht b = h -> wd b = w -> few k N h w K -> exists W, ((1 + bpow radix2 (-50)) * (100 * (100 * tolerance D b)) <= IZR W)%R /\ Z.of_nat K ^ 2 * (100 * W) <= 2 ^ 41 /\ 0 <= W.
Proof using k N h w Us.
  intros Eh Ew (W & W1 & Wd & Sz). exists W. split; [|split; [exact Sz|lia]]. assert (X := tol_x). assert (U := u_pos). assert (U2 := u_small). destruct Us as (A & B & C & C' & _).
  unfold tolerance. rewrite Eh, Ew. fold (diag2 h w) in Wd. change (Z.of_nat h * Z.of_nat h + Z.of_nat w * Z.of_nat w) with (diag2 h w). set (z := diag2 h w) in *.
  assert (Hz : 0 <= z <= 2 ^ 29) by (unfold z, diag2; nia).
  assert (S0 : (0 <= sqrt (IZR z))%R) by apply sqrt_pos.
  assert (S1 : (sqrt (IZR z) <= 32768)%R) by (rewrite <- (sqrt_square 32768) by lra; apply sqrt_le_1_alt; rewrite <- mult_IZR; apply IZR_le; lia).
  assert (Sq : (sqrt (IZR z) * sqrt (IZR z) = IZR z)%R) by (apply sqrt_sqrt, IZR_le; lia).
  assert (RD : rel (9 / 8) D x) by (unfold D; replace (9 / 8)%R with (0 + 9 / 8)%R by lra; apply rel_rnd; [lra| |apply rel_refl]; eapply Rle_trans; [|apply X]; change tiny with (bpow radix2 (-200)); replace 2%R with (bpow radix2 1) by (simpl; lra); rewrite <- bpow_plus; apply bpow_le; lia).
  assert (xp : (0 < x)%R) by (eapply Rlt_le_trans; [apply bpow_gt_0|apply X]).
  assert (Np : (0 < IZR (Zpos N))%R) by (apply IZR_lt; lia).
  assert (Sd : (10000 * (x * sqrt (IZR z)) <= IZR (W - 1))%R).
  { apply Rsqr_incr_0_var; [|apply IZR_le; lia]. unfold Rsqr. replace (10000 * (x * sqrt (IZR z)) * (10000 * (x * sqrt (IZR z))))%R with (100000000 * (x * x * (sqrt (IZR z) * sqrt (IZR z))))%R by ring. rewrite Sq.
    apply (Rmult_le_reg_r (IZR (Zpos N) * IZR (Zpos N))); [apply Rmult_lt_0_compat; exact Np|]. replace (100000000 * (x * x * IZR z) * (IZR (Zpos N) * IZR (Zpos N)))%R with (IZR (10 ^ 8 * (Zpos k * Zpos k * z))) by (rewrite !mult_IZR; change (IZR (10 ^ 8)) with 100000000%R; unfold x; field; lra).
    apply IZR_le in Wd. rewrite Z.pow_2_r in Wd. rewrite (mult_IZR ((W - 1) * (W - 1))), !(mult_IZR (W - 1)), (mult_IZR (Zpos N)) in Wd. exact Wd. }
  assert (T1 : (x * sqrt (IZR z) <= 32768)%R) by (rewrite <- (Rmult_1_l 32768); apply Rmult_le_compat; lra).
  destruct RD as [_ RD]. rewrite minus_IZR in Sd. rewrite bpow50. assert (Y : (D * sqrt (IZR z) <= (1 + 9 / 8 * u) * (x * sqrt (IZR z)))%R) by (rewrite <- Rmult_assoc; apply Rmult_le_compat_r; [exact S0|exact RD]).
  assert (T0 : (0 <= x * sqrt (IZR z))%R) by (apply Rmult_le_pos; lra). set (T' := (x * sqrt (IZR z))%R) in *. set (T'' := (D * sqrt (IZR z))%R) in *. clearbody T' T''. clear - Sd T1 T0 Y U.
  apply Rle_trans with ((1 + 8 * u) * (10000 * ((1 + 9 / 8 * u) * T')))%R; [replace (100 * (100 * T''))%R with (10000 * T'')%R by ring; apply Rmult_le_compat_l; [lra|]; lra|].
  assert (E : ((1 + 8 * u) * (1 + 9 / 8 * u) <= 1 + 10 * u)%R) by (assert (u < / 1000)%R by (unfold u; lra); nra).
  assert (F : ((1 + 8 * u) * (1 + 9 / 8 * u) * T' <= (1 + 10 * u) * T')%R) by (apply Rmult_le_compat_r; assumption).
  assert (u * T' <= u * 32768)%R by (apply Rmult_le_compat_l; lra). assert (u * 32768 <= / 1000000)%R by (unfold u; lra). lra.
Qed.
(** [distmap > buffer] is the comparison of the exact numbers. *)
Let T := (x * sqrt (IZR (diag2 h w)))%R.
Lemma tol_buffer d : 0 <= d -> Rltb (fmul (fsqrt (IZR (diag2 h w))) D) (fsqrt (IZR d)) = qlt ((Zpos k # N) * (Zpos k # N) * inject_Z (diag2 h w)) (inject_Z d).
Proof using k N h w Us.
  intros Hd. assert (U := u_pos). assert (U2 := u_small). assert (X := tol_x). assert (XD := tol_D). destruct Us as (A & B & C & C' & KN & Kz & Nd). fold (diag2 h w) in Kz, Nd.
  assert (d1 : 1 <= diag2 h w) by (unfold diag2; nia). assert (xp : (0 < x)%R) by (eapply Rlt_le_trans; [apply bpow_gt_0|apply X]).
  assert (Dp : (1 <= sqrt (IZR (diag2 h w)))%R) by (rewrite <- sqrt_1; apply sqrt_le_1_alt, IZR_le; exact d1).
  assert (xt : (tiny <= x)%R) by (eapply Rle_trans; [|apply X]; apply bpow_le; lia).
  assert (RD : rel (9 / 8) D x) by (unfold D; replace (9 / 8)%R with (0 + 9 / 8)%R by lra; apply rel_rnd; [lra| |apply rel_refl]; eapply Rle_trans; [|apply X]; change tiny with (bpow radix2 (-200)); replace 2%R with (bpow radix2 1) by (simpl; lra); rewrite <- bpow_plus; apply bpow_le; lia).
  assert (RM : rel 5 (fmul (fsqrt (IZR (diag2 h w))) D) T).
  { unfold fmul, T. rewrite (Rmult_comm x). apply (rel_weaken (9 / 8 + 9 / 8 + / 8 + 9 / 8)); [apply Rmult_le_pos; lra|lra|]. apply rel_rnd; [lra| |apply rel_mul; [lra|lra|lra|exact xp|apply fsqrt_rel, d1|exact RD]].
    apply Rle_trans with (1 * x)%R; [|apply Rmult_le_compat_r; lra]. rewrite Rmult_1_l. eapply Rle_trans; [|apply X]. change tiny with (bpow radix2 (-200)); replace 2%R with (bpow radix2 1) by (simpl; lra); rewrite <- bpow_plus; apply bpow_le; lia. }
  assert (Tp : (0 < T)%R) by (unfold T; apply Rmult_lt_0_compat; lra).
  set (q := ((Zpos k # N) * (Zpos k # N) * inject_Z (diag2 h w))%Q).
  assert (Eq : Q2R q = (T * T)%R).
  { unfold q, T. rewrite !Q2R_mult, Q2R_IZR. replace (Q2R (Zpos k # N)) with x by reflexivity. replace (x * sqrt (IZR (diag2 h w)) * (x * sqrt (IZR (diag2 h w))))%R with (x * x * (sqrt (IZR (diag2 h w)) * sqrt (IZR (diag2 h w))))%R by ring. rewrite sqrt_sqrt by (apply IZR_le; lia). reflexivity. }
  (* the relative gap *)
  assert (Gap : (16 * u * (T * T) <= Rabs (IZR d - T * T))%R).
  { rewrite <- Eq. set (z := diag2 h w) in *. assert (Np : (0 < IZR (Zpos N))%R) by (apply IZR_lt; lia).
    assert (E1 : (Q2R q * (IZR (Zpos N) * IZR (Zpos N)) = IZR (Zpos k * Zpos k * z))%R).
    { unfold q. rewrite !Q2R_mult, Q2R_IZR. replace (Q2R (Zpos k # N)) with x by reflexivity. rewrite !mult_IZR. unfold x. field. lra. }
    assert (E2 : ((IZR d - Q2R q) * (IZR (Zpos N) * IZR (Zpos N)) = IZR (d * (Zpos N * Zpos N) - Zpos k * Zpos k * z))%R) by (rewrite minus_IZR, <- E1, !mult_IZR; ring).
    assert (NN : (0 < IZR (Zpos N) * IZR (Zpos N))%R) by (apply Rmult_lt_0_compat; exact Np).
    apply (Rmult_le_reg_r (IZR (Zpos N) * IZR (Zpos N))); [exact NN|]. rewrite <- (Rabs_pos_eq (IZR (Zpos N) * IZR (Zpos N))) at 2 by lra. rewrite <- Rabs_mult, E2, Rmult_assoc, E1.
    apply Rle_trans with 1%R.
    - apply IZR_le in Kz. apply Rle_trans with (16 * u * IZR (2 ^ 49))%R; [apply Rmult_le_compat_l; [lra|exact Kz]|]. unfold u. lra.
    - rewrite <- abs_IZR. apply IZR_le. specialize (Nd d). lia. }
  assert (S0 : (0 <= sqrt (IZR d))%R) by apply sqrt_pos.
  assert (Sd : (sqrt (IZR d) * sqrt (IZR d) = IZR d)%R) by (apply sqrt_sqrt, IZR_le; exact Hd).
  assert (Rd : rel (9 / 8) (fsqrt (IZR d)) (sqrt (IZR d))).
  { destruct (Z.eq_dec d 0) as [->|]; [|apply fsqrt_rel; lia]. unfold fsqrt. rewrite sqrt_0, rnd_0. unfold rel. lra. }
  set (sd := sqrt (IZR d)) in *. set (a := fmul _ D) in *. set (b := fsqrt (IZR d)) in *. clearbody a b sd. rewrite <- Sd in Gap.
  assert (Q : qlt q (inject_Z d) = true <-> (T * T < sd * sd)%R).
  { rewrite qlt_spec. rewrite <- Eq, Sd, <- Q2R_IZR. split; [apply Qlt_Rlt|apply Rlt_Qlt]. }
  destruct RM as [M1 M2]. destruct Rd as [D1 D2]. clear - U U2 Tp S0 Gap M1 M2 D1 D2 Q.
  assert (W : (u < / 1000000)%R) by (unfold u; lra).
  destruct (Rlt_le_dec (T * T) (sd * sd)) as [L|L].
  - rewrite (proj2 Q L). apply Rltb_true. rewrite Rabs_pos_eq in Gap by lra.
    assert (G : ((1 + 7 * u) * T <= sd)%R). { apply Rnot_lt_le. intros Lt. assert (sd * sd <= (1 + 7 * u) * T * ((1 + 7 * u) * T))%R by (apply Rmult_le_compat; lra). assert ((1 + 7 * u) * (1 + 7 * u) < 1 + 16 * u)%R by nra. assert (0 < T * T)%R by nra. nra. }
    assert ((1 + 5 * u) < (1 - 9 / 8 * u) * (1 + 7 * u))%R by nra. nra.
  - destruct (qlt q (inject_Z d)); [assert (E := proj1 Q eq_refl); lra|]. apply Rltb_false. rewrite Rabs_left1 in Gap by lra.
    assert (G : (sd <= (1 - 8 * u) * T)%R). { apply Rnot_lt_le. intros Lt. assert ((1 - 8 * u) * T * ((1 - 8 * u) * T) <= sd * sd)%R by (apply Rmult_le_compat; nra). assert (0 < T * T)%R by nra. assert (1 - 16 * u < (1 - 8 * u) * (1 - 8 * u))%R by nra. nra. }
    assert ((1 + 9 / 8 * u) * (1 - 8 * u) <= 1 - 5 * u)%R by nra. nra.
Qed.
End Tol.
