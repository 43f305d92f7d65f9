From Verif Require Export ProofsEdges.
From Coq Require Import ZifyBool ZifyNat Psatz Permutation.
Local Open Scope Z_scope.

Lemma px_zeros h w y x : px 0 (zeros h w) y x = 0.
Proof. unfold zeros. rewrite px_tab. destruct (inb _ _ _ _); reflexivity. Qed.
Lemma memZ_spec a l : memZ a l = true <-> In a l.
Proof.
  unfold memZ. rewrite existsb_exists. split.
  - intros (b & Hb & E). apply Z.eqb_eq in E. subst; exact Hb.
  - intros H. exists a. split; [exact H|apply Z.eqb_refl].
Qed.

(** ** the ignore mask *)
Lemma chan_at_ok s i : 0 <= i < Z.of_nat (length (chans s)) -> chan_at s i = Ok (channel s i).
Proof. intros H. unfold chan_at. rewrite pyidx_pos by exact H. reflexivity. Qed.
Lemma make_ignore_ok s ids : (forall i, In i ids -> 0 <= i < Z.of_nat (length (chans s))) ->
  forall acc, wf acc -> ht acc = s_h s -> wd acc = s_w s ->
  exists ign, make_ignore s ids acc = Ok ign /\ wf ign /\ ht ign = s_h s /\ wd ign = s_w s /\
    forall y x, inb (s_h s) (s_w s) y x = true ->
      px 0 ign y x mod 256 = (px 0 acc y x + ignored_count s ids y x) mod 256 /\
      (0 <= px 0 acc y x < 256 -> 0 <= px 0 ign y x < 256).
Proof.
  induction ids as [|i ids IH]; intros R acc W Hh Hw; cbn [make_ignore].
  - exists acc. split; [reflexivity|]. split; [exact W|]. split; [exact Hh|]. split; [exact Hw|].
    intros y x I. split; [|auto]. f_equal. unfold ignored_count; simpl. lia.
  - rewrite chan_at_ok by (apply R; left; reflexivity). cbn [bind].
    edestruct (IH ltac:(intros; apply R; right; assumption)
      (tab (s_h s) (s_w s) (fun y x => wrap 8 (px 0 acc y x + px 0 (channel s i) y x)))) as (ign & E & W' & Hh' & Hw' & P);
      [apply wf_tab|reflexivity|reflexivity|].
    exists ign. split; [exact E|]. split; [exact W'|]. split; [exact Hh'|]. split; [exact Hw'|].
    intros y x H. split.
    + destruct (P y x H) as [P1 P2]. rewrite P1, px_tab, H. unfold wrap. change (2 ^ 8) with 256.
      rewrite Zplus_mod_idemp_l. f_equal. unfold ignored_count. cbn [map].
      change (zsum (px 0 (channel s i) y x :: map (fun i0 : Z => px 0 (channel s i0) y x) ids))
        with (px 0 (channel s i) y x + zsum (map (fun i0 : Z => px 0 (channel s i0) y x) ids)). lia.
    + intros _. destruct (P y x H) as [P1 P2]. apply P2. rewrite px_tab, H. unfold wrap. apply Z.mod_pos_bound. reflexivity.
Qed.
Lemma ignore_of_ok s ids : (forall i, In i ids -> 0 <= i < Z.of_nat (length (chans s))) ->
  exists ign, ignore_of s ids = Ok ign /\ wf ign /\ ht ign = s_h s /\ wd ign = s_w s /\
    forall y x, inb (s_h s) (s_w s) y x = true -> px 0 ign y x = ignored_count s ids y x mod 256.
Proof.
  intros R. destruct (make_ignore_ok s ids R (zeros (s_h s) (s_w s))) as (ign & E & W & Hh & Hw & P);
    [apply wf_tab|reflexivity|reflexivity|].
  exists ign. split; [exact E|]. split; [exact W|]. split; [exact Hh|]. split; [exact Hw|].
  intros y x I. destruct (P y x I) as [P1 P2]. rewrite px_zeros in P1, P2.
  rewrite Z.add_0_l in P1. rewrite <- P1. symmetry. apply Z.mod_small. apply P2. lia.
Qed.

(** ** edge_loop *)
Lemma nth_map_const {A B} (c : B) (l : list A) k : nth k (map (fun _ => c) l) c = c.
Proof. revert k; induction l as [|a l IH]; intros [|k]; simpl; auto. Qed.
Definition chan_result (mask : stack) (ids : list Z) (f : Z -> image Z -> image Z) (k : Z) : image Z :=
  match label_edge mask ids f k with Some e => e | None => zeros (s_h mask) (s_w mask) end.

Lemma edge_loop_fold mask ids f n : forall edges, (n <= length edges)%nat ->
  forall k, (k < length edges)%nat ->
  nth k (fold_left (fun edges label => match label_edge mask ids f label with
                                   | Some e => set_nth edges (Z.to_nat label) e
                                   | None => edges end) (zseq n) edges) (zeros (s_h mask) (s_w mask)) =
  if Nat.ltb k n then match label_edge mask ids f (Z.of_nat k) with Some e => e | None => nth k edges (zeros (s_h mask) (s_w mask)) end
  else nth k edges (zeros (s_h mask) (s_w mask)).
Proof.
  set (g := fun edges label => _).
  assert (LEN : forall l e, length (fold_left g l e) = length e).
  { induction l as [|a l IH]; intros e; cbn [fold_left]; [reflexivity|]. rewrite IH. unfold g.
    destruct (label_edge mask ids f a); [apply set_nth_length|reflexivity]. }
  induction n as [|n IH]; intros edges Hn k Hk; [reflexivity|].
  unfold zseq. rewrite seq_S, map_app, fold_left_app. fold (zseq n). cbn [map fold_left plus].
  unfold g at 1. change (0 + n)%nat with n. destruct (label_edge mask ids f (Z.of_nat n)) as [e|] eqn:E.
  - rewrite nth_set_nth by (rewrite LEN; lia). rewrite Nat2Z.id.
    destruct (Nat.eqb_spec k n) as [->|N].
    + rewrite E. replace (Nat.ltb n (S n)) with true by (symmetry; apply Nat.ltb_lt; lia). reflexivity.
    + rewrite IH by lia. replace (Nat.ltb k (S n)) with (Nat.ltb k n) by lia. reflexivity.
  - rewrite IH by lia. destruct (Nat.eq_dec k n) as [->|N].
    + rewrite E. replace (Nat.ltb n n) with false by lia. replace (Nat.ltb n (S n)) with true by (symmetry; apply Nat.ltb_lt; lia). reflexivity.
    + replace (Nat.ltb k (S n)) with (Nat.ltb k n) by lia. reflexivity.
Qed.
Lemma edge_loop_length mask ids f : length (chans (edge_loop mask ids f)) = length (chans mask).
Proof.
  unfold edge_loop; cbn [chans]. set (g := fun edges label => _).
  assert (LEN : forall l e, length (fold_left g l e) = length e).
  { induction l as [|a l IH]; intros e; cbn [fold_left]; [reflexivity|]. rewrite IH. unfold g.
    destruct (label_edge mask ids f a); [apply set_nth_length|reflexivity]. }
  rewrite LEN, map_length. reflexivity.
Qed.
Lemma edge_loop_chan mask ids f k : 0 <= k < Z.of_nat (length (chans mask)) ->
  channel (edge_loop mask ids f) k = chan_result mask ids f k.
Proof.
  intros H. unfold channel, edge_loop. cbn [chans s_h s_w].
  rewrite edge_loop_fold by (rewrite map_length; lia).
  replace (Nat.ltb (Z.to_nat k) (length (chans mask))) with true by lia.
  rewrite Z2Nat.id by lia. unfold chan_result. destruct (label_edge mask ids f k); [reflexivity|].
  apply nth_map_const.
Qed.

(** ** shared writes *)
Lemma apply_write_shape s wr : s_h (apply_write s wr) = s_h s /\ s_w (apply_write s wr) = s_w s /\
  length (chans (apply_write s wr)) = length (chans s).
Proof. unfold apply_write; cbn [s_h s_w chans]. rewrite set_nth_length. auto. Qed.
Lemma apply_write_wf s wr : wf_stack s -> wf_stack (apply_write s wr).
Proof.
  intros W e He. unfold apply_write in *. cbn [chans s_h s_w] in *. unfold set_nth in He. apply in_app_or in He.
  destruct He as [He|He].
  - apply W. rewrite <- (firstn_skipn (w_label wr) (chans s)). apply in_or_app; left; exact He.
  - destruct (skipn (w_label wr) (chans s)) as [|c r] eqn:E; [destruct He|]. destruct He as [<-|He].
    + split; [apply wf_tab|split; reflexivity].
    + apply W. rewrite <- (firstn_skipn (w_label wr) (chans s)), E. apply in_or_app; right; right; exact He.
Qed.
Lemma apply_write_at s wr k y x : wf_stack s -> (k < length (chans s))%nat -> (w_label wr < length (chans s))%nat ->
  inb (s_h s) (s_w s) y x = true ->
  at3 (apply_write s wr) k y x = if Nat.eqb k (w_label wr) && (y =? w_y wr) && (x =? w_x wr) then w_v wr else at3 s k y x.
Proof.
  intros W Hk Hl I. unfold at3, apply_write. cbn [chans s_h s_w]. rewrite nth_set_nth by exact Hl.
  destruct (Nat.eqb_spec k (w_label wr)) as [->|]; [|reflexivity]. cbn [andb]. rewrite px_tab, I.
  destruct ((y =? w_y wr) && (x =? w_x wr)); reflexivity.
Qed.

Lemma run_writes_at l : forall s, wf_stack s ->
  (forall wr, In wr l -> (w_label wr < length (chans s))%nat) ->
  let r := fold_left apply_write l s in
  wf_stack r /\ s_h r = s_h s /\ s_w r = s_w s /\ length (chans r) = length (chans s) /\
  forall k y x, (k < length (chans s))%nat -> inb (s_h s) (s_w s) y x = true ->
   ((forall wr, In wr l -> ~ (w_label wr = k /\ w_y wr = y /\ w_x wr = x)) -> at3 r k y x = at3 s k y x) /\
   (forall v, (forall wr, In wr l -> w_label wr = k /\ w_y wr = y /\ w_x wr = x -> w_v wr = v) ->
       (exists wr, In wr l /\ w_label wr = k /\ w_y wr = y /\ w_x wr = x) -> at3 r k y x = v).
Proof.
  induction l as [|wr l IH]; intros s W L; cbn [fold_left].
  - cbv zeta. split; [exact W|]. split; [reflexivity|]. split; [reflexivity|]. split; [reflexivity|].
    intros k y x Hk I. split; [reflexivity|]. intros v _ (wr & [] & _).
  - destruct (apply_write_shape s wr) as (S1 & S2 & S3).
    destruct (IH (apply_write s wr)) as (W' & Hh & Hw & Hl & P).
    { apply apply_write_wf; exact W. }
    { intros w' H'. rewrite S3. apply L; right; exact H'. }
    cbv zeta in *. split; [exact W'|]. split; [congruence|]. split; [congruence|]. split; [congruence|].
    intros k y x Hk I. specialize (P k y x ltac:(rewrite S3; exact Hk) ltac:(rewrite S1, S2; exact I)).
    destruct P as [P1 P2]. pose proof (apply_write_at s wr k y x W Hk (L wr (or_introl eq_refl)) I) as A. split.
    + intros N. rewrite P1 by (intros; apply N; right; assumption). rewrite A.
      specialize (N wr (or_introl eq_refl)). destruct (_ && _) eqn:E; [|reflexivity]. exfalso; apply N. lia.
    + intros v F (w0 & Hin & K).
      destruct (in_dec (fun a b : nat * Z * Z => ltac:(repeat decide equality) : {a = b} + {a <> b}) (k, y, x)
        (map (fun w => (w_label w, w_y w, w_x w)) l)) as [M|M].
      * apply in_map_iff in M. destruct M as (w1 & E1 & H1). injection E1 as E1 E2 E3.
        apply P2; [intros; apply F; [right; assumption|assumption]|]. exists w1; auto.
      * rewrite P1.
        -- destruct Hin as [<-|Hin].
           ++ rewrite A. replace (_ && _) with true by lia. apply F; [left; reflexivity|exact K].
           ++ exfalso. apply M. apply in_map_iff. exists w0. split; [|exact Hin]. destruct K as (-> & -> & ->). reflexivity.
        -- intros w1 H1 (<- & <- & <-). apply M. apply in_map_iff. exists w1; auto.
Qed.

Lemma edge_loop_wf mask ids f : wf_stack mask ->
  (forall label m, wf m /\ ht m = s_h mask /\ wd m = s_w mask ->
     wf (f label m) /\ ht (f label m) = s_h mask /\ wd (f label m) = s_w mask) ->
  wf_stack (edge_loop mask ids f).
Proof.
  intros W F e He. apply In_nth with (d := zeros (s_h mask) (s_w mask)) in He. destruct He as (k & Hk & <-).
  rewrite edge_loop_length in Hk.
  pose proof (edge_loop_chan mask ids f (Z.of_nat k) ltac:(lia)) as E. unfold channel in E. rewrite Nat2Z.id in E.
  cbn [edge_loop s_h s_w] in *. rewrite E. unfold chan_result, label_edge.
  destruct (memZ _ ids); [split; [apply wf_tab|split; reflexivity]|].
  destruct (any_nonzero _); [|split; [apply wf_tab|split; reflexivity]].
  apply F. apply W. apply nth_In. rewrite Nat2Z.id. exact Hk.
Qed.

Lemma pool_equals_loop mask ids f sched : wf_stack mask ->
  (forall label m, wf m /\ ht m = s_h mask /\ wd m = s_w mask ->
     wf (f label m) /\ ht (f label m) = s_h mask /\ wd (f label m) = s_w mask) ->
  Permutation (pool_writes mask ids f) sched -> run_writes mask sched = edge_loop mask ids f.
Proof.
  intros W F P. unfold run_writes. set (s0 := mkStack _ _ _).
  assert (W0 : wf_stack s0).
  { intros e He. unfold s0 in *. cbn [chans s_h s_w] in *. apply in_map_iff in He. destruct He as (c & <- & _).
    split; [apply wf_tab|split; reflexivity]. }
  assert (L0 : length (chans s0) = length (chans mask)) by (unfold s0; cbn [chans]; apply map_length).
  assert (IN : forall wr, In wr sched <-> exists label, 0 <= label < Z.of_nat (length (chans mask)) /\ In wr (task_writes mask ids f label)).
  { intros wr. rewrite <- (Permutation_in' eq_refl P). unfold pool_writes. rewrite in_flat_map.
    split; intros (l & H1 & H2); exists l; (split; [|exact H2]); apply in_zseq; exact H1. }
  destruct (run_writes_at sched s0 W0) as (Wr & Rh & Rw & Rl & At).
  { intros wr Hwr. apply IN in Hwr. destruct Hwr as (label & Hl & Hin). unfold task_writes in Hin.
    destruct (label_edge mask ids f label); [|destruct Hin]. apply in_map_iff in Hin. destruct Hin as (p & <- & _). cbn [w_label]. lia. }
  cbv zeta in *.
  apply stack_ext; auto.
  - apply edge_loop_wf; assumption.
  - rewrite Rl, L0, edge_loop_length. reflexivity.
  - rewrite Rh, Rw, Rl. intros k y x Hk I. specialize (At k y x Hk I). destruct At as [A1 A2].
    rewrite L0 in Hk.
    rewrite !(nth_indep _ (tab 0 0 (fun _ _ => 0)) (zeros (s_h mask) (s_w mask))) by (rewrite ?Rl, ?L0, ?edge_loop_length; exact Hk).
    assert (E2 : nth k (chans (edge_loop mask ids f)) (zeros (s_h mask) (s_w mask)) = chan_result mask ids f (Z.of_nat k)).
    { rewrite <- edge_loop_chan by lia. unfold channel. rewrite Nat2Z.id. reflexivity. }
    rewrite E2. unfold at3 in A1, A2. rewrite Rh, Rw in A1, A2. cbn [s0 s_h s_w] in A1, A2.
    fold (zeros (s_h mask) (s_w mask)) in A1, A2.
    unfold chan_result. destruct (label_edge mask ids f (Z.of_nat k)) as [e|] eqn:E.
    + apply A2.
      * intros wr Hwr (K1 & K2 & K3). apply IN in Hwr. destruct Hwr as (label & Hl & Hin). unfold task_writes in Hin.
        destruct (label_edge mask ids f label) as [e'|] eqn:E'; [|destruct Hin]. apply in_map_iff in Hin.
        destruct Hin as (p & <- & _). simpl in *. assert (label = Z.of_nat k) by lia. subst label.
        rewrite E in E'. injection E' as <-. subst y x. reflexivity.
      * exists (mkWrite k y x (px 0 e y x)). split; [|auto]. apply IN. exists (Z.of_nat k). split; [lia|].
        unfold task_writes. rewrite E. apply in_map_iff. exists (y, x). simpl. rewrite Nat2Z.id. split; [reflexivity|].
        apply in_coords. exact I.
    + rewrite A1.
      * rewrite px_zeros. unfold s0; cbn [chans]. fold (zeros (s_h mask) (s_w mask)).
        rewrite nth_map_const. apply px_zeros.
      * intros wr Hwr (K1 & K2 & K3). apply IN in Hwr. destruct Hwr as (label & Hl & Hin). unfold task_writes in Hin.
        destruct (label_edge mask ids f label) as [e'|] eqn:E'; [|destruct Hin]. apply in_map_iff in Hin.
        destruct Hin as (p & <- & _). simpl in *. assert (label = Z.of_nat k) by lia. subst label. congruence.
Qed.

(** ** unique *)
Lemma in_ins v l a : In a (ins v l) <-> a = v \/ In a l.
Proof.
  induction l as [|b l IH]; simpl; [intuition|]. destruct (v <? b) eqn:E1; [simpl; intuition|].
  destruct (Z.eqb_spec v b) as [->|]; [simpl; intuition; subst; auto|]. simpl. rewrite IH. intuition.
Qed.
Lemma in_unique im v : wf im -> (In v (unique im) <-> exists y x, inb (ht im) (wd im) y x = true /\ px 0 im y x = v).
Proof.
  intros W. unfold unique.
  assert (G : forall l, In v (fold_right ins [] l) <-> In v l).
  { induction l as [|b l IH]; simpl; [reflexivity|]. rewrite in_ins, IH. intuition. }
  rewrite G, (concat_rows_px 0) by exact W. rewrite in_map_iff. split.
  - intros ([y x] & <- & H). apply in_coords in H. exists y, x; auto.
  - intros (y & x & I & <-). exists (y, x). split; [reflexivity|]. apply in_coords; exact I.
Qed.

(** ** id splitting *)
Lemma int_of_ok s : s <> [] -> int_of s = Ok (undigits s).
Proof. destruct s; [contradiction|reflexivity]. Qed.
Lemma split_loop_ok id : 0 <= id < 100000 -> split_loop id = Ok (id / 1000, id mod 1000).
Proof.
  intros H. unfold split_loop. set (s := zfill 5 (digits id)).
  assert (L : length s = 5%nat).
  { unfold s. rewrite zfill_length. pose proof (digits_length_upper 5 id ltac:(simpl; lia) ltac:(lia)). lia. }
  assert (D : is_digits s) by (apply zfill_digits, digits_are_digits; lia).
  destruct (undigits_firstn 2 s D ltac:(lia)) as [F1 F2]. rewrite L in F1, F2. change (Z.of_nat (5 - 2)) with 3 in *.
  assert (U : undigits s = id) by (unfold s; rewrite undigits_zfill; apply undigits_digits; lia).
  rewrite U in *.
  assert (N1 : firstn 2 s <> []) by (destruct s; [discriminate L|discriminate]).
  assert (N2 : skipn 2 s <> []) by (destruct s as [|? [|? [|]]]; try discriminate L; discriminate).
  rewrite !int_of_ok by assumption. cbn [bind]. rewrite F1, F2. reflexivity.
Qed.
Lemma split_mp_ok id : 10000 <= id < 100000 -> split_mp id = Ok (id / 1000, id mod 1000).
Proof.
  intros H. unfold split_mp. rewrite <- (split_loop_ok id) by lia. unfold split_loop.
  rewrite zfill_long by (rewrite (digits_length 4 id) by (simpl; lia); lia). reflexivity.
Qed.
Lemma iid_ok label inst : 0 <= label -> 0 <= inst < 1000 -> iid label inst = label * 1000 + inst.
Proof.
  intros H1 H2. unfold iid. rewrite undigits_app, zfill_length, undigits_zfill, !undigits_digits by lia.
  pose proof (digits_length_upper 3 inst ltac:(simpl; lia) ltac:(lia)).
  replace (Nat.max 3 (length (digits inst))) with 3%nat by lia. reflexivity.
Qed.

Lemma build_insts_ok split min_id ids : (forall id, In id ids -> min_id <= id -> split id = Ok (id / 1000, id mod 1000)) ->
  build_insts split min_id ids = Ok (map (fun id => (id / 1000, id mod 1000)) (filter (fun id => negb (id <? min_id)) ids)).
Proof.
  induction ids as [|id ids IH]; intros H; cbn [build_insts filter]; [reflexivity|].
  destruct (id <? min_id) eqn:E; cbn [negb].
  - apply IH. intros; apply H; [right; assumption|assumption].
  - rewrite H by (left; reflexivity) || lia. cbn [bind]. rewrite IH by (intros; apply H; [right; assumption|assumption]). reflexivity.
Qed.

(** ** instance edges *)
Lemma lor_01 a b : (a = 0 \/ a = 1) -> (b = 0 \/ b = 1) -> (Z.lor a b = 0 \/ Z.lor a b = 1) /\ (Z.lor a b = 1 <-> a = 1 \/ b = 1).
Proof. intros [-> | ->] [-> | ->]; simpl; lia. Qed.

Lemma inst_edge_spec inst insts ign r b label m : same_shape m inst ->
  let e := inst_edge inst insts ign r b label m in
  (wf e /\ ht e = ht m /\ wd e = wd m) /\
  forall y x, inb (ht m) (wd m) y x = true ->
    (px 0 e y x = 0 \/ px 0 e y x = 1) /\
    (px 0 e y x = 1 <-> px 0 (mask2bdry m ign r b) y x = 1 \/
       exists i, In (label, i) insts /\ px 0 (mask2bdry (eq_mask inst (iid label i)) ign r b) y x = 1).
Proof.
  intros [Sh Sw]. cbv zeta. unfold inst_edge.
  assert (G : forall insts d, wf d -> ht d = ht m -> wd d = wd m ->
    (forall y x, px 0 d y x = 0 \/ px 0 d y x = 1) ->
    let e := fold_left (fun d li => if fst li =? label
                         then image_or d (mask2bdry (eq_mask inst (iid label (snd li))) ign r b) else d) insts d in
    (wf e /\ ht e = ht m /\ wd e = wd m) /\
    forall y x, inb (ht m) (wd m) y x = true ->
    (px 0 e y x = 0 \/ px 0 e y x = 1) /\
    (px 0 e y x = 1 <-> px 0 d y x = 1 \/
       exists i, In (label, i) insts /\ px 0 (mask2bdry (eq_mask inst (iid label i)) ign r b) y x = 1)).
  { clear insts. induction insts as [|[l i] insts IH]; intros d W Hh Hw D; cbn [fold_left].
    - cbv zeta. split; [auto|]. intros y x I. split; [apply D|]. split; [auto|]. intros [H|(i & [] & _)]; exact H.
    - cbn [fst snd]. destruct (Z.eqb_spec l label) as [->|Nl].
      + assert (O : forall y x, inb (ht m) (wd m) y x = true -> px 0 (image_or d (mask2bdry (eq_mask inst (iid label i)) ign r b)) y x
          = Z.lor (px 0 d y x) (px 0 (mask2bdry (eq_mask inst (iid label i)) ign r b) y x)).
        { intros y x I. unfold image_or. rewrite px_tab, Hh, Hw, I. reflexivity. }
        destruct (IH (image_or d (mask2bdry (eq_mask inst (iid label i)) ign r b))) as [IH1 IH2].
        * apply wf_tab.
        * exact Hh.
        * exact Hw.
        * intros y x. unfold image_or. rewrite px_tab. destruct (inb _ _ _ _); [|auto].
          apply lor_01; [apply D|apply mask2bdry_01].
        * cbv zeta in *. split; [exact IH1|]. intros y x I. destruct (IH2 y x I) as [A B]. split; [exact A|].
          rewrite B, O by exact I. rewrite (proj2 (lor_01 _ _ (D y x) (mask2bdry_01 _ _ _ _ y x))). split.
          -- intros [[H|H]|(j & Hj & H)]; [left; exact H|right; exists i; split; [left; reflexivity|exact H]|right; exists j; split; [right; exact Hj|exact H]].
          -- intros [H|(j & [E|Hj] & H)]; [left; left; exact H|injection E as <-; left; right; exact H|right; exists j; auto].
      + destruct (IH d W Hh Hw D) as [IH1 IH2]. cbv zeta in *. split; [exact IH1|]. intros y x I. destruct (IH2 y x I) as [A B].
        split; [exact A|]. rewrite B. split.
        -- intros [H|(j & Hj & H)]; [left; exact H|right; exists j; split; [right; exact Hj|exact H]].
        -- intros [H|(j & [E|Hj] & H)]; [left; exact H|injection E as E1 E2; congruence|right; exists j; auto]. }
  destruct (mask2bdry_shape m ign r b) as (W0 & H0 & V0).
  apply G; auto. intros; apply mask2bdry_01.
Qed.
Lemma inst_edge_shape inst insts ign r b label m : same_shape m inst ->
  let e := inst_edge inst insts ign r b label m in wf e /\ ht e = ht m /\ wd e = wd m.
Proof. intros H. apply (inst_edge_spec inst insts ign r b label m H). Qed.
