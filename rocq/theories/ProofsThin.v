From Verif Require Export ModelThin SpecThin ProofsImage.
From Verif Require Import ProofsTopology.
From Coq Require Import ZifyBool ZifyNat.

(** ** Table lookups *)
Lemma lut_get_map f n i : 0 <= i < Z.of_nat n -> lut_get (map f (zseq n)) i = f i.
Proof.
  intros H; unfold lut_get.
  rewrite nth_indep with (d' := f 0) by (rewrite map_length, zseq_length; lia).
  rewrite map_nth, nth_zseq by lia. f_equal; lia.
Qed.

Definition idx9 (nw n ne w c e sw s se : bool) : Z :=
    b2z nw * M_NW + b2z n * M_N + b2z ne * M_NE + b2z w * M_W + b2z c * M_C
  + b2z e * M_E + b2z sw * M_SW + b2z s * M_S + b2z se * M_SE.

Lemma b2z_range b : 0 <= b2z b <= 1.
Proof. destruct b; simpl; lia. Qed.

Lemma idx9_range nw n ne w c e sw s se : 0 <= idx9 nw n ne w c e sw s se < Z.of_nat 512.
Proof.
  replace (Z.of_nat 512) with 512 by (vm_compute; reflexivity).
  unfold idx9, M_NW, M_N, M_NE, M_W, M_C, M_E, M_SW, M_S, M_SE.
  pose proof (b2z_range nw); pose proof (b2z_range n); pose proof (b2z_range ne);
  pose proof (b2z_range w); pose proof (b2z_range c); pose proof (b2z_range e);
  pose proof (b2z_range sw); pose proof (b2z_range s); pose proof (b2z_range se). lia.
Qed.

Lemma thin1_entry nw n ne w c e sw s se :
  lut_get thin_iter_1_lut (idx9 nw n ne w c e sw s se)
  = c && negb (gh_delete_odd e ne n nw w sw s se).
Proof.
  unfold thin_iter_1_lut, LUT_INDS. rewrite lut_get_map by apply idx9_range.
  destruct nw, n, ne, w, c, e, sw, s, se; vm_compute; reflexivity.
Qed.

Lemma thin2_entry nw n ne w c e sw s se :
  lut_get thin_iter_2_lut (idx9 nw n ne w c e sw s se)
  = c && negb (gh_delete_even e ne n nw w sw s se).
Proof.
  unfold thin_iter_2_lut, LUT_INDS. rewrite lut_get_map by apply idx9_range.
  destruct nw, n, ne, w, c, e, sw, s, se; vm_compute; reflexivity.
Qed.

Lemma ident_entry nw n ne w c e sw s se :
  lut_get identity_lut (idx9 nw n ne w c e sw s se) = c.
Proof.
  unfold identity_lut, LUT_INDS. rewrite lut_get_map by apply idx9_range.
  destruct nw, n, ne, w, c, e, sw, s, se; vm_compute; reflexivity.
Qed.

Lemma mutate_get lut i : length lut = 512%nat -> 0 <= i < Z.of_nat 512 ->
  lut_get (lut_mutate_mask lut) i = xorb (lut_get lut i) (lut_get identity_lut i).
Proof.
  intros Hl Hi. unfold lut_get, lut_mutate_mask.
  assert (Hlen : length identity_lut = 512%nat)
    by (unfold identity_lut, LUT_INDS; rewrite map_length, zseq_length; reflexivity).
  assert (Hc : length (combine lut identity_lut) = 512%nat).
  { rewrite combine_length, Hl, Hlen. apply Nat.min_id. }
  rewrite nth_indep with (d' := (fun p => xorb (fst p) (snd p)) (false, false)).
  - rewrite (map_nth (fun p => xorb (fst p) (snd p))).
    rewrite combine_nth by (rewrite Hl, Hlen; reflexivity). reflexivity.
  - rewrite map_length, Hc. lia.
Qed.

Lemma length_thin1 : length thin_iter_1_lut = 512%nat.
Proof. unfold thin_iter_1_lut, LUT_INDS; rewrite map_length, zseq_length; reflexivity. Qed.
Lemma length_thin2 : length thin_iter_2_lut = 512%nat.
Proof. unfold thin_iter_2_lut, LUT_INDS; rewrite map_length, zseq_length; reflexivity. Qed.

Definition bidx (nw n ne w c e sw s se : bool) : Z :=
    b2z nw * 8 + b2z n * 4 + b2z ne * 2 + b2z w * 16 + b2z c * 0
  + b2z e * 1 + b2z sw * 32 + b2z s * 64 + b2z se * 128.

Lemma bidx_range nw n ne w c e sw s se : 0 <= bidx nw n ne w c e sw s se < 256.
Proof.
  unfold bidx.
  pose proof (b2z_range nw); pose proof (b2z_range n); pose proof (b2z_range ne);
  pose proof (b2z_range w); pose proof (b2z_range c); pose proof (b2z_range e);
  pose proof (b2z_range sw); pose proof (b2z_range s); pose proof (b2z_range se). lia.
Qed.

Lemma bw1_entry nw n ne w c e sw s se :
  lut_get G123_LUT (bidx nw n ne w c e sw s se) = gh_delete_odd e ne n nw w sw s se.
Proof. destruct nw, n, ne, w, c, e, sw, s, se; vm_compute; reflexivity. Qed.

Lemma bw2_entry nw n ne w c e sw s se :
  lut_get G123P_LUT (bidx nw n ne w c e sw s se) = gh_delete_even e ne n nw w sw s se.
Proof. destruct nw, n, ne, w, c, e, sw, s, se; vm_compute; reflexivity. Qed.

Lemma G123_gen : G123_LUT = gen_g123_lut.
Proof. vm_compute; reflexivity. Qed.
Lemma G123P_gen : G123P_LUT = gen_g123p_lut.
Proof. vm_compute; reflexivity. Qed.

(** ** Sub-iterations are the Guo-Hall passes *)
Lemma lut_index_eq x r c : lut_index x r c =
  idx9 (px false x (r-1) (c-1)) (px false x (r-1) c) (px false x (r-1) (c+1))
       (px false x r (c-1)) (px false x r c) (px false x r (c+1))
       (px false x (r+1) (c-1)) (px false x (r+1) c) (px false x (r+1) (c+1)).
Proof. reflexivity. Qed.
Lemma bw_index_eq x r c : bw_index x r c =
  bidx (px false x (r-1) (c-1)) (px false x (r-1) c) (px false x (r-1) (c+1))
       (px false x r (c-1)) (px false x r c) (px false x r (c+1))
       (px false x (r+1) (c-1)) (px false x (r+1) c) (px false x (r+1) (c+1)).
Proof. reflexivity. Qed.

Definition cf (x : image bool) : Z -> Z -> bool := px false x.

Lemma gh_pass_out d (x : image bool) r c : wf x -> inb (ht x) (wd x) r c = false ->
  gh_pass d (cf x) r c = false.
Proof. intros H E; unfold gh_pass, cf at 1; rewrite px_out by assumption; reflexivity. Qed.

Lemma apply1_px x r c : wf x ->
  px false (apply_lut x thin_iter_1_lut) r c = gh_pass gh_delete_odd (cf x) r c.
Proof.
  intros H; unfold apply_lut; rewrite px_tab.
  destruct (inb (ht x) (wd x) r c) eqn:E; [|symmetry; apply gh_pass_out; auto].
  rewrite lut_index_eq, thin1_entry. reflexivity.
Qed.

Lemma apply2_px x r c : wf x ->
  px false (apply_lut x thin_iter_2_lut) r c = gh_pass gh_delete_even (cf x) r c.
Proof.
  intros H; unfold apply_lut; rewrite px_tab.
  destruct (inb (ht x) (wd x) r c) eqn:E; [|symmetry; apply gh_pass_out; auto].
  rewrite lut_index_eq, thin2_entry. reflexivity.
Qed.

Lemma bw1_px x r c : wf x ->
  px false (bw_sub G123_LUT x) r c = gh_pass gh_delete_odd (cf x) r c.
Proof.
  intros H; unfold bw_sub; rewrite px_tab.
  destruct (inb (ht x) (wd x) r c) eqn:E; [|symmetry; apply gh_pass_out; auto].
  rewrite bw_index_eq, bw1_entry.
  unfold gh_pass, cf. destruct (gh_delete_odd _ _ _ _ _ _ _ _); [rewrite andb_false_r|rewrite andb_true_r]; reflexivity.
Qed.

Lemma bw2_px x r c : wf x ->
  px false (bw_sub G123P_LUT x) r c = gh_pass gh_delete_even (cf x) r c.
Proof.
  intros H; unfold bw_sub; rewrite px_tab.
  destruct (inb (ht x) (wd x) r c) eqn:E; [|symmetry; apply gh_pass_out; auto].
  rewrite bw_index_eq, bw2_entry.
  unfold gh_pass, cf. destruct (gh_delete_even _ _ _ _ _ _ _ _); [rewrite andb_false_r|rewrite andb_true_r]; reflexivity.
Qed.

Lemma subiter1_agree x : wf x -> apply_lut x thin_iter_1_lut = bw_sub G123_LUT x.
Proof.
  intros H; apply img_ext with (d := false); [apply wf_tab|apply wf_tab|split; reflexivity|].
  intros r c _; rewrite apply1_px, bw1_px by exact H; reflexivity.
Qed.
Lemma subiter2_agree x : wf x -> apply_lut x thin_iter_2_lut = bw_sub G123P_LUT x.
Proof.
  intros H; apply img_ext with (d := false); [apply wf_tab|apply wf_tab|split; reflexivity|].
  intros r c _; rewrite apply2_px, bw2_px by exact H; reflexivity.
Qed.

(** The whole iteration. *)
Definition odd_pass (x : image bool) := bw_sub G123_LUT x.
Definition even_pass (x : image bool) := bw_sub G123P_LUT x.
Definition full_pass (x : image bool) := even_pass (odd_pass x).

Definition shrinks (x y : image bool) : Prop :=
  wf y /\ same_shape x y /\ (forall r c, px false y r c = true -> px false x r c = true).

Lemma shrinks_refl x : wf x -> shrinks x x.
Proof. intros H; split; [exact H|split; [split; reflexivity|auto]]. Qed.
Lemma shrinks_trans x y z : shrinks x y -> shrinks y z -> shrinks x z.
Proof.
  intros (_ & [A1 A2] & A3) (B1 & [B2 B3] & B4). split; [exact B1|].
  split; [split; congruence|auto].
Qed.
Lemma odd_shrinks x : wf x -> shrinks x (odd_pass x).
Proof.
  intros H; split; [apply wf_tab|split; [split; reflexivity|]].
  intros r c E; unfold odd_pass in E; rewrite bw1_px in E by exact H.
  unfold gh_pass in E; apply andb_true_iff in E; apply E.
Qed.
Lemma even_shrinks x : wf x -> shrinks x (even_pass x).
Proof.
  intros H; split; [apply wf_tab|split; [split; reflexivity|]].
  intros r c E; unfold even_pass in E; rewrite bw2_px in E by exact H.
  unfold gh_pass in E; apply andb_true_iff in E; apply E.
Qed.
Lemma full_shrinks x : wf x -> shrinks x (full_pass x).
Proof.
  intros H; eapply shrinks_trans; [apply odd_shrinks; exact H|].
  apply even_shrinks. apply wf_tab.
Qed.
Lemma shrinks_count x y : wf x -> shrinks x y -> (count_true y <= count_true x)%nat.
Proof.
  intros Hx (Hy & [H1 H2] & H3). apply count_true_le; auto. split; congruence.
Qed.
Lemma shrinks_count_eq x y : wf x -> shrinks x y -> count_true x = count_true y -> y = x.
Proof.
  intros Hx (Hy & [H1 H2] & H3) E. apply count_true_eq; auto. split; congruence.
Qed.

Lemma mutate1_zero x : wf x ->
  (count_true (apply_lut x (lut_mutate_mask thin_iter_1_lut)) = 0%nat <-> odd_pass x = x).
Proof.
  intros H.
  assert (P : forall r c, px false (apply_lut x (lut_mutate_mask thin_iter_1_lut)) r c
              = px false x r c && negb (px false (odd_pass x) r c)).
  { intros r c; unfold odd_pass; rewrite bw1_px by exact H. unfold apply_lut; rewrite px_tab.
    destruct (inb (ht x) (wd x) r c) eqn:E; [|rewrite px_out; auto].
    rewrite lut_index_eq, mutate_get; [|exact length_thin1|apply idx9_range].
    rewrite thin1_entry, ident_entry.
    unfold gh_pass, cf. destruct (px false x r c); [|reflexivity].
    destruct (gh_delete_odd _ _ _ _ _ _ _ _); reflexivity. }
  split.
  - intros E. apply img_ext with (d := false); [apply wf_tab|exact H|split; reflexivity|].
    intros r c _. rewrite count_true_fg in E by apply wf_tab.
    destruct (px false x r c) eqn:E1.
    + destruct (px false (odd_pass x) r c) eqn:E2; [reflexivity|].
      specialize (P r c). rewrite E1, E2 in P. simpl in P.
      apply in_fg_list in P; [|apply wf_tab]. rewrite (length_zero_iff_nil) in E.
      rewrite E in P; destruct P.
    + destruct (px false (odd_pass x) r c) eqn:E2; [|reflexivity].
      apply odd_shrinks in E2; [congruence|exact H].
  - intros E. rewrite count_true_fg by apply wf_tab.
    apply length_zero_iff_nil. destruct (fg_list _) as [|[r c] l] eqn:L; [reflexivity|exfalso].
    assert (Hin : In (r, c) (fg_list (apply_lut x (lut_mutate_mask thin_iter_1_lut))))
      by (rewrite L; left; reflexivity).
    apply in_fg_list in Hin; [|apply wf_tab]. rewrite P, E in Hin.
    destruct (px false x r c); discriminate.
Qed.

Lemma mutate2_zero x : wf x ->
  (count_true (apply_lut x (lut_mutate_mask thin_iter_2_lut)) = 0%nat <-> even_pass x = x).
Proof.
  intros H.
  assert (P : forall r c, px false (apply_lut x (lut_mutate_mask thin_iter_2_lut)) r c
              = px false x r c && negb (px false (even_pass x) r c)).
  { intros r c; unfold even_pass; rewrite bw2_px by exact H. unfold apply_lut; rewrite px_tab.
    destruct (inb (ht x) (wd x) r c) eqn:E; [|rewrite px_out; auto].
    rewrite lut_index_eq, mutate_get; [|exact length_thin2|apply idx9_range].
    rewrite thin2_entry, ident_entry.
    unfold gh_pass, cf. destruct (px false x r c); [|reflexivity].
    destruct (gh_delete_even _ _ _ _ _ _ _ _); reflexivity. }
  split.
  - intros E. apply img_ext with (d := false); [apply wf_tab|exact H|split; reflexivity|].
    intros r c _. rewrite count_true_fg in E by apply wf_tab.
    destruct (px false x r c) eqn:E1.
    + destruct (px false (even_pass x) r c) eqn:E2; [reflexivity|].
      specialize (P r c). rewrite E1, E2 in P. simpl in P.
      apply in_fg_list in P; [|apply wf_tab]. rewrite (length_zero_iff_nil) in E.
      rewrite E in P; destruct P.
    + destruct (px false (even_pass x) r c) eqn:E2; [|reflexivity].
      apply even_shrinks in E2; [congruence|exact H].
  - intros E. rewrite count_true_fg by apply wf_tab.
    apply length_zero_iff_nil. destruct (fg_list _) as [|[r c] l] eqn:L; [reflexivity|exfalso].
    assert (Hin : In (r, c) (fg_list (apply_lut x (lut_mutate_mask thin_iter_2_lut))))
      by (rewrite L; left; reflexivity).
    apply in_fg_list in Hin; [|apply wf_tab]. rewrite P, E in Hin.
    destruct (px false x r c); discriminate.
Qed.

(** ** Iterated passes *)
Fixpoint passes (n : nat) (x : image bool) : image bool :=
  match n with O => x | S n => passes n (full_pass x) end.

Lemma passes_add m n x : passes (m + n) x = passes m (passes n x).
Proof. revert x; induction n as [|n IH]; intros x; [rewrite Nat.add_0_r; reflexivity|].
  rewrite Nat.add_succ_r; simpl; apply IH. Qed.
Lemma passes_fixed n x : full_pass x = x -> passes n x = x.
Proof. intros E; induction n as [|n IH]; simpl; [reflexivity|rewrite E; exact IH]. Qed.
Lemma passes_wf n x : wf x -> wf (passes n x).
Proof. revert x; induction n as [|n IH]; intros x H; simpl; [exact H|apply IH, wf_tab]. Qed.
Lemma passes_shrinks n x : wf x -> shrinks x (passes n x).
Proof.
  revert x; induction n as [|n IH]; intros x H; simpl; [apply shrinks_refl; exact H|].
  eapply shrinks_trans; [apply full_shrinks; exact H|]. apply IH, wf_tab.
Qed.

Lemma passes_reach_fixpoint x : wf x -> full_pass (passes (count_true x) x) = passes (count_true x) x.
Proof.
  remember (count_true x) as n eqn:En. revert x En.
  induction n as [n IH] using lt_wf_ind; intros x En H.
  destruct (Nat.eq_dec (count_true (full_pass x)) (count_true x)) as [E|E].
  - assert (F : full_pass x = x) by (apply shrinks_count_eq; [exact H|apply full_shrinks; exact H|lia]).
    rewrite passes_fixed by exact F. exact F.
  - assert (L : (count_true (full_pass x) < n)%nat)
      by (pose proof (shrinks_count x (full_pass x) H (full_shrinks x H)); lia).
    destruct n as [|n]; [lia|]. simpl passes.
    set (m := count_true (full_pass x)) in *.
    assert (F := IH m L (full_pass x) eq_refl (wf_tab _ _ _)).
    replace n with ((n - m) + m)%nat by lia. rewrite passes_add.
    rewrite (passes_fixed (n - m)) by exact F. exact F.
Qed.

Lemma full_fixed_parts x : wf x -> full_pass x = x -> odd_pass x = x /\ even_pass x = x.
Proof.
  intros H F.
  assert (O : odd_pass x = x).
  { apply shrinks_count_eq; [exact H|apply odd_shrinks; exact H|].
    pose proof (shrinks_count x _ H (odd_shrinks x H)) as L1.
    pose proof (shrinks_count (odd_pass x) (full_pass x) (wf_tab _ _ _) (even_shrinks _ (wf_tab _ _ _))) as L2.
    rewrite F in L2. lia. }
  split; [exact O|]. unfold full_pass in F; rewrite O in F; exact F.
Qed.

(** ** The loops *)
Lemma bw_loop_spec fuel n x : wf x -> (count_true x < fuel)%nat -> n <> 0 \/ True ->
  exists k, bw_loop fuel n x = Some (passes k x) /\
    (full_pass (passes k x) = passes k x \/ (0 <= n /\ k = Z.to_nat n)) /\
    (0 <= n -> (k <= Z.to_nat n)%nat).
Proof.
  intros Hx Hf _. revert n x Hx Hf. induction fuel as [|fuel IH]; intros n x Hx Hf; [lia|].
  cbn [bw_loop]. destruct (Z.eqb_spec n 0) as [->|Hn].
  - exists 0%nat; split; [reflexivity|split; [right; split; [lia|reflexivity]|intros _; lia]].
  - change (bw_sub G123P_LUT (bw_sub G123_LUT x)) with (full_pass x).
    destruct (Nat.eqb_spec (count_true x) (count_true (full_pass x))) as [E|E].
    + assert (F : full_pass x = x) by (apply shrinks_count_eq; [exact Hx|apply full_shrinks; exact Hx|lia]).
      exists 0%nat; simpl; rewrite !F. split; [reflexivity|split; [left; reflexivity|intros _; lia]].
    + pose proof (shrinks_count x (full_pass x) Hx (full_shrinks x Hx)).
      destruct (IH (n - 1) (full_pass x) (wf_tab _ _ _)) as (k & E1 & E2 & E3); [lia|].
      exists (S k); cbn [passes]. split; [exact E1|split].
      * destruct E2 as [E2|E2]; [left; exact E2|right; lia].
      * intros Hn0. assert (0 <= n - 1) by lia. specialize (E3 H0). lia.
Qed.

Lemma binary_loop_spec fuel left a : wf (as_bool a) -> (count_true (as_bool a) < fuel)%nat ->
  exists k r, binary_thin_loop fuel left a = Some r /\ as_bool r = passes k (as_bool a) /\
    ((exists m, left = Some m /\ k = Z.to_nat m) \/
     odd_pass (as_bool r) = as_bool r \/ even_pass (as_bool r) = as_bool r) /\
    (forall m, left = Some m -> (k <= Z.to_nat m)%nat) /\
    (odd_pass (as_bool a) = as_bool a -> r = a) /\
    (odd_pass (as_bool a) <> as_bool a -> (forall m, left = Some m -> 0 < m) -> exists b, r = Bin b).
Proof.
  revert left a. induction fuel as [|fuel IH]; intros left a Hx Hf; [lia|].
  cbn [binary_thin_loop].
  assert (Hleft : (match left with None => true | Some k => 0 <? k end) = true
                  \/ exists m, left = Some m /\ m <= 0).
  { destruct left as [m|]; [|left; reflexivity]. destruct (Z.ltb_spec 0 m); [left; reflexivity|].
    right; exists m; auto. }
  destruct Hleft as [Hleft|(m & -> & Hm)].
  2:{ replace (0 <? m) with false by lia.
      exists 0%nat, a. split; [reflexivity|]. split; [reflexivity|]. split.
      - left; exists m; split; [reflexivity|lia].
      - split; [intros; lia|]. split; [auto|]. intros _ C. specialize (C m eq_refl); lia. }
  rewrite Hleft. set (x := as_bool a) in *.
  rewrite subiter1_agree by exact Hx. change (bw_sub G123_LUT x) with (odd_pass x).
  destruct (Nat.eqb_spec (count_true (apply_lut x (lut_mutate_mask thin_iter_1_lut))) 0) as [E|E].
  - apply mutate1_zero in E; [|exact Hx].
    exists 0%nat, a. split; [reflexivity|]. split; [reflexivity|]. split; [right; left; exact E|].
    split; [intros; lia|]. split; [auto|]. intros C; contradiction.
  - assert (NE : odd_pass x <> x) by (intros C; apply E; apply mutate1_zero; assumption).
    assert (Wo : wf (odd_pass x)) by apply wf_tab.
    rewrite subiter2_agree by exact Wo. change (bw_sub G123P_LUT (odd_pass x)) with (full_pass x).
    destruct (Nat.eqb_spec (count_true (apply_lut (odd_pass x) (lut_mutate_mask thin_iter_2_lut))) 0) as [E2|E2].
    + apply mutate2_zero in E2; [|exact Wo].
      exists 1%nat, (Bin (odd_pass x)). split; [reflexivity|].
      split; [symmetry; exact E2|]. split; [right; right; exact E2|].
      split; [intros m ->; simpl in Hleft; lia|]. split; [contradiction|]. intros _ _; eexists; reflexivity.
    + pose proof (shrinks_count x (odd_pass x) Hx (odd_shrinks x Hx)) as L1.
      pose proof (shrinks_count (odd_pass x) (full_pass x) Wo (even_shrinks _ Wo)) as L2.
      assert (L3 : count_true (odd_pass x) <> count_true x)
        by (intros C; apply NE; apply shrinks_count_eq; [exact Hx|apply odd_shrinks; exact Hx|auto]).
      destruct (IH (option_map (fun k => k - 1) left) (Bin (full_pass x)) (wf_tab _ _ _))
        as (k & r & R1 & R2 & R3 & R4 & R5 & R6); [simpl; lia|].
      exists (S k), r. split; [exact R1|]. split; [exact R2|]. split; [|split; [|split]].
      * destruct R3 as [(m & Em & Ek)|R3]; [|right; exact R3].
        left. destruct left as [m0|]; [|discriminate]. simpl in Em. injection Em as Em.
        exists m0; split; [reflexivity|]. simpl in Hleft. lia.
      * intros m ->. simpl in Hleft. simpl option_map in R4.
        specialize (R4 (m - 1) eq_refl). lia.
      * contradiction.
      * intros _ _. destruct r as [im|im]; [|eexists; reflexivity].
        exfalso.
        (* the recursive call started from a boolean array, so it returns one *)
        clear - R1. revert R1. generalize (option_map (fun k => k - 1) left) as l.
        generalize (full_pass x) as z. clear x left.
        induction fuel as [|fuel IH]; intros z l R1; cbn [binary_thin_loop] in R1; [discriminate|].
        destruct (match l with None => true | Some k => 0 <? k end); [|discriminate].
        destruct (Nat.eqb _ 0); [discriminate|]. destruct (Nat.eqb _ 0); [discriminate|].
        eapply IH; exact R1.
Qed.

Lemma wf_nonzero im : wf im -> wf (nonzero im).
Proof. apply wf_imap. Qed.

Definition wf_arr (a : arr) : Prop := match a with Raw im => wf im | Bin im => wf im end.
Lemma wf_as_bool a : wf_arr a -> wf (as_bool a).
Proof. destruct a; simpl; auto. apply wf_nonzero. Qed.

Lemma binary_thin_spec left a : wf_arr a ->
  exists k r, binary_thin left a = Some r /\ as_bool r = passes k (as_bool a) /\
    ((exists m, left = Some m /\ k = Z.to_nat m) \/
     odd_pass (as_bool r) = as_bool r \/ even_pass (as_bool r) = as_bool r) /\
    (forall m, left = Some m -> (k <= Z.to_nat m)%nat) /\
    (odd_pass (as_bool a) = as_bool a -> r = a) /\
    (odd_pass (as_bool a) <> as_bool a -> (forall m, left = Some m -> 0 < m) -> exists b, r = Bin b).
Proof.
  intros H. apply wf_as_bool in H. unfold binary_thin. apply binary_loop_spec; [exact H|lia].
Qed.

(** Values are only 0 and 1. *)
Definition binary_valued (im : image Z) : Prop :=
  forall v, In v (concat (rows im)) -> v = 0 \/ v = 1.

Lemma binary_valued_spec im :
  forallb (fun v => (v =? 0) || (v =? 1)) (concat (rows im)) = true <-> binary_valued im.
Proof.
  unfold binary_valued; rewrite forallb_forall; split; intros H v Hv; specialize (H v Hv); lia.
Qed.


Lemma bwmorph_spec im n_iter : wf im ->
  (forall k, n_iter = Some k -> 0 < k) -> binary_valued im ->
  exists k, bwmorph_thin im n_iter = Ok (Some (passes k (nonzero im))) /\
    (full_pass (passes k (nonzero im)) = passes k (nonzero im) \/ n_iter = Some (Z.of_nat k)) /\
    (forall m, n_iter = Some m -> (k <= Z.to_nat m)%nat).
Proof.
  intros H Hk Hb. apply binary_valued_spec in Hb. unfold bwmorph_thin.
  destruct n_iter as [m|].
  - specialize (Hk m eq_refl). replace (m <=? 0) with false by lia. cbv zeta. rewrite Hb.
    destruct (bw_loop_spec (S (S (count_true (nonzero im)))) m (nonzero im)) as (k & E1 & E2 & E3);
      [apply wf_nonzero; exact H|lia|auto|].
    exists k; rewrite E1; split; [reflexivity|split].
    + destruct E2 as [E2|[_ E2]]; [left; exact E2|right; f_equal; lia].
    + intros m' E; injection E as <-; apply E3; lia.
  - cbv zeta. rewrite Hb.
    destruct (bw_loop_spec (S (S (count_true (nonzero im)))) (-1) (nonzero im)) as (k & E1 & E2 & E3);
      [apply wf_nonzero; exact H|lia|auto|].
    exists k; rewrite E1; split; [reflexivity|split].
    + destruct E2 as [E2|[C _]]; [left; exact E2|lia].
    + intros m' E; discriminate.
Qed.

(** The result of [bwmorph_thin] is exactly [n_iter] passes (or the limit). *)
Lemma bwmorph_limit im m : wf im -> binary_valued im -> 0 < m ->
  bwmorph_thin im (Some m) = Ok (Some (passes (Z.to_nat m) (nonzero im))).
Proof.
  intros H Hb Hm. destruct (bwmorph_spec im (Some m) H) as (k & E1 & E2 & E3);
    [intros k E; injection E as <-; exact Hm|exact Hb|].
  rewrite E1; do 2 f_equal. specialize (E3 m eq_refl). destruct E2 as [E2|E2].
  - replace (Z.to_nat m) with ((Z.to_nat m - k) + k)%nat by lia.
    rewrite passes_add. symmetry; apply passes_fixed; exact E2.
  - injection E2 as ->. rewrite Nat2Z.id; reflexivity.
Qed.

Lemma passes_stable k n x : full_pass (passes k x) = passes k x -> (k <= n)%nat -> passes n x = passes k x.
Proof.
  intros F L. replace n with ((n - k) + k)%nat by lia. rewrite passes_add. apply passes_fixed; exact F.
Qed.

Lemma bwmorph_unlimited im : wf im -> binary_valued im ->
  bwmorph_thin im None = Ok (Some (passes (count_true (nonzero im)) (nonzero im))).
Proof.
  intros H Hb. destruct (bwmorph_spec im None H) as (k & E1 & E2 & E3);
    [intros; discriminate|exact Hb|].
  rewrite E1; do 2 f_equal. destruct E2 as [E2|E2]; [|discriminate].
  assert (F := passes_reach_fixpoint (nonzero im) (wf_nonzero _ H)).
  destruct (Nat.le_ge_cases k (count_true (nonzero im))) as [L|L].
  - symmetry; apply passes_stable; assumption.
  - apply passes_stable; assumption.
Qed.

Lemma nonzero_b2z b : nonzero (imap b2z b) = b.
Proof.
  destruct b as [h w rs]; unfold nonzero, imap; simpl; f_equal.
  induction rs as [|r rs IH]; simpl; [reflexivity|]. rewrite IH; f_equal.
  clear; induction r as [|[] r IH]; simpl; rewrite ?IH; reflexivity.
Qed.
Lemma binary_valued_b2z b : binary_valued (imap b2z b).
Proof.
  intros v Hv. unfold imap in Hv; simpl in Hv. rewrite concat_map_flat in Hv.
  apply in_flat_map in Hv. destruct Hv as (r & _ & Hv). apply in_map_iff in Hv.
  destruct Hv as ([] & <- & _); simpl; auto.
Qed.

Lemma bwmorph_idempotent im r : wf im -> bwmorph_thin im None = Ok (Some r) ->
  bwmorph_thin (imap b2z r) None = Ok (Some r).
Proof.
  intros H E.
  assert (Hb : binary_valued im).
  { apply binary_valued_spec. unfold bwmorph_thin in E. cbv zeta in E.
    destruct (forallb _ _); [reflexivity|discriminate]. }
  rewrite bwmorph_unlimited in E by assumption. injection E as <-.
  set (x := nonzero im) in *. assert (Wx : wf x) by (apply wf_nonzero; exact H).
  rewrite bwmorph_unlimited; [|apply wf_imap, passes_wf; exact Wx|apply binary_valued_b2z].
  rewrite nonzero_b2z. do 2 f_equal. apply passes_fixed. apply passes_reach_fixpoint; exact Wx.
Qed.

(** ** Topology of whole runs *)
Definition fgset (x : image bool) : pset := fun p => px false x (fst p) (snd p) = true.

Lemma fg_support x : wf x -> forall p, fgset x p -> In p (coords (ht x) (wd x)).
Proof.
  intros H [r c] E; apply in_coords. destruct (inb (ht x) (wd x) r c) eqn:E0; [reflexivity|].
  unfold fgset in E; simpl in E; rewrite px_out in E by assumption; discriminate.
Qed.

Lemma odd_topology x : wf x -> topology_preserved (fgset x) (fgset (odd_pass x)).
Proof.
  intros H. eapply tp_ext; [| |apply (pass_topology gh_delete_odd sweep_odd (cf x) (coords (ht x) (wd x)))].
  - intros p; reflexivity.
  - intros [r c]; unfold fgset, S'set, odd_pass; simpl; rewrite bw1_px by exact H; reflexivity.
  - apply fg_support; exact H.
Qed.
Lemma even_topology x : wf x -> topology_preserved (fgset x) (fgset (even_pass x)).
Proof.
  intros H. eapply tp_ext; [| |apply (pass_topology gh_delete_even sweep_even (cf x) (coords (ht x) (wd x)))].
  - intros p; reflexivity.
  - intros [r c]; unfold fgset, S'set, even_pass; simpl; rewrite bw2_px by exact H; reflexivity.
  - apply fg_support; exact H.
Qed.
Lemma passes_topology n x : wf x -> topology_preserved (fgset x) (fgset (passes n x)).
Proof.
  revert x; induction n as [|n IH]; intros x H; simpl; [apply tp_refl|].
  eapply tp_trans; [apply odd_topology; exact H|].
  eapply tp_trans; [apply even_topology, wf_tab|]. apply IH, wf_tab.
Qed.

(** End points and isolated pixels stay. *)
Lemma endpoint_kept_local d S r c : d = gh_delete_odd \/ d = gh_delete_even ->
  S r c = true -> degree8 S r c <= 1 -> gh_pass d S r c = true.
Proof.
  intros Hd HS Hdeg. unfold gh_pass, degree8 in *. rewrite HS.
  destruct (S r (c+1)), (S (r-1) (c+1)), (S (r-1) c), (S (r-1) (c-1)), (S r (c-1)),
    (S (r+1) (c-1)), (S (r+1) c), (S (r+1) (c+1)); simpl bz in Hdeg; try lia;
  destruct Hd as [->| ->]; reflexivity.
Qed.

Lemma degree_mono (S T : Z -> Z -> bool) r c : (forall r c, T r c = true -> S r c = true) ->
  degree8 T r c <= degree8 S r c.
Proof.
  intros H. assert (M : forall r c, bz (T r c) <= bz (S r c)).
  { intros r0 c0; specialize (H r0 c0). destruct (T r0 c0), (S r0 c0); simpl; lia. }
  unfold degree8.
  pose proof (M r (c+1)); pose proof (M (r-1) (c+1)); pose proof (M (r-1) c); pose proof (M (r-1) (c-1)).
  pose proof (M r (c-1)); pose proof (M (r+1) (c-1)); pose proof (M (r+1) c); pose proof (M (r+1) (c+1)). lia.
Qed.

Lemma endpoint_kept n x r c : wf x -> px false x r c = true -> degree8 (px false x) r c <= 1 ->
  px false (passes n x) r c = true.
Proof.
  revert x; induction n as [|n IH]; intros x H Hp Hd; simpl; [exact Hp|].
  assert (Wo : wf (odd_pass x)) by apply wf_tab.
  assert (P1 : px false (odd_pass x) r c = true)
    by (unfold odd_pass; rewrite bw1_px by exact H; apply endpoint_kept_local; auto).
  assert (D1 : degree8 (px false (odd_pass x)) r c <= 1)
    by (etransitivity; [apply degree_mono, odd_shrinks; exact H|exact Hd]).
  apply IH; [apply wf_tab| |].
  - unfold full_pass, even_pass. rewrite bw2_px by exact Wo. apply endpoint_kept_local; auto.
  - etransitivity; [apply degree_mono, (even_shrinks (odd_pass x)); exact Wo|exact D1].
Qed.

(** [bwmorph_thin] completes what [binary_thin] leaves unfinished. *)
Lemma bwmorph_completes_binary left a r : wf_arr a -> binary_thin left a = Some r ->
  bwmorph_thin (imap b2z (as_bool r)) None = bwmorph_thin (imap b2z (as_bool a)) None.
Proof.
  intros H E. destruct (binary_thin_spec left a H) as (k & r' & E1 & E2 & _).
  rewrite E in E1; injection E1 as <-. apply wf_as_bool in H.
  assert (Wr : wf (as_bool r)) by (rewrite E2; apply passes_wf; exact H).
  rewrite !bwmorph_unlimited; try apply binary_valued_b2z; try (apply wf_imap; assumption).
  rewrite !nonzero_b2z. do 2 f_equal.
  set (x := as_bool a) in *. rewrite E2 in *. rewrite <- passes_add.
  assert (F := passes_reach_fixpoint x H).
  assert (F2 := passes_reach_fixpoint (passes k x) Wr). rewrite <- passes_add in F2.
  destruct (Nat.le_ge_cases (count_true (passes k x) + k) (count_true x)) as [L|L].
  - symmetry; apply passes_stable; assumption.
  - apply passes_stable; assumption.
Qed.

(** ** Statements in terms of the specification only *)
Lemma gh_pass_ext d S T : (forall r c, S r c = T r c) -> forall r c, gh_pass d S r c = gh_pass d T r c.
Proof. intros H r c; unfold gh_pass; rewrite !H; reflexivity. Qed.
Lemma gh_run_ext n : forall S T, (forall r c, S r c = T r c) -> forall r c, gh_run n S r c = gh_run n T r c.
Proof.
  induction n as [|n IH]; intros S T H r c; simpl; [apply H|].
  apply IH. apply gh_pass_ext, gh_pass_ext, H.
Qed.
Lemma full_pass_px x r c : wf x ->
  px false (full_pass x) r c = gh_pass gh_delete_even (gh_pass gh_delete_odd (px false x)) r c.
Proof.
  intros H. unfold full_pass, even_pass. rewrite bw2_px by apply wf_tab.
  apply gh_pass_ext. intros r0 c0. apply bw1_px; exact H.
Qed.
Lemma passes_gh_run n : forall x, wf x -> forall r c, px false (passes n x) r c = gh_run n (px false x) r c.
Proof.
  induction n as [|n IH]; intros x H r c; simpl; [reflexivity|].
  rewrite IH by apply wf_tab. apply gh_run_ext. intros r0 c0; apply full_pass_px; exact H.
Qed.

Lemma bwmorph_thin_functional im m r : wf im -> bwmorph_thin im (Some m) = Ok (Some r) ->
  0 < m /\ wf r /\ same_shape im r /\
  forall y x, px false r y x = gh_run (Z.to_nat m) (px false (nonzero im)) y x.
Proof.
  intros H E.
  assert (Hm : 0 < m).
  { unfold bwmorph_thin in E. destruct (Z.leb_spec m 0); [discriminate|lia]. }
  assert (Hb : binary_valued im).
  { apply binary_valued_spec. unfold bwmorph_thin in E. cbv zeta in E.
    destruct (m <=? 0); [discriminate|]. destruct (forallb _ _); [reflexivity|discriminate]. }
  rewrite bwmorph_limit in E by assumption. injection E as <-.
  assert (W := wf_nonzero im H). split; [exact Hm|].
  destruct (passes_shrinks (Z.to_nat m) (nonzero im) W) as (W1 & W2 & _).
  split; [exact W1|]. split; [exact W2|]. intros y x; apply passes_gh_run; exact W.
Qed.

Lemma bwmorph_thin_limit_functional im r : wf im -> bwmorph_thin im None = Ok (Some r) ->
  wf r /\ same_shape im r /\
  (forall n y x, (count_true (nonzero im) <= n)%nat ->
     px false r y x = gh_run n (px false (nonzero im)) y x) /\
  (forall y x, gh_pass gh_delete_odd (px false r) y x = px false r y x) /\
  (forall y x, gh_pass gh_delete_even (px false r) y x = px false r y x).
Proof.
  intros H E.
  assert (Hb : binary_valued im).
  { apply binary_valued_spec. unfold bwmorph_thin in E. cbv zeta in E.
    destruct (forallb _ _); [reflexivity|discriminate]. }
  rewrite bwmorph_unlimited in E by assumption. injection E as <-.
  assert (W := wf_nonzero im H). assert (F := passes_reach_fixpoint _ W).
  destruct (passes_shrinks (count_true (nonzero im)) (nonzero im) W) as (W1 & W2 & _).
  split; [exact W1|]. split; [exact W2|]. split.
  - intros n y x Hn. rewrite <- passes_gh_run by exact W.
    rewrite (passes_stable _ n _ F Hn). reflexivity.
  - destruct (full_fixed_parts _ W1 F) as [F1 F2]. split; intros y x.
    + rewrite <- F1 at 2. unfold odd_pass. rewrite bw1_px by exact W1. reflexivity.
    + rewrite <- F2 at 2. unfold even_pass. rewrite bw2_px by exact W1. reflexivity.
Qed.

Lemma bwmorph_thin_outcome im n_iter : wf im ->
  (bwmorph_thin im n_iter = Err ValueError /\
     ((exists k, n_iter = Some k /\ k <= 0) \/ exists v, In v (concat (rows im)) /\ v <> 0 /\ v <> 1))
  \/ (exists r, bwmorph_thin im n_iter = Ok (Some r) /\
     (forall k, n_iter = Some k -> 0 < k) /\ forall v, In v (concat (rows im)) -> v = 0 \/ v = 1).
Proof.
  intros H.
  assert (Hk : (exists k, n_iter = Some k /\ k <= 0) \/ (forall k, n_iter = Some k -> 0 < k)).
  { destruct n_iter as [k|]; [|right; intros; discriminate].
    destruct (Z.leb_spec k 0); [left; exists k; auto|right; intros k' E; injection E as <-; lia]. }
  destruct Hk as [(k & -> & Hk)|Hk].
  - left; split; [unfold bwmorph_thin; replace (k <=? 0) with true by lia; reflexivity|left; eauto].
  - destruct (forallb (fun v => (v =? 0) || (v =? 1)) (concat (rows im))) eqn:Eb.
    + right. assert (Hb := Eb). apply binary_valued_spec in Hb.
      destruct (bwmorph_spec im n_iter H Hk Hb) as (k & E & _).
      eexists; split; [exact E|split; [exact Hk|exact Hb]].
    + left; split.
      * unfold bwmorph_thin; cbv zeta; rewrite Eb. destruct n_iter as [k|]; [|reflexivity].
        destruct (k <=? 0); reflexivity.
      * right. assert (N : existsb (fun v => negb ((v =? 0) || (v =? 1))) (concat (rows im)) = true).
        { clear - Eb. induction (concat (rows im)) as [|v l IH]; simpl in *; [discriminate|].
          destruct ((v =? 0) || (v =? 1)); simpl in *; [apply IH; exact Eb|reflexivity]. }
        apply existsb_exists in N. destruct N as (v & Hv & Nv). exists v; split; [exact Hv|lia].
Qed.

Lemma bwmorph_run im n_iter r : wf im -> bwmorph_thin im n_iter = Ok (Some r) ->
  exists k, r = passes k (nonzero im).
Proof.
  intros H E. destruct (bwmorph_thin_outcome im n_iter H) as [[E' _]|(r' & E' & Hk & Hb)];
    [congruence|].
  destruct (bwmorph_spec im n_iter H Hk Hb) as (k & E2 & _). exists k; congruence.
Qed.

Lemma bwmorph_thin_shrinks im n_iter r : wf im -> bwmorph_thin im n_iter = Ok (Some r) ->
  wf r /\ same_shape im r /\ (forall y x, px false r y x = true -> px 0 im y x <> 0).
Proof.
  intros H E. destruct (bwmorph_run im n_iter r H E) as (k & ->).
  destruct (passes_shrinks k (nonzero im) (wf_nonzero _ H)) as (W1 & W2 & W3).
  split; [exact W1|split; [exact W2|]]. intros y x P. apply W3 in P.
  unfold nonzero in P. change false with ((fun v => negb (v =? 0)) 0) in P. rewrite px_imap in P. lia.
Qed.

Lemma bwmorph_thin_topology im n_iter r : wf im -> bwmorph_thin im n_iter = Ok (Some r) ->
  topology_preserved (fun p => px false (nonzero im) (fst p) (snd p) = true)
                     (fun p => px false r (fst p) (snd p) = true).
Proof.
  intros H E. destruct (bwmorph_run im n_iter r H E) as (k & ->).
  apply passes_topology, wf_nonzero; exact H.
Qed.

Lemma bwmorph_thin_endpoints im n_iter r y x : wf im -> bwmorph_thin im n_iter = Ok (Some r) ->
  px false (nonzero im) y x = true -> degree8 (px false (nonzero im)) y x <= 1 ->
  px false r y x = true.
Proof.
  intros H E. destruct (bwmorph_run im n_iter r H E) as (k & ->).
  apply endpoint_kept, wf_nonzero; exact H.
Qed.

Lemma binary_thin_total left a : wf_arr a -> exists r, binary_thin left a = Some r.
Proof. intros H. destruct (binary_thin_spec left a H) as (k & r & E & _). eauto. Qed.

Lemma binary_thin_run left a r : wf_arr a -> binary_thin left a = Some r ->
  exists k, as_bool r = passes k (as_bool a).
Proof.
  intros H E. destruct (binary_thin_spec left a H) as (k & r' & E' & E2 & _).
  exists k; congruence.
Qed.

Lemma binary_thin_functional left a r : wf_arr a -> binary_thin left a = Some r ->
  wf (as_bool r) /\ same_shape (as_bool a) (as_bool r) /\
  exists k, (forall y x, px false (as_bool r) y x = gh_run k (px false (as_bool a)) y x) /\
    (forall m, left = Some m -> (k <= Z.to_nat m)%nat) /\
    (left = Some (Z.of_nat k) \/ (exists m, left = Some m /\ m <= 0 /\ k = 0%nat) \/
     (forall y x, gh_pass gh_delete_odd (px false (as_bool r)) y x = px false (as_bool r) y x) \/
     (forall y x, gh_pass gh_delete_even (px false (as_bool r)) y x = px false (as_bool r) y x)).
Proof.
  intros H E. destruct (binary_thin_spec left a H) as (k & r' & E' & E2 & E3 & E4 & _).
  rewrite E in E'; injection E' as <-. apply wf_as_bool in H.
  destruct (passes_shrinks k _ H) as (W1 & W2 & _). rewrite <- E2 in W1, W2.
  split; [exact W1|split; [exact W2|]]. exists k. split.
  { intros y x. rewrite E2. apply passes_gh_run; exact H. }
  split; [exact E4|]. destruct E3 as [(m & Em & Ek)|[F|F]].
  - destruct (Z.leb_spec m 0).
    + right; left; exists m; split; [exact Em|split; [lia|lia]].
    + left. rewrite Em; f_equal; lia.
  - right; right; left; intros y x. rewrite <- F at 2. unfold odd_pass. rewrite bw1_px by exact W1. reflexivity.
  - right; right; right; intros y x. rewrite <- F at 2. unfold even_pass. rewrite bw2_px by exact W1. reflexivity.
Qed.

Lemma binary_thin_shrinks left a r : wf_arr a -> binary_thin left a = Some r ->
  wf (as_bool r) /\ same_shape (as_bool a) (as_bool r) /\
  (forall y x, px false (as_bool r) y x = true -> px false (as_bool a) y x = true).
Proof.
  intros H E. destruct (binary_thin_run left a r H E) as (k & ->).
  exact (passes_shrinks k _ (wf_as_bool _ H)).
Qed.

Lemma binary_thin_topology left a r : wf_arr a -> binary_thin left a = Some r ->
  topology_preserved (fun p => px false (as_bool a) (fst p) (snd p) = true)
                     (fun p => px false (as_bool r) (fst p) (snd p) = true).
Proof.
  intros H E. destruct (binary_thin_run left a r H E) as (k & ->).
  exact (passes_topology k _ (wf_as_bool _ H)).
Qed.

Lemma binary_thin_endpoints left a r y x : wf_arr a -> binary_thin left a = Some r ->
  px false (as_bool a) y x = true -> degree8 (px false (as_bool a)) y x <= 1 ->
  px false (as_bool r) y x = true.
Proof.
  intros H E. destruct (binary_thin_run left a r H E) as (k & ->).
  apply endpoint_kept, wf_as_bool; exact H.
Qed.

(** A larger fuel gives the same answer: the fuel is not observable. *)
Lemma binary_loop_fuel f1 f2 left a r : binary_thin_loop f1 left a = Some r -> (f1 <= f2)%nat ->
  binary_thin_loop f2 left a = Some r.
Proof.
  revert f2 left a; induction f1 as [|f1 IH]; intros f2 left a E L; [discriminate|].
  destruct f2 as [|f2]; [lia|]. cbn [binary_thin_loop] in *.
  destruct (match left with None => true | Some k => 0 <? k end); [|exact E].
  destruct (Nat.eqb _ 0); [exact E|]. destruct (Nat.eqb _ 0); [exact E|].
  apply IH; [exact E|lia].
Qed.
Lemma bw_loop_fuel f1 f2 n x r : bw_loop f1 n x = Some r -> (f1 <= f2)%nat -> bw_loop f2 n x = Some r.
Proof.
  revert f2 n x; induction f1 as [|f1 IH]; intros f2 n x E L; [discriminate|].
  destruct f2 as [|f2]; [lia|]. cbn [bw_loop] in *.
  destruct (n =? 0); [exact E|]. cbv zeta in *. destruct (Nat.eqb _ _); [exact E|].
  apply IH; [exact E|lia].
Qed.

Lemma raw_returned left (im : image Z) : wf im ->
  (forall y x, gh_pass gh_delete_odd (px false (nonzero im)) y x = px false (nonzero im) y x) ->
  binary_thin left (Raw im) = Some (Raw im).
Proof.
  intros H F. destruct (binary_thin_spec left (Raw im) H) as (k & r & E & _ & _ & _ & E5 & _).
  rewrite E; f_equal. apply E5. simpl. apply img_ext with (d := false);
    [apply wf_tab|apply wf_nonzero; exact H|split; reflexivity|].
  intros y x _. unfold odd_pass. rewrite bw1_px by (apply wf_nonzero; exact H). apply F.
Qed.
