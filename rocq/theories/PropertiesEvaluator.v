(** Evaluation parameters: theorems. *)
From Verif Require Export SpecEvaluator ProofsResults PropertiesResults.
From Coq Require Import Lia ZifyBool ZifyNat Lqa.
Open Scope Z_scope.
Open Scope list_scope.

(** ** C35 *)
Lemma scale_ok_spec s : scale_ok s = true <-> (0 < s <= 1)%Q.
Proof.
  unfold scale_ok. split.
  - intros H. apply andb_true_iff in H. destruct H as [A B]. apply Qle_bool_iff in B. split; [|exact B]. apply Qnot_le_lt. intros C. apply Qle_bool_iff in C. rewrite C in A. discriminate.
  - intros [A B]. apply Qle_bool_iff in B. rewrite B, andb_true_r. destruct (Qle_bool s 0) eqn:E; [|reflexivity]. apply Qle_bool_iff in E. lra.
Qed.
Lemma mode_is_spec m t : mode_is m t = true <-> m = Some t.
Proof. destruct m as [m|]; cbn; [rewrite text_eqb_spec|]; split; congruence. Qed.
Definition accepted (k : kind) (c : call) : bool :=
  match k with
  | City | OTF => scale_ok (c_scale c) && negb (mode_is (c_mode c) pre_seal && c_inst c)
  | Half => negb (mode_is (c_mode c) pre_seal && c_inst c)
  | _ => scale_ok (c_scale c)
  end.
Lemma accepted_spec k c : accepted k c = true <-> acceptable k c.
Proof.
  unfold acceptable, valid_scale. change (lit "pre-seal") with pre_seal. rewrite <- (mode_is_spec (c_mode c) pre_seal).
  destruct k; unfold accepted; rewrite ?andb_true_iff, ?negb_true_iff, ?andb_false_iff, ?scale_ok_spec;
  destruct (mode_is (c_mode c) pre_seal), (c_inst c); intuition congruence.
Qed.
Lemma outcome k c a : fst (set_eval_params k c a) = if accepted k c then Ok tt else Err AssertionError.
Proof.
  destruct k; cbn [set_eval_params]; unfold bsds_set, sbd_set, reanno_set, city_set, half_set, city_mode, accepted;
  try (destruct (scale_ok (c_scale c)); [|reflexivity]); cbn [negb andb];
  try (destruct (mode_is (c_mode c) pre_seal)); try (destruct (c_inst c)); cbn [negb andb fst]; try reflexivity;
  try (destruct (mode_is (c_mode c) post_seal)); reflexivity.
Qed.

(** A call succeeds exactly for acceptable arguments, whatever happened before; otherwise it raises
    AssertionError. *)
Theorem params_accepted : forall k c a,
  (acceptable k c -> fst (set_eval_params k c a) = Ok tt) /\ (~ acceptable k c -> fst (set_eval_params k c a) = Err AssertionError).
Proof.
  intros k c a. rewrite outcome, <- accepted_spec. destruct (accepted k c); split; intros; congruence.
Qed.
Print Assumptions params_accepted.

(** After a successful call the parameters are those of the selected mode, whatever the history of
    the object. *)
Lemma accepted_effect k c a thin : accepted k c = true -> exists dist kill skip inst e, mode_rule k c dist kill skip inst /\
  a_dist (snd (set_eval_params k c a)) = Some dist /\
  (k <> BSDS -> a_kill (snd (set_eval_params k c a)) = Some kill /\ a_skip (snd (set_eval_params k c a)) = Some skip /\ a_inst (snd (set_eval_params k c a)) = Some inst) /\
  eval_params k thin (snd (set_eval_params k c a)) = Ok e /\ params_rule k thin c dist kill skip e.
Proof.
  intros H. unfold mode_rule, params_rule. change (lit "pre-seal") with pre_seal. change (lit "post-seal") with post_seal.
  assert (X : pre_seal <> post_seal) by discriminate.
  assert (Y1 : forall m, mode_is m pre_seal = true -> m = Some pre_seal) by (intros m; apply mode_is_spec).
  assert (Y2 : forall m, mode_is m post_seal = true -> m = Some post_seal) by (intros m; apply mode_is_spec).
  assert (Y3 : forall m, mode_is m pre_seal = false -> m <> Some pre_seal) by (intros m A B; apply mode_is_spec in B; congruence).
  assert (Y4 : forall m, mode_is m post_seal = false -> m <> Some post_seal) by (intros m A B; apply mode_is_spec in B; congruence).
  destruct k; cbn [set_eval_params]; unfold accepted in H; unfold bsds_set, sbd_set, reanno_set, city_set, half_set, city_mode;
  try (apply andb_true_iff in H; destruct H as [H1 H2]; rewrite H1); try rewrite H; cbn [negb];
  try (destruct (mode_is (c_mode c) pre_seal) eqn:M1; [apply Y1 in M1|apply Y3 in M1]); try (destruct (mode_is (c_mode c) post_seal) eqn:M2; [apply Y2 in M2|apply Y4 in M2]);
  destruct (c_inst c) eqn:Ei; try discriminate; cbn [snd];
  match goal with
  | |- context [a_dist ?st] =>
    eexists; exists (match a_kill st with Some b => b | None => false end), (match a_skip st with Some b => b | None => false end), (match a_inst st with Some b => b | None => false end); eexists
  end;
  cbn [a_dist a_kill a_skip a_inst set_mode set_common set_common_half a_scale a_thinning a_nms eval_params getattr bind];
  (split; [|split; [reflexivity|split; [try (intros; repeat split; reflexivity); intros []; reflexivity|split; [reflexivity|cbn [e_scale e_thinning e_nms e_dist e_kill e_skip e_radius]]]]]);
  try (repeat split; congruence);
  try (split; [reflexivity|]; split; [reflexivity|]; split; [reflexivity|]; split; [reflexivity|]; split; [try (left; repeat split; congruence); right; repeat split; congruence|try (left; repeat split; congruence); right; repeat split; congruence]);
  try (split; [intros; try congruence; repeat split; congruence|split; intros; try congruence; repeat split; congruence]).
Qed.
Lemma after_app k h1 h2 a : after k (h1 ++ h2) a = after k h2 (after k h1 a).
Proof. apply fold_left_app. Qed.
Theorem params_of_mode : forall k thin h c a, acceptable k c -> exists dist kill skip inst e, mode_rule k c dist kill skip inst /\
  params_rule k thin c dist kill skip e /\ eval_params k thin (after k (h ++ [c]) a) = Ok e /\
  (k <> BSDS -> a_inst (after k (h ++ [c]) a) = Some inst).
Proof.
  intros k thin h c a H. apply accepted_spec in H. rewrite after_app. cbn [after fold_left].
  destruct (accepted_effect k c (after k h a) thin H) as (d & ki & sk & i & e & R & D & K & E & P). exists d, ki, sk, i, e.
  split; [exact R|]. split; [exact P|]. split; [exact E|]. intros N. apply (K N).
Qed.
Print Assumptions params_of_mode.

(** A rejected call never changes the tolerance, the two options or the kind of edges; if the scale
    is invalid it changes nothing at all. *)
Lemma rejected_effect k c a : accepted k c = false ->
  let b := snd (set_eval_params k c a) in a_dist b = a_dist a /\ a_kill b = a_kill a /\ a_skip b = a_skip a /\ a_inst b = a_inst a.
Proof.
  intros H. destruct k; cbn [set_eval_params]; unfold bsds_set, sbd_set, reanno_set, city_set, half_set, city_mode; unfold accepted in H;
  try (rewrite H; cbn [negb]; repeat split; reflexivity); try (destruct (scale_ok (c_scale c)); cbn [negb andb] in *; [|repeat split; reflexivity]);
  apply negb_false_iff, andb_true_iff in H; destruct H as [-> ->]; repeat split; reflexivity.
Qed.
Theorem rejected_call_effect : forall k c a, ~ acceptable k c ->
  let b := snd (set_eval_params k c a) in
  (a_dist b = a_dist a /\ a_kill b = a_kill a /\ a_skip b = a_skip a /\ a_inst b = a_inst a) /\ (~ valid_scale k c -> b = a).
Proof.
  intros k c a H b. split.
  - apply rejected_effect. destruct (accepted k c) eqn:E; [|reflexivity]. exfalso. apply H, accepted_spec, E.
  - unfold valid_scale. intros V. assert (S : k <> Half /\ scale_ok (c_scale c) = false).
    { split; [tauto|]. destruct (scale_ok (c_scale c)) eqn:E; [|reflexivity]. exfalso. apply V. right. apply scale_ok_spec, E. }
    destruct S as [N S]. subst b. destruct k; cbn [set_eval_params]; unfold bsds_set, sbd_set, reanno_set, city_set; try rewrite S; try reflexivity. congruence.
Qed.
Print Assumptions rejected_call_effect.
(** But a rejected Cityscapes call is not without effect. *)
Theorem rejected_call_changes_nothing_refuted :
  ~ (forall k c a, ~ acceptable k c -> snd (set_eval_params k c a) = a).
Proof.
  intros H. specialize (H City (mkCall (Some (lit "pre-seal")) 1 false false true 1 false false) fresh).
  assert (E : ~ acceptable City (mkCall (Some (lit "pre-seal")) 1 false false true 1 false false)).
  { intros [_ N]. apply N. cbn. auto. }
  specialize (H E). vm_compute in H. discriminate.
Qed.
Print Assumptions rejected_call_changes_nothing_refuted.
(** Tolerance and options are those of the last accepted call, whatever rejected calls follow. *)
Theorem rejected_calls_keep_mode : forall k h1 c h2 a, acceptable k c -> Forall (fun c => ~ acceptable k c) h2 ->
  let x := after k (h1 ++ [c]) a in let y := after k (h1 ++ c :: h2) a in
  a_dist y = a_dist x /\ a_kill y = a_kill x /\ a_skip y = a_skip x /\ a_inst y = a_inst x.
Proof.
  intros k h1 c h2 a H F. cbv zeta. change (h1 ++ c :: h2) with (h1 ++ [c] ++ h2). rewrite app_assoc, (after_app k (h1 ++ [c]) h2). generalize (after k (h1 ++ [c]) a). intros x.
  revert x. induction F as [|c' h2 N F IH]; intros x; [repeat split; reflexivity|]. cbn [after fold_left]. fold (after k h2 (snd (set_eval_params k c' x))).
  destruct (IH (snd (set_eval_params k c' x))) as (A & B & C & D). destruct (rejected_call_effect k c' x N) as [(A' & B' & C' & D') _]. cbv zeta in *.
  repeat split; congruence.
Qed.
Print Assumptions rejected_calls_keep_mode.

(** The parameters can be read exactly if some call was accepted. *)
Lemma readable k thin a : (exists e, eval_params k thin a = Ok e) <->
  (k = Half \/ a_scale a <> None) /\ a_thinning a <> None /\ a_nms a <> None /\ a_dist a <> None /\ (k = BSDS \/ a_kill a <> None /\ a_skip a <> None).
Proof.
  unfold eval_params. destruct a as [[s|] [t|] [n|] [d|] [ki|] [sk|] i]; destruct k; cbn; split; intros H; try (destruct H as [e H]; discriminate);
    try (eexists; reflexivity); try intuition congruence.
Qed.
Theorem params_readable_after_acceptance : forall k thin h,
  (exists e, eval_params k thin (after k h fresh) = Ok e) <-> Exists (acceptable k) h.
Proof.
  intros k thin h. split.
  - intros H. apply readable in H. destruct H as (_ & _ & _ & D & _).
    assert (G : forall h a, ~ Exists (acceptable k) h -> a_dist (after k h a) = a_dist a).
    { clear. induction h as [|c h IH]; intros a N; [reflexivity|]. cbn [after fold_left]. fold (after k h (snd (set_eval_params k c a))). rewrite IH.
      - apply (rejected_call_effect k c a). intros C. apply N. left. exact C.
      - intros C. apply N. right. exact C. }
    destruct (Exists_dec (acceptable k) h) as [E|E]; [|exact E|rewrite (G h fresh E) in D; cbn in D; congruence].
    intros c. destruct (accepted k c) eqn:A; [left; apply accepted_spec, A|right; intros C; apply accepted_spec in C; congruence].
  - intros H. apply Exists_exists in H. destruct H as (c & I & H). apply in_split in I. destruct I as (h1 & h2 & ->).
    change (h1 ++ c :: h2) with (h1 ++ [c] ++ h2). rewrite app_assoc, after_app.
    destruct (params_of_mode k thin h1 c fresh H) as (d & ki & sk & i & e & _ & _ & E & _).
    assert (R : exists e, eval_params k thin (after k (h1 ++ [c]) fresh) = Ok e) by (exists e; exact E). clear E e.
    revert R. generalize (after k (h1 ++ [c]) fresh). induction h2 as [|c' h2 IH]; intros a R; [exact R|]. cbn [after fold_left]. apply IH.
    destruct (accepted k c') eqn:A.
    + destruct (accepted_effect k c' a thin A) as (? & ? & ? & ? & e & _ & _ & _ & E & _). exists e. exact E.
    + apply readable in R. apply readable. destruct R as (S & T & N & D & K). destruct (rejected_effect k c' a A) as (D' & K' & S' & _). cbv zeta in *.
      rewrite D', K', S'. clear D' K' S'. 
      assert (G : (k = Half \/ a_scale (snd (set_eval_params k c' a)) <> None) /\ a_thinning (snd (set_eval_params k c' a)) <> None /\ a_nms (snd (set_eval_params k c' a)) <> None);
        [|tauto].
      destruct k; cbn [set_eval_params]; unfold bsds_set, sbd_set, reanno_set, city_set, half_set, city_mode;
      try (destruct (scale_ok (c_scale c')); cbn [negb]; [|cbn [snd]; tauto]);
      repeat match goal with |- context [if ?b then _ else _] => destruct b end; cbn; repeat split; try (right; congruence); try (left; congruence); congruence.
Qed.
Print Assumptions params_readable_after_acceptance.

(** Histories that only use the two named modes keep the options consistent: internal predictions
    are removed and absent classes skipped exactly when edges are not instance sensitive. *)
Theorem named_modes_are_consistent : forall k h, (k = SBD \/ k = City \/ k = Half \/ k = OTF) ->
  Forall (fun c => c_mode c = Some (lit "pre-seal") \/ c_mode c = Some (lit "post-seal")) h ->
  let a := after k h fresh in
  a_dist a = None /\ a_kill a = None /\ a_skip a = None /\ a_inst a = None \/
  exists b, a_inst a = Some b /\ a_kill a = Some (negb b) /\ a_skip a = Some (negb b).
Proof.
  intros k h Hk F. cbv zeta.
  assert (G : forall h a, Forall (fun c => c_mode c = Some (lit "pre-seal") \/ c_mode c = Some (lit "post-seal")) h ->
    (a_dist a = None /\ a_kill a = None /\ a_skip a = None /\ a_inst a = None \/ exists b, a_inst a = Some b /\ a_kill a = Some (negb b) /\ a_skip a = Some (negb b)) ->
    let z := after k h a in a_dist z = None /\ a_kill z = None /\ a_skip z = None /\ a_inst z = None \/ exists b, a_inst z = Some b /\ a_kill z = Some (negb b) /\ a_skip z = Some (negb b)).
  { clear h F. induction h as [|c h IH]; intros a F Ia; [exact Ia|]. inversion F as [|? ? M F']; subst. cbn [after fold_left]. apply IH; [exact F'|]. clear IH F F'.
    destruct (accepted k c) eqn:A.
    - right. destruct (accepted_effect k c a false A) as (d & ki & sk & i & e & R & _ & K & _). assert (N : k <> BSDS) by (intuition congruence).
      destruct (K N) as (K1 & K2 & K3). exists i. rewrite K1, K2, K3. split; [reflexivity|].
      assert (P : ki = negb i /\ sk = negb i); [|destruct P; split; congruence].
      destruct Hk as [->|[->|[->| ->]]]; destruct R as (R1 & R2 & _); destruct M as [M|M];
        solve [destruct (R1 M) as (_ & -> & -> & ->); split; reflexivity|destruct (R2 M) as (_ & -> & -> & ->); split; reflexivity].
    - destruct (rejected_effect k c a A) as (A1 & A2 & A3 & A4). cbv zeta in *. rewrite A1, A2, A3, A4. exact Ia. }
  apply (G h fresh F). left. repeat split; reflexivity.
Qed.
Print Assumptions named_modes_are_consistent.
(** Custom parameters can be inconsistent (only a message is printed). *)
Theorem custom_modes_are_consistent_refuted :
  ~ (forall k c, acceptable k c -> k <> BSDS -> let a := after k [c] fresh in a_kill a = Some true -> a_inst a = Some true -> False).
Proof.
  intros H. apply (H SBD (mkCall None 1 false false true (2 # 100) false true)); [|discriminate|reflexivity|reflexivity].
  split; [right; cbn; lra|]. intros [[C|[C|C]] _]; discriminate.
Qed.
Print Assumptions custom_modes_are_consistent_refuted.

(** The SBD post-SEAL mode does not use the caller's tolerance; the Cityscapes one does. *)
Theorem sbd_uses_requested_tolerance_refuted :
  ~ (forall c, acceptable SBD c -> c_mode c = Some (lit "post-seal") -> a_dist (after SBD [c] fresh) = Some (c_dist c)).
Proof.
  intros H. specialize (H (mkCall (Some (lit "post-seal")) 1 false false true (1 # 100) false false)).
  assert (A : acceptable SBD (mkCall (Some (lit "post-seal")) 1 false false true (1 # 100) false false)).
  { split; [right; cbn; lra|]. intros [[C|[C|C]] _]; discriminate. }
  specialize (H A eq_refl). discriminate.
Qed.
Print Assumptions sbd_uses_requested_tolerance_refuted.
Theorem cityscapes_uses_requested_tolerance : forall k h c a, (k = City \/ k = Half \/ k = OTF) -> acceptable k c -> c_mode c = Some (lit "post-seal") ->
  a_dist (after k (h ++ [c]) a) = Some (c_dist c).
Proof.
  intros k h c a Hk H M. apply accepted_spec in H. rewrite after_app. cbn [after fold_left].
  destruct (accepted_effect k c (after k h a) false H) as (d & ki & sk & i & e & R & D & _). rewrite D. f_equal.
  destruct Hk as [->|[->| ->]]; destruct R as (_ & R & _); destruct (R M) as (-> & _); reflexivity.
Qed.
Print Assumptions cityscapes_uses_requested_tolerance.

(** Sample names: an empty or missing list is rejected and the old list is kept; otherwise the list
    is the given one, or the one found on disk. *)
Theorem sample_names_set : forall found arg old,
  match set_sample_names found arg old with
  | (Ok _, Some l) => l <> [] /\ (arg = Some l \/ arg = None /\ found = Some l)
  | (Ok _, None) => False
  | (Err e, l) => e = AssertionError /\ l = old /\ (arg = Some [] \/ arg = None /\ (found = None \/ found = Some []))
  end.
Proof. intros [[|a l]|] [[|b m]|] old; cbn; intuition congruence. Qed.
Print Assumptions sample_names_set.
