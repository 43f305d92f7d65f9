(** Theorems for C01-C08.  Entry points of the model: [recall], [precision], [f1],
    [interpolated_max_scores], [check_thresholds], [summarise], [calculate_metrics]. *)
From Verif Require Import ModelMetrics SpecMetrics ProofsMetrics ProofsMetrics2.
From Coq Require Import Lqa Permutation.
Open Scope Q_scope.

(** ** C01: recall, precision, F1 *)
Theorem recall_is_ratio_in_unit_interval : forall c s, (0 <= c <= s)%Z ->
  0 <= recall c s <= 1 /\ (recall c s == 0 <-> c = 0%Z) /\ (recall c s == 1 <-> c = s /\ (0 < s)%Z) /\
  ((0 < s)%Z -> recall c s * inject_Z s == inject_Z c).
Proof.
  intros c s H. split; [apply recall_unit; exact H|]. split; [apply recall_zero; exact H|].
  split; [apply recall_one; exact H|]. intros Hs. rewrite recall_value by exact Hs.
  field. pose proof (inject_pos s Hs). lra.
Qed.
Print Assumptions recall_is_ratio_in_unit_interval.
Theorem precision_is_ratio_in_unit_interval : forall c s, (0 <= c <= s)%Z ->
  0 <= precision c s <= 1 /\ (precision c s == 0 <-> c = 0%Z) /\ (precision c s == 1 <-> c = s /\ (0 < s)%Z) /\
  ((0 < s)%Z -> precision c s * inject_Z s == inject_Z c).
Proof. exact recall_is_ratio_in_unit_interval. Qed.
Print Assumptions precision_is_ratio_in_unit_interval.

(** No division error: a zero denominator (which forces a zero count) gives 0. *)
Theorem zero_denominator_gives_zero : recall 0 0 == 0 /\ precision 0 0 == 0 /\ f1 0 0 == 0.
Proof. repeat split; vm_compute; reflexivity. Qed.
Print Assumptions zero_denominator_gives_zero.

Theorem f1_is_harmonic_mean : forall p r, 0 < p -> 0 < r -> 1 / f1 p r == (1 / p + 1 / r) / 2.
Proof. exact f1_harmonic. Qed.
Print Assumptions f1_is_harmonic_mean.
Theorem f1_between_min_and_max : forall p r, 0 <= p -> 0 <= r -> Qmin p r <= f1 p r <= Qmax p r.
Proof. exact f1_bounds. Qed.
Print Assumptions f1_between_min_and_max.
Theorem f1_in_unit_interval : forall p r, 0 <= p <= 1 -> 0 <= r <= 1 -> 0 <= f1 p r <= 1.
Proof. exact f1_unit. Qed.
Print Assumptions f1_in_unit_interval.
Theorem f1_zero_exactly : forall p r, 0 <= p -> 0 <= r -> (f1 p r == 0 <-> p == 0 \/ r == 0).
Proof. exact f1_zero_iff. Qed.
Print Assumptions f1_zero_exactly.
Theorem f1_one_exactly : forall p r, 0 <= p <= 1 -> 0 <= r <= 1 -> (f1 p r == 1 <-> p == 1 /\ r == 1).
Proof. exact f1_one_iff. Qed.
Print Assumptions f1_one_exactly.
Theorem f1_monotone_and_symmetric : forall p p' r r', 0 <= p -> p <= p' -> 0 <= r -> r <= r' ->
  f1 p r <= f1 p' r' /\ f1 p r == f1 r p.
Proof. intros; split; [apply f1_mono; assumption|apply f1_sym]. Qed.
Print Assumptions f1_monotone_and_symmetric.

(** ** C02: the interpolated maximum *)
(** Linear interpolation between the values at thresholds [i-1] and [i], [k] hundredths of
    the way. *)
Definition between (x : list Q) (i : nat) (k : Z) : Q :=
  nth (i - 1) x 0 + (nth i x 0 - nth (i - 1) x 0) * (inject_Z k / 100).

Theorem best_score_is_defined : forall th rec prec, th <> [] -> length rec = length th ->
  length prec = length th -> exists b, interpolated_max_scores th rec prec = Ok b.
Proof. exact ims_ok. Qed.
Print Assumptions best_score_is_defined.

Lemma between_lerp x i k : between x i k == lerp x i k.
Proof. unfold between, lerp. ring. Qed.

(** It dominates every listed threshold and every interpolated point; it is attained at the
    first threshold or at an interpolated point, in which case every earlier point is
    strictly worse; and the reported F1 is that of the reported precision and recall. *)
Theorem best_score_is_maximum : forall th rec prec b, length rec = length th -> length prec = length th ->
  interpolated_max_scores th rec prec = Ok b ->
  (forall j, (j < length th)%nat -> f1 (nth j prec 0) (nth j rec 0) <= sc_f b) /\
  (forall i k, (1 <= i < length th)%nat -> (0 <= k <= 100)%Z ->
     f1 (between prec i k) (between rec i k) <= sc_f b) /\
  (b = (nth 0 th 0, nth 0 rec 0, nth 0 prec 0, f1 (nth 0 prec 0) (nth 0 rec 0)) \/
   exists i k, (1 <= i < length th)%nat /\ (0 <= k <= 100)%Z /\
     sc_t b == between th i k /\ sc_r b == between rec i k /\ sc_p b == between prec i k /\
     f1 (nth 0 prec 0) (nth 0 rec 0) < sc_f b /\
     (forall i' k', (1 <= i')%nat -> (0 <= k' <= 100)%Z -> ((i' < i)%nat \/ i' = i /\ (k' < k)%Z) ->
        f1 (between prec i' k') (between rec i' k') < sc_f b)) /\
  sc_f b = f1 (sc_p b) (sc_r b).
Proof.
  intros th rec prec b Lr Lp E. destruct (ims_spec th rec prec b Lr Lp E) as (H1 & H2 & H3 & H4).
  split; [exact H1|]. split; [intros i k Hi Hk; rewrite !between_lerp; auto|]. split; [|exact H4].
  destruct H3 as [H3|(i & k & Hi & Hk & -> & L & F)]; [left; exact H3|right].
  exists i, k. split; [exact Hi|]. split; [exact Hk|].
  split; [symmetry; apply between_lerp|]. split; [symmetry; apply between_lerp|].
  split; [symmetry; apply between_lerp|]. split; [exact L|].
  intros i' k' Hi' Hk' Hl. rewrite !between_lerp. apply F; assumption.
Qed.
Print Assumptions best_score_is_maximum.

Theorem best_score_in_range : forall th rec prec b lo hi, length rec = length th -> length prec = length th ->
  interpolated_max_scores th rec prec = Ok b -> unit_list rec -> unit_list prec ->
  (forall t, In t th -> lo <= t <= hi) ->
  0 <= sc_r b <= 1 /\ 0 <= sc_p b <= 1 /\ 0 <= sc_f b <= 1 /\ lo <= sc_t b <= hi.
Proof.
  intros th rec prec b lo hi Lr Lp E Ur Up Ht.
  destruct (ims_unit th rec prec b Lr Lp E Ur Up) as (A & B & C).
  repeat split; try apply A; try apply B; try apply C; apply (ims_threshold th rec prec b lo hi Lr Lp E Ht).
Qed.
Print Assumptions best_score_in_range.

(** The natural reading "the best score is one of the listed thresholds' scores" is false. *)
Theorem best_score_at_listed_threshold_refuted :
  ~ (forall th rec prec b, length rec = length th -> length prec = length th ->
     interpolated_max_scores th rec prec = Ok b -> unit_list rec -> unit_list prec ->
     exists j, (j < length th)%nat /\ sc_f b == f1 (nth j prec 0) (nth j rec 0)).
Proof.
  intros H.
  destruct (interpolated_max_scores [1#3; 2#3] [1; 1#10] [1#10; 1]) as [b|e] eqn:E; [|discriminate].
  assert (Hb : (1#2) < sc_f b).
  { apply (Qlt_le_trans _ (f1 (lerp [1#10; 1] 1 50) (lerp [1; 1#10] 1 50))); [vm_compute; reflexivity|].
    pose proof (ims_spec [1#3; 2#3] [1; 1#10] [1#10; 1] b eq_refl eq_refl E) as (_ & A & _).
    apply A; simpl; lia. }
  assert (U : unit_list [1; 1#10]).
  { intros x [<-|[<-|[]]]; lra. }
  assert (U' : unit_list [1#10; 1]).
  { intros x [<-|[<-|[]]]; lra. }
  destruct (H [1#3; 2#3] [1; 1#10] [1#10; 1] b eq_refl eq_refl E U U') as (j & Hj & Eq).
  rewrite Eq in Hb. destruct j as [|[|j]]; [vm_compute in Hb; discriminate|vm_compute in Hb; discriminate|].
  simpl in Hj; lia.
Qed.
Print Assumptions best_score_at_listed_threshold_refuted.

(** ** C03: aggregation *)
(** The threshold rows are exactly the scores of the summed counts. *)
Theorem threshold_rows_are_scores_of_summed_counts : forall thr samples rows trs ov th,
  check_thresholds thr = Ok th -> summarise thr samples = Ok (rows, trs, ov) ->
  length trs = length th /\
  forall i, (i < length th)%nat ->
    let R := recall (total count_r i samples) (total sum_r i samples) in
    let P := precision (total count_p i samples) (total sum_p i samples) in
    nth i trs (0, 0, 0, 0) = (nth i th 0, R, P, f1 P R).
Proof.
  intros thr samples rows trs ov th E H.
  destruct (summarise_ok_inv thr samples th rows trs ov E H) as (N & S & ods & I & R).
  unfold finish in R. injection R as -> -> ->.
  split; [rewrite map_length, seq_length; reflexivity|].
  intros i Hi. cbv zeta. set (g := fun i => _).
  rewrite (nth_indep _ _ (g O)) by (rewrite map_length, seq_length; exact Hi).
  rewrite map_nth, seq_nth by exact Hi. rewrite Nat.add_0_l. unfold g.
  pose proof (totals_shaped _ _ S) as T. destruct (totals_at (length th) samples i S) as (A & B & C & D).
  rewrite (nth_f1s _ _ _ T Hi), (nth_recs _ _ _ T Hi), (nth_precs _ _ _ T Hi).
  unfold rec_at, prec_at. rewrite A, B, C, D. reflexivity.
Qed.
Print Assumptions threshold_rows_are_scores_of_summed_counts.

(** Reordering the samples only reorders the sample rows. *)
Theorem sample_order_is_irrelevant : forall thr s1 s2, Permutation s1 s2 ->
  match summarise thr s1, summarise thr s2 with
  | Ok (rows1, t1, o1), Ok (rows2, t2, o2) => Permutation rows1 rows2 /\ t1 = t2 /\ o1 = o2
  | Err e1, Err e2 => e1 = e2
  | _, _ => False
  end.
Proof. exact summarise_perm. Qed.
Print Assumptions sample_order_is_irrelevant.

(** One row per sample, in order, carrying its name. *)
Theorem sample_rows_follow_samples : forall thr samples rows trs ov,
  summarise thr samples = Ok (rows, trs, ov) -> map r_name rows = map fst samples.
Proof.
  intros thr samples rows trs ov H. destruct (check_thresholds thr) as [th|e] eqn:E.
  2:{ unfold summarise in H; rewrite E in H; discriminate. }
  destruct (summarise_ok_inv thr samples th rows trs ov E H) as (N & S & ods & I & R).
  unfold finish in R. injection R as -> -> ->. rewrite map_map. reflexivity.
Qed.
Print Assumptions sample_rows_follow_samples.

(** ODS, AUC and AP are computed from the threshold rows alone. *)
Theorem dataset_scores_depend_on_threshold_rows : forall thr samples rows trs ov th,
  check_thresholds thr = Ok th -> summarise thr samples = Ok (rows, trs, ov) ->
  let rec := map sc_r trs in let prec := map sc_p trs in
  interpolated_max_scores th rec prec = Ok (ODS_threshold ov, ODS_recall ov, ODS_precision ov, ODS_f1 ov) /\
  AUC ov = auc rec prec /\ AP ov = average_precision rec prec.
Proof.
  intros thr samples rows trs ov th E H.
  destruct (summarise_ok_inv thr samples th rows trs ov E H) as (N & S & ods & I & R).
  unfold finish in R. injection R as -> -> ->. cbv zeta. rewrite !map_map. cbn [ODS_threshold ODS_recall ODS_precision ODS_f1 AUC AP].
  pose proof (totals_shaped _ _ S) as T.
  assert (X : forall l, length l = length th -> map (fun i => nth i l 0) (seq 0 (length th)) = l).
  { intros l L. rewrite <- L. clear. induction l as [|a l IH]; [reflexivity|]. cbn [length seq map nth].
    f_equal. rewrite <- seq_shift, map_map. exact IH. }
  assert (X1 := X _ (recs_length _ _ T)). assert (X2 := X _ (precs_length _ _ T)).
  destruct ods as [[[a b] c] d]. unfold sc_t, sc_r, sc_p, sc_f. cbn [fst snd].
  rewrite X1, X2. auto.
Qed.
Print Assumptions dataset_scores_depend_on_threshold_rows.

(** With sane counts everything reported lies in [0,1]. *)
Theorem reported_scores_in_unit_interval : forall thr samples rows trs ov,
  summarise thr samples = Ok (rows, trs, ov) -> (forall s, In s samples -> sane (snd s)) ->
  0 <= ODS_recall ov <= 1 /\ 0 <= ODS_precision ov <= 1 /\ 0 <= ODS_f1 ov <= 1 /\
  0 <= OIS_recall ov <= 1 /\ 0 <= OIS_precision ov <= 1 /\ 0 <= OIS_f1 ov <= 1 /\
  0 <= AUC ov <= 1 /\ 0 <= AP ov <= 100#101 /\
  (forall s, In s trs -> 0 <= sc_r s <= 1 /\ 0 <= sc_p s <= 1 /\ 0 <= sc_f s <= 1).
Proof.
  intros thr samples rows trs ov H Hs. destruct (check_thresholds thr) as [th|e] eqn:E.
  2:{ unfold summarise in H; rewrite E in H; discriminate. }
  pose proof (threshold_rows_are_scores_of_summed_counts _ _ _ _ _ _ E H) as [TL TR].
  destruct (summarise_ok_inv thr samples th rows trs ov E H) as (N & S & ods & I & R).
  pose proof (totals_shaped _ _ S) as T. pose proof (totals_sane _ _ S Hs) as TS.
  pose proof (sane_recs _ _ T TS) as Ur. pose proof (sane_precs _ _ T TS) as Up.
  destruct (ims_unit th _ _ ods (recs_length _ _ T) (precs_length _ _ T) I Ur Up) as (A1 & A2 & A3).
  unfold finish in R. injection R as -> _ ->. cbn [ODS_recall ODS_precision ODS_f1 OIS_recall OIS_precision OIS_f1 AUC AP].
  rewrite fold_best_sum. cbn [b_cr b_sr b_cp b_sp]. rewrite !Z.add_0_l.
  assert (OR : 0 <= recall (zsum (map (fun c => nth (best_idx c) (count_r c) 0%Z) (map snd samples)))
                    (zsum (map (fun c => nth (best_idx c) (sum_r c) 0%Z) (map snd samples))) <= 1 /\
               0 <= precision (zsum (map (fun c => nth (best_idx c) (count_p c) 0%Z) (map snd samples)))
                    (zsum (map (fun c => nth (best_idx c) (sum_p c) 0%Z) (map snd samples))) <= 1).
  { clear -Hs. split; apply recall_unit; induction samples as [|s l IH]; simpl; try lia;
    pose proof (Hs s (or_introl eq_refl) (best_idx (snd s)));
    pose proof (IH ltac:(intros; apply Hs; right; assumption)); lia. }
  destruct OR as [O1 O2].
  split; [exact A1|]. split; [exact A2|]. split; [exact A3|]. split; [exact O1|]. split; [exact O2|].
  split; [apply f1_unit; assumption|]. split; [apply auc_bounds; exact Up|]. split; [apply ap_bounds; exact Up|].
  intros s Hin. apply (In_nth _ _ (0,0,0,0)) in Hin. destruct Hin as (i & Hi & <-).
  rewrite TR by (rewrite <- TL; exact Hi). cbv zeta. unfold sc_r, sc_p, sc_f; cbn [fst snd].
  assert (X : 0 <= recall (total count_r i samples) (total sum_r i samples) <= 1)
    by (apply recall_unit, sane_total; intros s Hin; apply (Hs s Hin i)).
  assert (Y : 0 <= precision (total count_p i samples) (total sum_p i samples) <= 1)
    by (apply recall_unit, sane_total; intros s Hin; apply (Hs s Hin i)).
  split; [exact X|]. split; [exact Y|]. apply f1_unit; assumption.
Qed.
Print Assumptions reported_scores_in_unit_interval.

(** ** C04: parallel = sequential *)
Theorem metrics_independent_of_parallelism : forall (S : Type) schedule schedule' nproc nproc' (name : S -> string) ev thr samples,
  Permutation schedule (seq 0 (length samples)) -> Permutation schedule' (seq 0 (length samples)) ->
  calculate_metrics schedule nproc name ev thr samples = calculate_metrics schedule' nproc' name ev thr samples.
Proof. intros. rewrite !calculate_metrics_any_schedule by assumption. reflexivity. Qed.
Print Assumptions metrics_independent_of_parallelism.

(** Each sample's own counts are what is summarised, under its own name; the first sample
    (in list order) whose evaluation raises decides the exception. *)
Theorem metrics_pair_samples_with_their_counts : forall (S : Type) schedule nproc (name : S -> string) ev thr samples,
  Permutation schedule (seq 0 (length samples)) ->
  (exists ms, Forall2 (fun s c => ev s = Ok c) samples ms /\
     calculate_metrics schedule nproc name ev thr samples = summarise thr (combine (map name samples) ms)) \/
  (exists pre s post e, samples = pre ++ s :: post /\ ev s = Err e /\ (forall u, In u pre -> exists c, ev u = Ok c) /\
     calculate_metrics schedule nproc name ev thr samples = Err e).
Proof.
  intros S schedule nproc name ev thr samples P. rewrite calculate_metrics_any_schedule by exact P.
  destruct (run_chunk ev samples) as [ms|e] eqn:E.
  - left. exists ms. split; [apply run_chunk_ok; exact E|reflexivity].
  - right. pose proof (proj1 (run_chunk_err ev samples e) E) as (pre & s & post & H1 & H2 & H3).
    exists pre, s, post, e. auto.
Qed.
Print Assumptions metrics_pair_samples_with_their_counts.

(** ** C05: per-image best thresholds and OIS *)
Definition image_f1 (c : counts) (i : nat) : Q := f1 (prec_at c i) (rec_at c i).
Definition best_for_image (n : nat) (c : counts) (i : nat) : Prop :=
  (i < n)%nat /\ (forall j, (j < n)%nat -> image_f1 c j <= image_f1 c i) /\
  (forall j, (j < i)%nat -> image_f1 c j < image_f1 c i).

Theorem image_rows_and_ois : forall thr samples rows trs ov th,
  check_thresholds thr = Ok th -> summarise thr samples = Ok (rows, trs, ov) ->
  exists idx, Forall2 (fun s i => best_for_image (length th) (snd s) i) samples idx /\
    rows = map (fun si => let '(s, i) := si in
              mkRow (fst s) (nth i th 0) (rec_at (snd s) i) (prec_at (snd s) i) (image_f1 (snd s) i))
              (combine samples idx) /\
    let sum_at (f : counts -> list Z) := zsum (map (fun si => nth (snd si) (f (snd (fst si))) 0%Z) (combine samples idx)) in
    OIS_recall ov = recall (sum_at count_r) (sum_at sum_r) /\
    OIS_precision ov = precision (sum_at count_p) (sum_at sum_p) /\
    OIS_f1 ov = f1 (OIS_precision ov) (OIS_recall ov).
Proof.
  intros thr samples rows trs ov th E H.
  destruct (summarise_ok_inv thr samples th rows trs ov E H) as (N & S & ods & I & R).
  unfold finish in R. injection R as -> -> ->.
  exists (map (fun s => best_idx (snd s)) samples).
  assert (B : forall s, In s samples -> shaped (length th) (snd s) /\ best_for_image (length th) (snd s) (best_idx (snd s))).
  { intros s Hs. unfold all_shaped in S. rewrite Forall_forall in S. specialize (S s Hs). split; [exact S|].
    destruct (best_idx_spec (length th) (snd s) ltac:(destruct th; [congruence|simpl; lia]) S) as [_ (F1 & F2 & F3)].
    rewrite (f1s_length _ _ S) in *. split; [exact F1|]. unfold image_f1. split.
    - intros j Hj. rewrite <- !(nth_f1s (length th)) by assumption. apply F2; exact Hj.
    - intros j Hj. rewrite <- !(nth_f1s (length th)) by (assumption || lia). apply F3; exact Hj. }
  split; [|split].
  - clear -B. induction samples as [|s l IH]; simpl; constructor.
    + apply B; left; reflexivity.
    + apply IH; intros; apply B; right; assumption.
  - clear -B. induction samples as [|s l IH]; [reflexivity|]. cbn [map combine]. f_equal.
    + destruct (B s (or_introl eq_refl)) as [Sh (Hi & _)]. unfold row_of. cbv zeta.
      rewrite (nth_f1s _ _ _ Sh Hi), (nth_recs _ _ _ Sh Hi), (nth_precs _ _ _ Sh Hi). reflexivity.
    + apply IH; intros; apply B; right; assumption.
  - cbv zeta. cbn [OIS_recall OIS_precision OIS_f1]. rewrite fold_best_sum. cbn [b_cr b_sr b_cp b_sp].
    rewrite !Z.add_0_l, !map_map.
    assert (X : forall f : counts -> list Z,
      map (fun s => nth (best_idx (snd s)) (f (snd s)) 0%Z) samples =
      map (fun si => nth (snd si) (f (snd (fst si))) 0%Z) (combine samples (map (fun s => best_idx (snd s)) samples))).
    { intros f. clear. induction samples as [|s l IH]; [reflexivity|]. simpl. f_equal. exact IH. }
    rewrite !X. auto.
Qed.
Print Assumptions image_rows_and_ois.

(** Choosing the best threshold per image does not guarantee OIS >= ODS. *)
Definition s_a := ("a"%string, mkCounts [1;1]%Z [1;1]%Z [1;1]%Z [1;1]%Z).
Definition s_b := ("b"%string, mkCounts [0;0]%Z [1;1]%Z [0;0]%Z [2;0]%Z).
Theorem ois_at_least_ods_refuted :
  ~ (forall thr samples rows trs ov, summarise thr samples = Ok (rows, trs, ov) ->
       (forall s, In s samples -> sane (snd s)) -> ODS_f1 ov <= OIS_f1 ov).
Proof.
  intros H. destruct (summarise (AInt 2) [s_a; s_b]) as [[[rows trs] ov]|e] eqn:E; [|vm_compute in E; discriminate].
  assert (Hs : forall s, In s [s_a; s_b] -> sane (snd s)).
  { intros s [<-|[<-|[]]] i; destruct i as [|[|[|i]]]; simpl; lia. }
  specialize (H _ _ _ _ _ E Hs).
  assert (X : match summarise (AInt 2) [s_a; s_b] with Ok (_, _, ov) => negb (Qle_bool (ODS_f1 ov) (OIS_f1 ov)) | _ => false end = true)
    by (vm_compute; reflexivity).
  rewrite E in X. apply negb_true_iff in X. apply Qle_bool_iff in H. congruence.
Qed.
Print Assumptions ois_at_least_ods_refuted.

(** ** C06: average precision *)
(** AP is the mean over the 100 recall levels 0, .01, .., .99 — divided by 101 — of the best
    precision reached at that recall or more (0 if none). *)
Theorem ap_level_value : forall t rec prec,
  (forall i, (i < length rec)%nat -> (i < length prec)%nat -> t <= nth i rec 0 -> nth i prec 0 <= ap_at t rec prec) /\
  0 <= ap_at t rec prec /\
  (ap_at t rec prec = 0 \/
   exists i, (i < length rec)%nat /\ (i < length prec)%nat /\ t <= nth i rec 0 /\ ap_at t rec prec = nth i prec 0).
Proof. exact ap_at_spec. Qed.
Print Assumptions ap_level_value.
Theorem ap_is_sum_over_levels : forall rec prec,
  average_precision rec prec == fold_right Qplus 0 (map (fun k => ap_at (inject_Z k / 100) rec prec) (zseq 100)) / 101.
Proof.
  intros rec prec. unfold average_precision, grid.
  assert (G : forall l a, fold_left (fun a t => a + ap_at t rec prec / 101) (map (fun k => inject_Z k / 100) l) a ==
    a + fold_right Qplus 0 (map (fun k => ap_at (inject_Z k / 100) rec prec) l) / 101).
  { induction l as [|k l IH]; intros a; cbn [map fold_left fold_right]; [field|]. rewrite IH. field. }
  rewrite G. field.
Qed.
Print Assumptions ap_is_sum_over_levels.
Theorem ap_range : forall rec prec, unit_list prec -> 0 <= average_precision rec prec <= 100#101.
Proof. exact ap_bounds. Qed.
Print Assumptions ap_range.
Theorem ap_one_is_unreachable : forall rec prec, unit_list prec -> ~ average_precision rec prec == 1.
Proof. intros rec prec U H. destruct (ap_bounds rec prec U) as [_ B]. rewrite H in B. lra. Qed.
Print Assumptions ap_one_is_unreachable.
Theorem ap_of_perfect_detector : forall rec prec i, (i < length rec)%nat -> (i < length prec)%nat -> unit_list prec ->
  (99#100) <= nth i rec 0 -> nth i prec 0 == 1 -> average_precision rec prec == 100#101.
Proof. exact ap_perfect. Qed.
Print Assumptions ap_of_perfect_detector.
Theorem ap_monotone : forall rec rec' prec prec',
  length rec = length prec -> length rec' = length rec -> length prec' = length prec ->
  (forall i, nth i rec 0 <= nth i rec' 0) -> (forall i, nth i prec 0 <= nth i prec' 0) ->
  average_precision rec prec <= average_precision rec' prec'.
Proof. exact ap_mono. Qed.
Print Assumptions ap_monotone.

(** ** C07: AUC *)
Theorem auc_range : forall rec prec, unit_list prec -> 0 <= auc rec prec <= 1.
Proof. exact auc_bounds. Qed.
Print Assumptions auc_range.
Theorem auc_of_constant_recall_is_zero : forall rec prec v, (forall r, In r rec -> r == v) -> auc rec prec == 0.
Proof. exact auc_constant. Qed.
Print Assumptions auc_of_constant_recall_is_zero.
Theorem auc_monotone_in_precision : forall rec prec prec', Forall2 Qle prec prec' -> auc rec prec <= auc rec prec'.
Proof. exact auc_mono. Qed.
Print Assumptions auc_monotone_in_precision.
(** Unlike AP, the AUC of a perfect detector (recall and precision 1 everywhere) is 0. *)
Theorem auc_of_perfect_detector_is_one_refuted :
  ~ (forall rec prec, rec <> [] -> length rec = length prec ->
       (forall i, (i < length rec)%nat -> nth i rec 0 == 1 /\ nth i prec 0 == 1) -> auc rec prec == 1).
Proof.
  intros H. specialize (H [1; 1] [1; 1] ltac:(discriminate) eq_refl).
  assert (auc [1; 1] [1; 1] == 0) as E by (apply (auc_constant _ _ 1); intros r [<-|[<-|[]]]; reflexivity).
  rewrite E in H. assert (0 == 1) as C.
  { apply H. intros [|[|i]] Hi; simpl in *; try lia; split; reflexivity. }
  vm_compute in C; discriminate.
Qed.
Print Assumptions auc_of_perfect_detector_is_one_refuted.

(** ** C08: thresholds *)
Theorem int_thresholds : forall n, (1 <= n)%Z ->
  exists th, check_thresholds (AInt n) = Ok th /\ length th = Z.to_nat n /\
  (forall k, (k < Z.to_nat n)%nat -> nth k th 0 == inject_Z (Z.of_nat k + 1) / inject_Z (n + 1)) /\
  (forall k, (k < Z.to_nat n)%nat -> 0 < nth k th 0 < 1) /\
  (forall k, (S k < Z.to_nat n)%nat -> nth k th 0 < nth (S k) th 0 /\
     nth (S k) th 0 - nth k th 0 == 1 / inject_Z (n + 1)) /\
  (forall k, (k < Z.to_nat n)%nat -> nth k th 0 + nth (Z.to_nat n - 1 - k) th 0 == 1).
Proof.
  intros n Hn. destruct (thresholds_int n Hn) as (th & E & L & V). exists th.
  assert (P : 0 < inject_Z (n + 1)) by (apply inject_pos; lia).
  split; [exact E|]. split; [exact L|]. split; [exact V|]. split; [|split].
  - intros k Hk. rewrite V by exact Hk. split.
    + apply Qlt_shift_div_l; [exact P|]. rewrite Qmult_0_l. apply inject_pos; lia.
    + apply Qlt_shift_div_r; [exact P|]. rewrite Qmult_1_l. rewrite <- Zlt_Qlt. lia.
  - intros k Hk. rewrite !V by lia.
    assert (E1 : inject_Z (Z.of_nat (S k) + 1) == inject_Z (Z.of_nat k + 1) + 1).
    { unfold Qeq; cbn [Qnum Qden inject_Z Qplus]. lia. }
    rewrite E1. assert (X : (inject_Z (Z.of_nat k + 1) + 1) / inject_Z (n + 1) - inject_Z (Z.of_nat k + 1) / inject_Z (n + 1) == 1 / inject_Z (n + 1)) by (field; lra).
    split; [|exact X]. assert (0 < 1 / inject_Z (n + 1)) by (apply Qlt_shift_div_l; lra). lra.
  - intros k Hk. rewrite !V by lia.
    assert (E1 : inject_Z (Z.of_nat (Z.to_nat n - 1 - k) + 1) == inject_Z (n + 1) - inject_Z (Z.of_nat k + 1)).
    { unfold Qeq; cbn [Qnum Qden inject_Z Qplus Qminus Qopp]. lia. }
    rewrite E1. field. lra.
Qed.
Print Assumptions int_thresholds.
Theorem invalid_int_thresholds : check_thresholds (AInt 0) = Ok [] /\
  check_thresholds (AInt (-1)) = Err ZeroDivisionError /\
  forall n, (n < -1)%Z -> check_thresholds (AInt n) = Err ValueError.
Proof.
  split; [reflexivity|]. split; [reflexivity|]. intros n Hn. unfold check_thresholds, thresholds_of_int.
  replace (n + 1 =? 0)%Z with false by lia. replace (n <? 0)%Z with true by lia. reflexivity.
Qed.
Print Assumptions invalid_int_thresholds.
Theorem other_threshold_specs : forall a,
  match a with
  | AInt _ => True
  | ABool b => check_thresholds a = check_thresholds (AInt (if b then 1 else 0))
  | AFloat q => check_thresholds a = Ok [q]
  | AList l => (exists qs, l = map INum qs /\ check_thresholds a = Ok qs) \/
               (In INest l /\ check_thresholds a = Err ValueError)
  | AOther => check_thresholds a = Err ValueError
  end.
Proof.
  intros [n|b|q|l|]; [exact I|destruct b; reflexivity|reflexivity| |reflexivity].
  unfold check_thresholds. induction l as [|[q|] l IH]; simpl.
  - left; exists []; auto.
  - destruct (items_nums l) as [qs|]; simpl in *.
    + destruct IH as [(qs' & -> & E)|[_ E]]; [|discriminate]. injection E as ->.
      left; exists (q :: qs'); auto.
    + destruct IH as [(qs' & _ & E)|[H _]]; [discriminate|]. right; auto.
  - right; auto.
Qed.
Print Assumptions other_threshold_specs.
(** An empty threshold list always makes the evaluation fail. *)
Theorem no_thresholds_is_an_error : forall thr samples, check_thresholds thr = Ok [] ->
  summarise thr samples = Err (match samples with [] => IndexError | _ => ValueError end).
Proof. exact summarise_empty_th. Qed.
Print Assumptions no_thresholds_is_an_error.

(** ** Concrete cases meeting the hypotheses *)
Definition ex_a := ("a"%string, mkCounts [3;2;1]%Z [4;4;4]%Z [3;2;1]%Z [6;3;1]%Z).
Definition ex_b := ("b"%string, mkCounts [1;1;0]%Z [2;2;2]%Z [1;1;0]%Z [5;1;0]%Z).
Example ex_summary_value :
  match summarise (AInt 3) [ex_a; ex_b] with
  | Ok (rows, trs, ov) => (map r_name rows, map (fun r => Qred (r_f1 r)) rows, map (fun s => Qred (sc_f s)) trs,
                           Qred (OIS_f1 ov), Qle_bool (OIS_f1 ov) (ODS_f1 ov))
  | Err _ => ([], [], [], 0, false)
  end = (["a"; "b"]%string, [3#5; 2#3], [8#17; 3#5; 2#7], 8#13, false).
Proof. vm_compute. reflexivity. Qed.
Example ex_sane : forall s, In s [ex_a; ex_b] -> sane (snd s).
Proof. intros s [<-|[<-|[]]] i; destruct i as [|[|[|[|i]]]]; simpl; lia. Qed.
Example ex_schedule : calculate_metrics [1; 0]%nat 4 fst (fun s => Ok (snd s)) (AInt 3) [ex_a; ex_b]
  = calculate_metrics [0; 1]%nat 1 fst (fun s => Ok (snd s)) (AInt 3) [ex_a; ex_b].
Proof. apply metrics_independent_of_parallelism; [apply perm_swap|apply Permutation_refl]. Qed.
Example ex_auc : negb (Qle_bool (auc [0; 1#2; 1] [1; 1; 1#2]) (1#2)) = true.
Proof. vm_compute. reflexivity. Qed.
