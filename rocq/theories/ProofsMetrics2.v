(** Aggregation (C03-C05), AP and AUC (C06, C07), thresholds (C08). *)
From Verif Require Export SpecMetrics ProofsMetrics.
From Coq Require Import Lqa Qfield Permutation Sorted Setoid Morphisms ZifyBool ZifyNat.
Open Scope Q_scope.

(** ** argmax *)
Lemma argmax_from_spec l : forall best bv i full,
  (forall j, (j < i)%nat -> nth j full 0 <= bv) -> (best < i)%nat -> nth best full 0 = bv ->
  (forall j, (j < best)%nat -> nth j full 0 < bv) ->
  skipn i full = l ->
  let r := argmax_from best bv i l in
  (r < i + length l)%nat /\ (forall j, (j < i + length l)%nat -> nth j full 0 <= nth r full 0) /\
  (forall j, (j < r)%nat -> nth j full 0 < nth r full 0).
Proof.
  induction l as [|v l IH]; intros best bv i full H1 Hb Ev H2 Hs; cbn [argmax_from].
  - simpl length. rewrite Nat.add_0_r, Ev. auto.
  - assert (Hn : nth i full 0 = v).
    { clear -Hs. revert i Hs; induction full as [|a f IHf]; intros [|i] Hs; simpl in *; try discriminate.
      - injection Hs; auto.
      - apply IHf; exact Hs. }
    assert (Hs' : skipn (S i) full = l).
    { clear -Hs. revert i Hs; induction full as [|a f IHf]; intros [|i] Hs; simpl in *; try discriminate.
      - injection Hs; auto.
      - apply IHf; exact Hs. }
    simpl length. replace (i + S (length l))%nat with (S i + length l)%nat by lia.
    destruct (Qle_bool v bv) eqn:E; cbn [negb].
    + apply Qle_bool_iff in E. apply IH; auto.
      intros j Hj. destruct (Nat.eq_dec j i) as [->|]; [rewrite Hn; exact E|apply H1; lia].
    + apply Qle_bool_false in E. apply IH; auto.
      * intros j Hj. destruct (Nat.eq_dec j i) as [->|]; [rewrite Hn; apply Qle_refl|].
        apply Qle_trans with bv; [apply H1; lia|lra].
      * intros j Hj. apply Qle_lt_trans with bv; [apply H1; exact Hj|exact E].
Qed.


Lemma argmax_spec l : l <> [] -> exists i, argmax l = Some i /\ first_max l i.
Proof.
  destruct l as [|v l]; [congruence|]. intros _. exists (argmax_from 0 v 1 l). split; [reflexivity|].
  unfold first_max. cbn [length].
  apply (argmax_from_spec l 0 v 1 (v :: l)); try reflexivity; try lia.
  intros j Hj. replace j with O by lia. apply Qle_refl.
Qed.

(** ** the sample loop *)

Lemma shaped_dec n c :
  (Nat.eqb (length (count_r c)) n && Nat.eqb (length (sum_r c)) n
   && Nat.eqb (length (count_p c)) n && Nat.eqb (length (sum_p c)) n)%bool = true <-> shaped n c.
Proof. rewrite !andb_true_iff, !Nat.eqb_eq. unfold shaped. tauto. Qed.

Definition f1s (c : counts) : list Q := snd (compute_rec_prec_f1 c).
Definition recs (c : counts) : list Q := fst (fst (compute_rec_prec_f1 c)).
Definition precs (c : counts) : list Q := snd (fst (compute_rec_prec_f1 c)).

Lemma recs_length n c : shaped n c -> length (recs c) = n.
Proof. intros (H1 & H2 & _). unfold recs; simpl. rewrite map2_length. lia. Qed.
Lemma precs_length n c : shaped n c -> length (precs c) = n.
Proof. intros (_ & _ & H1 & H2). unfold precs; simpl. rewrite map2_length. lia. Qed.
Lemma f1s_length n c : shaped n c -> length (f1s c) = n.
Proof.
  intros H. unfold f1s, compute_rec_prec_f1; cbn [snd]. destruct H as (H1 & H2 & H3 & H4).
  rewrite !map2_length. lia.
Qed.
Lemma nth_recs n c i : shaped n c -> (i < n)%nat -> nth i (recs c) 0 = rec_at c i.
Proof. intros (H1 & H2 & _) Hi. unfold recs; cbn. apply nth_map2; lia. Qed.
Lemma nth_precs n c i : shaped n c -> (i < n)%nat -> nth i (precs c) 0 = prec_at c i.
Proof. intros (_ & _ & H1 & H2) Hi. unfold precs; cbn. apply nth_map2; lia. Qed.
Lemma nth_f1s n c i : shaped n c -> (i < n)%nat -> nth i (f1s c) 0 = f1 (prec_at c i) (rec_at c i).
Proof.
  intros H Hi. unfold f1s, compute_rec_prec_f1; cbn [snd].
  rewrite (nth_map2 f1 _ _ i 0 0 0).
  - f_equal; [apply (nth_precs n c i H Hi)|apply (nth_recs n c i H Hi)].
  - destruct H as (H1 & H2 & H3 & H4). rewrite map2_length; lia.
  - destruct H as (H1 & H2 & H3 & H4). rewrite map2_length; lia.
Qed.

Definition best_idx (c : counts) : nat := match argmax (f1s c) with Some i => i | None => 0%nat end.
Definition row_of (th : list Q) (s : string * counts) : sample_row :=
  let i := best_idx (snd s) in
  mkRow (fst s) (nth i th 0) (nth i (recs (snd s)) 0) (nth i (precs (snd s)) 0) (nth i (f1s (snd s)) 0).

Lemma best_idx_spec n c : (0 < n)%nat -> shaped n c ->
  argmax (f1s c) = Some (best_idx c) /\ first_max (f1s c) (best_idx c).
Proof.
  intros Hn H. destruct (argmax_spec (f1s c)) as (i & E & F).
  - intros C. pose proof (f1s_length n c H) as L. rewrite C in L. simpl in L. lia.
  - unfold best_idx; rewrite E; auto.
Qed.

Lemma sample_loop_ok th samples : (0 < length th)%nat -> forall tot best rows,
  Forall (fun s => shaped (length th) (snd s)) samples ->
  sample_loop th samples tot best rows =
  Ok (fold_left add_counts (map snd samples) tot,
      fold_left (fun b c => add_best b c (best_idx c)) (map snd samples) best,
      rows ++ map (row_of th) samples).
Proof.
  intros Hn. induction samples as [|[name c] samples IH]; intros tot best rows H; cbn [sample_loop map fold_left].
  - rewrite app_nil_r. reflexivity.
  - inversion H as [|? ? H1 H2]; subst. cbn [snd] in H1.
    rewrite (proj2 (shaped_dec (length th) c) H1). cbn [negb].
    change (compute_rec_prec_f1 c) with (recs c, precs c, f1s c). cbv beta iota.
    destruct (best_idx_spec (length th) c Hn H1) as [-> _].
    rewrite IH by exact H2. cbn [snd]. rewrite <- app_assoc. reflexivity.
Qed.

Lemma sample_loop_err th samples : forall tot best rows,
  ~ Forall (fun s => shaped (length th) (snd s)) samples \/ (length th = 0%nat /\ samples <> []) ->
  sample_loop th samples tot best rows = Err ValueError.
Proof.
  induction samples as [|[name c] samples IH]; intros tot best rows H; cbn [sample_loop].
  - exfalso. destruct H as [H|[_ H]]; [apply H; constructor|congruence].
  - destruct (Nat.eqb _ _ && _ && _ && _)%bool eqn:E; cbn [negb]; [|reflexivity].
    apply shaped_dec in E. change (compute_rec_prec_f1 c) with (recs c, precs c, f1s c). cbv beta iota.
    pose proof (f1s_length _ _ E) as L.
    destruct (f1s c) as [|v l] eqn:Ef; cbn [argmax]; [reflexivity|]. simpl in L.
    apply IH. destruct H as [H|[H _]]; [|lia]. left. intros F; apply H; constructor; assumption.
Qed.

(** ** totals *)

Lemma add_arr_length a b n : length a = n -> length b = n -> length (add_arr a b) = n.
Proof. intros; unfold add_arr; rewrite map2_length; lia. Qed.
Lemma nth_add_arr a b n i : length a = n -> length b = n ->
  nth i (add_arr a b) 0%Z = (nth i a 0 + nth i b 0)%Z.
Proof.
  intros Ha Hb. destruct (Nat.lt_ge_cases i n) as [L|L].
  - unfold add_arr. apply nth_map2; lia.
  - rewrite !nth_overflow; try lia. rewrite (add_arr_length a b n); lia.
Qed.
Lemma add_counts_shaped n a b : shaped n a -> shaped n b -> shaped n (add_counts a b).
Proof. intros (A1 & A2 & A3 & A4) (B1 & B2 & B3 & B4). repeat split; apply add_arr_length; auto. Qed.
Lemma zero_shaped n : shaped n (zero_counts n).
Proof. repeat split; apply repeat_length. Qed.

Section Tot.
Variable f : counts -> list Z.
Hypothesis f_add : forall a b, f (add_counts a b) = add_arr (f a) (f b).
Hypothesis f_len : forall n c, shaped n c -> length (f c) = n.
Hypothesis f_zero : forall n, f (zero_counts n) = repeat 0%Z n.
Lemma fold_total n samples i : Forall (fun s => shaped n (snd s)) samples -> forall tot, shaped n tot ->
  shaped n (fold_left add_counts (map snd samples) tot) /\
  nth i (f (fold_left add_counts (map snd samples) tot)) 0%Z = (nth i (f tot) 0 + total f i samples)%Z.
Proof.
  induction samples as [|s samples IH]; intros H tot Ht; cbn [map fold_left].
  - split; [exact Ht|]. unfold total; simpl. lia.
  - inversion H; subst. destruct (IH H3 (add_counts tot (snd s))) as [S E]; [apply add_counts_shaped; auto|].
    split; [exact S|]. rewrite E, f_add, (nth_add_arr _ _ n) by (apply f_len; auto).
    unfold total; simpl. lia.
Qed.
Lemma fold_total0 n samples i : Forall (fun s => shaped n (snd s)) samples ->
  nth i (f (fold_left add_counts (map snd samples) (zero_counts n))) 0%Z = total f i samples.
Proof.
  intros H. destruct (fold_total n samples i H (zero_counts n) (zero_shaped n)) as [_ E].
  rewrite E, f_zero, nth_repeat. lia.
Qed.
End Tot.

Definition totals n (samples : list (string * counts)) := fold_left add_counts (map snd samples) (zero_counts n).

Lemma totals_shaped n samples : Forall (fun s => shaped n (snd s)) samples -> shaped n (totals n samples).
Proof.
  intros H. apply (fold_total count_r ltac:(reflexivity) ltac:(intros ? ? (?&?&?&?); auto) ltac:(reflexivity) n samples 0 H).
  apply zero_shaped.
Qed.
Lemma totals_at n samples i : Forall (fun s => shaped n (snd s)) samples ->
  nth i (count_r (totals n samples)) 0%Z = total count_r i samples /\
  nth i (sum_r (totals n samples)) 0%Z = total sum_r i samples /\
  nth i (count_p (totals n samples)) 0%Z = total count_p i samples /\
  nth i (sum_p (totals n samples)) 0%Z = total sum_p i samples.
Proof.
  intros H. repeat split; apply fold_total0; try reflexivity; try (intros ? ? (?&?&?&?)); auto.
Qed.

Lemma add_arr_comm a b : add_arr a b = add_arr b a.
Proof.
  unfold add_arr, map2. revert b; induction a as [|x a IH]; intros [|y b]; simpl; try reflexivity.
  rewrite IH. f_equal. lia.
Qed.
Lemma add_arr_assoc a b c : add_arr (add_arr a b) c = add_arr a (add_arr b c).
Proof.
  unfold add_arr, map2. revert b c; induction a as [|x a IH]; intros [|y b] [|z c]; simpl; try reflexivity.
  rewrite IH. f_equal. lia.
Qed.
Lemma add_counts_swap a b c : add_counts (add_counts a b) c = add_counts (add_counts a c) b.
Proof.
  unfold add_counts; simpl. rewrite !add_arr_assoc.
  rewrite (add_arr_comm (count_r b)), (add_arr_comm (sum_r b)), (add_arr_comm (count_p b)), (add_arr_comm (sum_p b)).
  reflexivity.
Qed.
Lemma fold_counts_perm l1 l2 : Permutation l1 l2 -> forall t, fold_left add_counts l1 t = fold_left add_counts l2 t.
Proof.
  induction 1 as [|x l1 l2 P IH|x y l|l1 l2 l3 P1 IH1 P2 IH2]; intros t; simpl; auto.
  - rewrite add_counts_swap. reflexivity.
  - rewrite IH1; apply IH2.
Qed.
Lemma fold_best_perm (g : counts -> nat) l1 l2 : Permutation l1 l2 -> forall t,
  fold_left (fun b c => add_best b c (g c)) l1 t = fold_left (fun b c => add_best b c (g c)) l2 t.
Proof.
  induction 1 as [|x l1 l2 P IH|x y l|l1 l2 l3 P1 IH1 P2 IH2]; intros t; simpl; auto.
  - f_equal. unfold add_best; simpl. f_equal; lia.
  - rewrite IH1; apply IH2.
Qed.

Definition finish (th : list Q) (tot : counts) (best : best4) (rows : list sample_row) (ods : score) :=
  (rows, map (fun i => (nth i th 0, nth i (recs tot) 0, nth i (precs tot) 0, nth i (f1s tot) 0))
             (seq 0 (length th)),
   mkOverall (sc_t ods) (sc_r ods) (sc_p ods) (sc_f ods) (recall (b_cr best) (b_sr best))
     (precision (b_cp best) (b_sp best)) (f1 (precision (b_cp best) (b_sp best)) (recall (b_cr best) (b_sr best)))
     (auc (recs tot) (precs tot)) (average_precision (recs tot) (precs tot))).

Lemma summarise_unfold thr samples th : check_thresholds thr = Ok th ->
  summarise thr samples =
  bind (sample_loop th samples (zero_counts (length th)) (mkBest 0 0 0 0) []) (fun acc =>
    bind (interpolated_max_scores th (recs (fst (fst acc))) (precs (fst (fst acc)))) (fun ods =>
      Ok (finish th (fst (fst acc)) (snd (fst acc)) (snd acc) ods))).
Proof.
  intros E. unfold summarise. rewrite E. cbn [bind].
  destruct (sample_loop _ _ _ _ _) as [[[tot best] rows]|e]; cbn [bind fst snd]; [|reflexivity].
  change (compute_rec_prec_f1 tot) with (recs tot, precs tot, f1s tot). cbv beta iota. reflexivity.
Qed.

Lemma summarise_empty_th thr samples : check_thresholds thr = Ok [] ->
  summarise thr samples = Err (match samples with [] => IndexError | _ => ValueError end).
Proof.
  intros E. rewrite (summarise_unfold _ _ _ E). destruct samples as [|s l].
  - reflexivity.
  - rewrite sample_loop_err; [reflexivity|]. right; split; [reflexivity|discriminate].
Qed.

Definition all_shaped n (samples : list (string * counts)) := Forall (fun s => shaped n (snd s)) samples.
Lemma all_shaped_dec n samples : all_shaped n samples \/ ~ all_shaped n samples.
Proof.
  unfold all_shaped. destruct (Forall_dec (fun s : string * counts => shaped n (snd s))
    (fun s => match bool_dec _ true with
              | left e => left (proj1 (shaped_dec n (snd s)) e)
              | right e => right (fun h => e (proj2 (shaped_dec n (snd s)) h)) end) samples); auto.
Qed.

Lemma summarise_outcome thr samples th : check_thresholds thr = Ok th -> th <> [] ->
  (all_shaped (length th) samples /\ exists ods,
     interpolated_max_scores th (recs (totals (length th) samples)) (precs (totals (length th) samples)) = Ok ods /\
     summarise thr samples = Ok (finish th (totals (length th) samples)
        (fold_left (fun b c => add_best b c (best_idx c)) (map snd samples) (mkBest 0 0 0 0))
        (map (row_of th) samples) ods))
  \/ (~ all_shaped (length th) samples /\ summarise thr samples = Err ValueError).
Proof.
  intros E Hth. assert (Hn : (0 < length th)%nat) by (destruct th; [congruence|simpl; lia]).
  rewrite (summarise_unfold _ _ _ E).
  destruct (all_shaped_dec (length th) samples) as [S|S]; [left|right]; (split; [exact S|]).
  - rewrite sample_loop_ok by assumption. cbn [bind fst snd app].
    fold (totals (length th) samples). pose proof (totals_shaped _ _ S) as T.
    destruct (ims_ok th (recs (totals (length th) samples)) (precs (totals (length th) samples))) as [b Hb].
    + exact Hth.
    + apply recs_length; exact T.
    + apply precs_length; exact T.
    + exists b. split; [exact Hb|]. rewrite Hb. reflexivity.
  - rewrite sample_loop_err by auto. reflexivity.
Qed.

Lemma summarise_ok_inv thr samples th rows trs ov : check_thresholds thr = Ok th ->
  summarise thr samples = Ok (rows, trs, ov) ->
  th <> [] /\ all_shaped (length th) samples /\ exists ods,
    interpolated_max_scores th (recs (totals (length th) samples)) (precs (totals (length th) samples)) = Ok ods /\
    (rows, trs, ov) = finish th (totals (length th) samples)
        (fold_left (fun b c => add_best b c (best_idx c)) (map snd samples) (mkBest 0 0 0 0))
        (map (row_of th) samples) ods.
Proof.
  intros E H. assert (N : th <> []).
  { intros ->. rewrite (summarise_empty_th thr samples E) in H; discriminate. }
  split; [exact N|].
  destruct (summarise_outcome thr samples th E N) as [(S & ods & I & R)|(_ & R)]; rewrite R in H; [|discriminate].
  split; [exact S|]. exists ods. split; [exact I|]. congruence.
Qed.

Lemma summarise_perm thr s1 s2 : Permutation s1 s2 ->
  match summarise thr s1, summarise thr s2 with
  | Ok (rows1, t1, o1), Ok (rows2, t2, o2) => Permutation rows1 rows2 /\ t1 = t2 /\ o1 = o2
  | Err e1, Err e2 => e1 = e2
  | _, _ => False
  end.
Proof.
  intros P. destruct (check_thresholds thr) as [th|e] eqn:E.
  2:{ unfold summarise. rewrite E. reflexivity. }
  destruct th as [|t th].
  { rewrite !summarise_empty_th by exact E. destruct s1, s2; try reflexivity.
    - apply Permutation_nil in P; discriminate.
    - symmetry in P; apply Permutation_nil in P; discriminate. }
  set (TH := t :: th) in *.
  assert (Q : totals (length TH) s1 = totals (length TH) s2) by (apply fold_counts_perm, Permutation_map, P).
  assert (A : all_shaped (length TH) s1 <-> all_shaped (length TH) s2).
  { unfold all_shaped; rewrite !Forall_forall. split; intros H x Hx; apply H.
    - apply (Permutation_in _ (Permutation_sym P)); exact Hx.
    - apply (Permutation_in _ P); exact Hx. }
  destruct (summarise_outcome thr s1 TH E ltac:(discriminate)) as [(S1 & o1 & H1 & R1)|(S1 & R1)];
  destruct (summarise_outcome thr s2 TH E ltac:(discriminate)) as [(S2 & o2 & H2 & R2)|(S2 & R2)];
    rewrite R1, R2; try tauto.
  rewrite Q, H2 in H1. injection H1 as <-.
  rewrite <- Q. rewrite (fold_best_perm best_idx _ _ (Permutation_map snd P)).
  unfold finish. split; [apply Permutation_map; exact P|]. auto.
Qed.

(** best-index sums *)
Lemma fold_best_sum (g : counts -> nat) (l : list counts) : forall b,
  fold_left (fun b c => add_best b c (g c)) l b =
  mkBest (b_cr b + zsum (map (fun c => nth (g c) (count_r c) 0) l))%Z
         (b_sr b + zsum (map (fun c => nth (g c) (sum_r c) 0) l))%Z
         (b_cp b + zsum (map (fun c => nth (g c) (count_p c) 0) l))%Z
         (b_sp b + zsum (map (fun c => nth (g c) (sum_p c) 0) l))%Z.
Proof.
  induction l as [|c l IH]; intros b; simpl.
  - destruct b; simpl. f_equal; lia.
  - rewrite IH. unfold add_best; simpl. f_equal; lia.
Qed.

(** ** AP *)
Lemma max0_spec l : (forall v, In v l -> v <= max0 l) /\ 0 <= max0 l /\ (max0 l = 0 \/ In (max0 l) l).
Proof.
  unfold max0. assert (G : forall l m,
    let r := fold_left (fun m v => if negb (Qle_bool v m) then v else m) l m in
    (forall v, In v l -> v <= r) /\ m <= r /\ (r = m \/ In r l)).
  { clear l. induction l as [|a l IH]; intros m; simpl.
    - split; [tauto|]. split; [apply Qle_refl|auto].
    - destruct (Qle_bool a m) eqn:E; simpl.
      + apply Qle_bool_iff in E. destruct (IH m) as (H1 & H2 & H3). split; [|split; [exact H2|tauto]].
        intros v [<-|Hv]; [lra|auto].
      + apply Qle_bool_false in E. destruct (IH a) as (H1 & H2 & H3). split; [|split; [lra|]].
        * intros v [<-|Hv]; [exact H2|auto].
        * destruct H3 as [->|H3]; auto. }
  apply G.
Qed.

Lemma ap_at_spec t rec prec :
  (forall i, (i < length rec)%nat -> (i < length prec)%nat -> t <= nth i rec 0 -> nth i prec 0 <= ap_at t rec prec) /\
  0 <= ap_at t rec prec /\
  (ap_at t rec prec = 0 \/
   exists i, (i < length rec)%nat /\ (i < length prec)%nat /\ t <= nth i rec 0 /\ ap_at t rec prec = nth i prec 0).
Proof.
  unfold ap_at. set (L := map snd _). destruct (max0_spec L) as (H1 & H2 & H3).
  assert (HL : forall p, In p L <-> exists i, (i < length rec)%nat /\ (i < length prec)%nat /\ t <= nth i rec 0 /\ p = nth i prec 0).
  { intros p. unfold L. rewrite in_map_iff. split.
    - intros ([r p'] & <- & Hin). apply filter_In in Hin. destruct Hin as [Hin Ht]. simpl in *.
      apply (In_nth _ _ (0, 0)) in Hin. destruct Hin as (i & Hi & En). rewrite combine_length in Hi.
      exists i. split; [lia|]. split; [lia|]. apply Qle_bool_iff in Ht.
      assert (E : nth i rec 0 = r /\ nth i prec 0 = p').
      { clear -En Hi. revert prec i Hi En; induction rec as [|a rec IH]; intros [|b prec] [|i] Hi En; simpl in *; try lia.
        - injection En as -> ->; auto.
        - apply IH; [lia|exact En]. }
      destruct E as [-> ->]. auto.
    - intros (i & Hi1 & Hi2 & Ht & ->). exists (nth i rec 0, nth i prec 0). split; [reflexivity|].
      apply filter_In. split; [|simpl; apply Qle_bool_iff; exact Ht].
      clear -Hi1 Hi2. revert prec i Hi1 Hi2; induction rec as [|a rec IH]; intros [|b prec] [|i] H1 H2; simpl in *; try lia.
      + left; reflexivity.
      + right; apply IH; lia. }
  split; [|split; [exact H2|]].
  - intros i Hi1 Hi2 Ht. apply H1, HL. exists i; auto.
  - destruct H3 as [H3|H3]; [left; exact H3|right]. apply HL in H3. destruct H3 as (i & ? & ? & ? & ?). exists i; auto.
Qed.

Lemma fold_add_mono {T} (l : list T) (f g : T -> Q) : (forall t, In t l -> f t <= g t) ->
  forall a b, a <= b -> fold_left (fun a t => a + f t) l a <= fold_left (fun a t => a + g t) l b.
Proof.
  induction l as [|t l IH]; intros H a b Hab; simpl; [exact Hab|].
  apply IH; [intros; apply H; right; assumption|]. specialize (H t (or_introl eq_refl)). lra.
Qed.
Lemma fold_add_const {T} (l : list T) (f : T -> Q) v : (forall t, In t l -> f t == v) ->
  forall a, fold_left (fun a t => a + f t) l a == a + inject_Z (Z.of_nat (length l)) * v.
Proof.
  induction l as [|t l IH]; intros H a.
  - cbn. ring.
  - cbn [fold_left length]. rewrite IH by (intros; apply H; right; assumption).
    rewrite (H t (or_introl eq_refl)). rewrite Nat2Z.inj_succ. unfold Z.succ. rewrite inject_Z_plus. ring.
Qed.

Lemma in_grid x : In x grid -> 0 <= x <= (99#100).
Proof.
  unfold grid. rewrite in_map_iff. intros (k & <- & Hk). apply in_zseq in Hk.
  split.
  - apply Qdiv_nonneg; [apply inject_nonneg; lia|lra].
  - apply Qle_shift_div_r; [lra|]. assert (E : (99#100) * 100 == inject_Z 99) by reflexivity. rewrite E.
    apply inject_le. lia.
Qed.

Lemma unit_nth l i : unit_list l -> 0 <= nth i l 0 <= 1.
Proof.
  intros H. destruct (Nat.lt_ge_cases i (length l)) as [L|L]; [apply H, nth_In, L|].
  rewrite nth_overflow by exact L. lra.
Qed.

Lemma ap_at_unit t rec prec : unit_list prec -> 0 <= ap_at t rec prec <= 1.
Proof.
  intros H. destruct (ap_at_spec t rec prec) as (_ & H1 & [H2|(i & _ & _ & _ & H2)]).
  - rewrite H2. lra.
  - split; [exact H1|]. rewrite H2. apply unit_nth; exact H.
Qed.
Lemma ap_bounds rec prec : unit_list prec -> 0 <= average_precision rec prec <= 100#101.
Proof.
  intros H. unfold average_precision. split.
  - apply Qle_trans with (fold_left (fun a (t:Q) => a + 0) grid 0); [vm_compute; discriminate|].
    apply (fold_add_mono grid (fun _ => 0) (fun t => ap_at t rec prec / 101)); [|lra].
    intros t _. apply Qdiv_nonneg; [|lra]. apply ap_at_unit; exact H.
  - assert (E : fold_left (fun a (t:Q) => a + (1#101)) grid 0 == 100#101) by reflexivity. rewrite <- E.
    apply (fold_add_mono grid (fun t => ap_at t rec prec / 101) (fun _ => 1#101)); [|lra].
    intros t _. destruct (ap_at_unit t rec prec H) as [_ B]. apply Qle_shift_div_r; [lra|].
    assert (E1 : (1#101) * 101 == 1) by reflexivity. rewrite E1. exact B.
Qed.

Lemma ap_at_mono t rec rec' prec prec' : length rec = length prec -> length rec' = length rec -> length prec' = length prec ->
  (forall i, nth i rec 0 <= nth i rec' 0) -> (forall i, nth i prec 0 <= nth i prec' 0) ->
  ap_at t rec prec <= ap_at t rec' prec'.
Proof.
  intros L1 L2 L3 Hr Hp. destruct (ap_at_spec t rec' prec') as (A & B & _).
  destruct (ap_at_spec t rec prec) as (_ & _ & [->|(i & I1 & I2 & I3 & ->)]); [exact B|].
  apply Qle_trans with (nth i prec' 0); [apply Hp|]. apply A; [lia|lia|].
  apply Qle_trans with (nth i rec 0); [exact I3|apply Hr].
Qed.
Lemma ap_mono rec rec' prec prec' : length rec = length prec -> length rec' = length rec -> length prec' = length prec ->
  (forall i, nth i rec 0 <= nth i rec' 0) -> (forall i, nth i prec 0 <= nth i prec' 0) ->
  average_precision rec prec <= average_precision rec' prec'.
Proof.
  intros L1 L2 L3 Hr Hp. unfold average_precision. apply fold_add_mono; [|lra].
  intros t _. pose proof (ap_at_mono t rec rec' prec prec' L1 L2 L3 Hr Hp) as M.
  unfold Qdiv. apply Qmult_le_compat_r; [exact M|]. vm_compute; discriminate.
Qed.
(** AP reaches its maximum iff the highest grid recall 0.99 is reached with precision 1. *)
Lemma ap_perfect rec prec i : (i < length rec)%nat -> (i < length prec)%nat -> unit_list prec ->
  (99#100) <= nth i rec 0 -> nth i prec 0 == 1 -> average_precision rec prec == 100#101.
Proof.
  intros I1 I2 U Hr Hp. unfold average_precision.
  rewrite (fold_add_const grid _ (1#101)); [reflexivity|].
  intros t Ht. apply in_grid in Ht. destruct (ap_at_unit t rec prec U) as [_ B].
  destruct (ap_at_spec t rec prec) as (A & _ & _). specialize (A i I1 I2 ltac:(lra)).
  assert (E : ap_at t rec prec == 1) by lra. rewrite E. reflexivity.
Qed.

(** ** AUC *)
Definition sorted_fst (l : list (Q * Q)) : Prop := StronglySorted (fun a b => fst a < fst b) l.

Lemma insert_unique_in r p l q : In q (insert_unique r p l) -> q = (r, p) \/ In q l.
Proof.
  induction l as [|[r' p'] l IH]; simpl; [intros [<-|[]]; auto|].
  destruct (r ?= r'); simpl; intuition.
Qed.
Lemma insert_unique_sorted r p l : sorted_fst l -> sorted_fst (insert_unique r p l).
Proof.
  unfold sorted_fst. induction l as [|[r' p'] l IH]; intros S; simpl; [repeat constructor|].
  inversion S as [|? ? S' F]; subst. destruct (r ?= r') eqn:E.
  - exact S.
  - apply Qlt_alt in E. constructor; [exact S|]. constructor; [exact E|].
    eapply Forall_impl; [|exact F]. simpl. intros a Ha. lra.
  - apply Qgt_alt in E. constructor; [apply IH; exact S'|].
    apply Forall_forall. intros q Hq. apply insert_unique_in in Hq. destruct Hq as [->|Hq]; [exact E|].
    rewrite Forall_forall in F. apply F; exact Hq.
Qed.
Lemma unique_first_sorted rec prec : sorted_fst (unique_first rec prec).
Proof.
  unfold unique_first. assert (G : forall l acc, sorted_fst acc ->
    sorted_fst (fold_left (fun acc rp => insert_unique (fst rp) (snd rp) acc) l acc)).
  { induction l as [|a l IH]; intros acc H; simpl; [exact H|]. apply IH, insert_unique_sorted, H. }
  apply G. constructor.
Qed.
Lemma unique_first_in rec prec q : In q (unique_first rec prec) -> In q (combine rec prec).
Proof.
  unfold unique_first. assert (G : forall l acc, In q (fold_left (fun acc rp => insert_unique (fst rp) (snd rp) acc) l acc) ->
    In q acc \/ In q l).
  { induction l as [|a l IH]; intros acc H; simpl in *; [auto|]. apply IH in H. destruct H as [H|H]; [|auto].
    apply insert_unique_in in H. destruct H as [->|H]; [right; left; destruct a; reflexivity|auto]. }
  intros H. apply G in H. destruct H as [[]|H]; exact H.
Qed.

Lemma interp_bounds x l : sorted_fst l -> (forall q, In q l -> 0 <= snd q <= 1) -> 0 <= interp_in x l <= 1.
Proof.
  induction l as [|[r p] l IH]; intros S H; cbn [interp_in]; [lra|].
  inversion S as [|? ? S' F]; subst.
  assert (Hp : 0 <= p <= 1) by (apply (H (r, p)); left; reflexivity).
  destruct l as [|[r' p'] l'].
  - destruct (Qeq_bool x r); lra.
  - assert (Hp' : 0 <= p' <= 1) by (apply (H (r', p')); right; left; reflexivity).
    destruct (Qle_bool r' x) eqn:E1; [apply IH; auto; intros; apply H; right; assumption|].
    destruct (Qle_bool r x) eqn:E2; [|lra].
    apply Qle_bool_false in E1. apply Qle_bool_iff in E2.
    inversion F as [|? ? Hrr _]; subst. simpl in Hrr.
    set (d := (x - r) / (r' - r)).
    assert (D : 0 <= d <= 1).
    { unfold d; split; [apply Qdiv_nonneg; lra|apply Qdiv_le_1; lra]. }
    assert (E : p + (p' - p) / (r' - r) * (x - r) == p * (1 - d) + p' * d) by (unfold d; field; lra).
    rewrite E. split; nra.
Qed.

Lemma interp_mono x l l' : sorted_fst l ->
  Forall2 (fun a b => fst a = fst b /\ snd a <= snd b) l l' -> interp_in x l <= interp_in x l'.
Proof.
  intros S H. revert S; induction H as [|[r p] [r0 q] l l' [E L] F IH]; intros S; cbn [interp_in]; [lra|].
  simpl in E, L. subst r0. inversion S as [|? ? S' Fo]; subst. specialize (IH S').
  destruct F as [|[r1 p1] [r2 q1] l l' [E1 L1] F]; [destruct (Qeq_bool x r); lra|].
  simpl in E1, L1. subst r2. destruct (Qle_bool r1 x) eqn:B1; [exact IH|].
  destruct (Qle_bool r x) eqn:B2; [|lra].
  apply Qle_bool_false in B1. apply Qle_bool_iff in B2.
  inversion Fo as [|? ? Hrr _]; subst. simpl in Hrr.
  set (d := (x - r) / (r1 - r)).
  assert (D : 0 <= d <= 1).
  { unfold d; split; [apply Qdiv_nonneg; lra|apply Qdiv_le_1; lra]. }
  assert (X1 : p + (p1 - p) / (r1 - r) * (x - r) == p * (1 - d) + p1 * d) by (unfold d; field; lra).
  assert (X2 : q + (q1 - q) / (r1 - r) * (x - r) == q * (1 - d) + q1 * d) by (unfold d; field; lra).
  rewrite X1, X2. nra.
Qed.

Definition pair_le (a b : Q * Q) : Prop := fst a = fst b /\ snd a <= snd b.
Lemma insert_unique_mono r p p' l l' : p <= p' -> Forall2 pair_le l l' ->
  Forall2 pair_le (insert_unique r p l) (insert_unique r p' l').
Proof.
  intros Hp H. induction H as [|[r1 p1] [r2 p2] l l' [E L] F IH]; simpl; [repeat constructor; exact Hp|].
  simpl in E, L. subst r2. destruct (r ?= r1); repeat (constructor; auto).
Qed.
Lemma unique_first_mono rec prec prec' : Forall2 Qle prec prec' ->
  Forall2 pair_le (unique_first rec prec) (unique_first rec prec').
Proof.
  unfold unique_first. intros H.
  assert (G : forall rec prec prec' acc acc', Forall2 Qle prec prec' -> Forall2 pair_le acc acc' ->
     Forall2 pair_le (fold_left (fun acc rp => insert_unique (fst rp) (snd rp) acc) (combine rec prec) acc)
                     (fold_left (fun acc rp => insert_unique (fst rp) (snd rp) acc) (combine rec prec') acc')).
  { induction rec0 as [|r rec0 IH]; intros pr pr' acc acc' Hp Ha; simpl; [exact Ha|].
    destruct Hp as [|a b la lb Hab Hl]; simpl; [exact Ha|]. apply IH; [exact Hl|].
    apply insert_unique_mono; assumption. }
  apply G; [exact H|constructor].
Qed.

Lemma qsum_map l (f : Q -> Q) : qsum (map f l) = fold_left (fun a t => a + f t) l 0.
Proof.
  unfold qsum. generalize 0. induction l as [|a l IH]; intros z; simpl; [reflexivity|]. apply IH.
Qed.

Lemma auc_bounds rec prec : unit_list prec -> 0 <= auc rec prec <= 1.
Proof.
  intros U. unfold auc. destruct (Nat.ltb 1 _); [|lra].
  set (u := unique_first rec prec).
  assert (B : forall x, 0 <= interp_in x u <= 1).
  { intros x. apply interp_bounds; [apply unique_first_sorted|]. intros [r p] Hq. apply unique_first_in in Hq.
    apply in_combine_r in Hq. apply U; exact Hq. }
  rewrite qsum_map. split.
  - apply Qmult_le_0_compat; [|lra].
    apply Qle_trans with (fold_left (fun a (t:Q) => a + 0) grid 0); [vm_compute; discriminate|].
    apply fold_add_mono; [|lra]. intros t _. apply B.
  - assert (E : fold_left (fun a (t:Q) => a + 1) grid 0 == 100) by reflexivity.
    assert (M : fold_left (fun a t => a + interp_in t u) grid 0 <= 100).
    { rewrite <- E. apply fold_add_mono; [|lra]. intros t _. apply B. }
    lra.
Qed.
Lemma Forall2_len' {X Y} (P : X -> Y -> Prop) l1 l2 : Forall2 P l1 l2 -> length l1 = length l2.
Proof. induction 1; simpl; lia. Qed.
Lemma auc_mono rec prec prec' : Forall2 Qle prec prec' -> auc rec prec <= auc rec prec'.
Proof.
  intros H. pose proof (unique_first_mono rec prec prec' H) as M. unfold auc.
  rewrite <- (Forall2_len' _ _ _ M). destruct (Nat.ltb 1 _); [|lra].
  rewrite !qsum_map.
  assert (L : fold_left (fun a t => a + interp_in t (unique_first rec prec)) grid 0 <=
              fold_left (fun a t => a + interp_in t (unique_first rec prec')) grid 0).
  { apply fold_add_mono; [|lra]. intros t _. apply interp_mono; [apply unique_first_sorted|exact M]. }
  lra.
Qed.
Lemma auc_constant rec prec v : (forall r, In r rec -> r == v) -> auc rec prec == 0.
Proof.
  intros H. unfold auc.
  assert (L : (length (unique_first rec prec) <= 1)%nat).
  { pose proof (unique_first_sorted rec prec) as S.
    destruct (unique_first rec prec) as [|a [|b l]] eqn:E; simpl; try lia. exfalso.
    assert (Ha : In a (combine rec prec)) by (apply unique_first_in; rewrite E; left; reflexivity).
    assert (Hb : In b (combine rec prec)) by (apply unique_first_in; rewrite E; right; left; reflexivity).
    destruct a as [r1 p1], b as [r2 p2]. apply in_combine_l in Ha, Hb.
    inversion S as [|? ? _ F]; subst. inversion F as [|? ? Hlt _]; subst. simpl in Hlt.
    apply H in Ha, Hb. lra. }
  replace (Nat.ltb 1 (length (unique_first rec prec))) with false by (symmetry; apply Nat.ltb_ge; exact L).
  reflexivity.
Qed.

(** ** thresholds *)
Lemma nth_map_zseq (f : Z -> Q) n k : (k < n)%nat -> nth k (map f (zseq n)) 0 = f (Z.of_nat k).
Proof.
  intros H. rewrite (nth_indep _ 0 (f 0%Z)) by (rewrite map_length; unfold zseq; rewrite map_length, seq_length; exact H).
  rewrite map_nth. f_equal. unfold zseq. change 0%Z with (Z.of_nat 0). rewrite map_nth, seq_nth by exact H. reflexivity.
Qed.
Lemma thresholds_int n : (1 <= n)%Z ->
  exists th, check_thresholds (AInt n) = Ok th /\ length th = Z.to_nat n /\
  forall k, (k < Z.to_nat n)%nat -> nth k th 0 == inject_Z (Z.of_nat k + 1) / inject_Z (n + 1).
Proof.
  intros Hn. unfold check_thresholds, thresholds_of_int.
  replace (n + 1 =? 0)%Z with false by lia. replace (n <? 0)%Z with false by lia.
  eexists; split; [reflexivity|].
  assert (P : 0 < inject_Z (n + 1)) by (apply inject_pos; lia).
  destruct (Z.eq_dec n 1) as [->|N1].
  - split; [reflexivity|]. intros k Hk. replace k with O by lia. reflexivity.
  - unfold linspace. destruct (Z.to_nat n) as [|[|m]] eqn:En; [lia|lia|].
    rewrite <- En. split; [rewrite map_length; unfold zseq; rewrite map_length, seq_length; lia|].
    intros k Hk. rewrite nth_map_zseq by lia. rewrite Z2Nat.id by lia.
    assert (P1 : 0 < inject_Z (n - 1)) by (apply inject_pos; lia).
    assert (E1 : inject_Z (n + 1) == inject_Z (n - 1) + 2)
      by (unfold Qeq; simpl; lia).
    rewrite (inject_Z_plus (Z.of_nat k) 1). rewrite !E1. change (inject_Z 1) with 1. field. split; lra.
Qed.

(** ** sanity of totals *)
Lemma sane_total f g i samples :
  (forall s, In s samples -> (0 <= nth i (f (snd s)) 0 <= nth i (g (snd s)) 0)%Z) ->
  (0 <= total f i samples <= total g i samples)%Z.
Proof.
  unfold total. induction samples as [|s l IH]; intros H; simpl; [lia|].
  pose proof (H s (or_introl eq_refl)). pose proof (IH ltac:(intros; apply H; right; assumption)). lia.
Qed.
Lemma totals_sane n samples : Forall (fun s => shaped n (snd s)) samples ->
  (forall s, In s samples -> sane (snd s)) -> sane (totals n samples).
Proof.
  intros S H i. destruct (totals_at n samples i S) as (-> & -> & -> & ->).
  split; apply sane_total; intros s Hs; apply (H s Hs i).
Qed.
Lemma sane_recs n c : shaped n c -> sane c -> unit_list (recs c).
Proof.
  intros S H x Hx. apply (In_nth _ _ 0) in Hx. destruct Hx as (i & Hi & <-).
  rewrite (recs_length n c S) in Hi. rewrite (nth_recs n c i S Hi). apply recall_unit, H.
Qed.
Lemma sane_precs n c : shaped n c -> sane c -> unit_list (precs c).
Proof.
  intros S H x Hx. apply (In_nth _ _ 0) in Hx. destruct Hx as (i & Hi & <-).
  rewrite (precs_length n c S) in Hi. rewrite (nth_precs n c i S Hi). apply recall_unit, H.
Qed.

Lemma ims_unit th rec prec b : length rec = length th -> length prec = length th ->
  interpolated_max_scores th rec prec = Ok b -> unit_list rec -> unit_list prec ->
  0 <= sc_r b <= 1 /\ 0 <= sc_p b <= 1 /\ 0 <= sc_f b <= 1.
Proof.
  intros Lr Lp E Ur Up. destruct (ims_spec th rec prec b Lr Lp E) as (_ & _ & H & F).
  assert (R : 0 <= sc_r b <= 1 /\ 0 <= sc_p b <= 1).
  { destruct H as [->|(i & k & Hi & Hk & -> & _)]; unfold sc_r, sc_p; cbn [fst snd point].
    - split; apply unit_nth; assumption.
    - split; apply lerp_between; try exact Hk; apply unit_nth; assumption. }
  split; [apply R|]. split; [apply R|]. rewrite F. apply f1_unit; apply R.
Qed.
Lemma ims_threshold th rec prec b lo hi : length rec = length th -> length prec = length th ->
  interpolated_max_scores th rec prec = Ok b -> (forall t, In t th -> lo <= t <= hi) ->
  lo <= sc_t b <= hi.
Proof.
  intros Lr Lp E H. destruct (ims_spec th rec prec b Lr Lp E) as (_ & _ & D & _).
  assert (N : th <> []) by (destruct th; [discriminate|discriminate]).
  destruct D as [->|(i & k & Hi & Hk & -> & _)]; unfold sc_t; cbn [fst snd point].
  - apply H, nth_In. destruct th; [congruence|simpl; lia].
  - apply lerp_between; [exact Hk| |]; apply H, nth_In; lia.
Qed.

(** ** calculate_metrics: any schedule *)
Lemma chunks1_length {A} (l : list A) : length (chunks 1 l) = length l.
Proof.
  unfold chunks. assert (G : forall fuel (l : list A), (length l <= fuel)%nat -> length (chunk_fuel fuel 1 l) = length l).
  { induction fuel as [|f IH]; intros [|a m] H; simpl in *; try lia. rewrite IH; simpl; lia. }
  apply G; lia.
Qed.
Lemma calculate_metrics_any_schedule {S} schedule nproc (name : S -> string) ev thr samples :
  Permutation schedule (seq 0 (length samples)) ->
  calculate_metrics schedule nproc name ev thr samples =
  bind (run_chunk ev samples) (fun ms => summarise thr (combine (map name samples) ms)).
Proof.
  intros P. unfold calculate_metrics. destruct (1 <? nproc)%Z eqn:E.
  - rewrite parallel_ordered; [reflexivity|lia|lia|]. unfold njobs.
    change (Z.to_nat 1) with 1%nat. rewrite chunks1_length. exact P.
  - rewrite track_progress_result. reflexivity.
Qed.
